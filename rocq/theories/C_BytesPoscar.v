(** Theorems about POSCAR files of any bytes: C50. *)
From Coq Require Import String ZArith NArith Reals Bool Arith List.
From Verif Require Import Base LinAlg M_Validate M_Text M_Poscar M_Bytes S_Text S_Bytes S_BytesOutcar P_BytesOutcar3 P_BytesPoscar.
Import ListNotations.

(** Whatever bytes a file holds and however they are divided into blocks, what is returned is
    what is returned for a text the file begins with. *)
Theorem C50_sound : forall blocks, exists t, begins t (concat blocks) /\ forall E,
  (forall p, read_structure_file E blocks = BOk p -> read_structure E t = Ok p) /\
  (forall p, read_positions_file E blocks = BOk p -> read_positions E t = Ok p).
Proof. exact f_poscar_sound. Qed.
Print Assumptions C50_sound.

(** A file that is not UTF-8 is refused with an encoding error or InvalidFileException, unless
    the text it begins with settles the outcome: then it is read as it would be if that text
    went on in any other way. *)
Theorem C50_undecodable : forall blocks, (forall t, ~ utf8_text t (concat blocks)) ->
  exists t, begins t (concat blocks) /\ forall E u,
    usual (read_structure_file E blocks) (read_structure E (t ++ u)) /\ usual (read_positions_file E blocks) (read_positions E (t ++ u)).
Proof. exact f_poscar_undecodable. Qed.
Print Assumptions C50_undecodable.

Example C50_undecodable_nonvacuous : forall t, ~ utf8_text t (concat [o_bytes; [233; 10]%N]).
Proof. intros t. pose proof (o_hopeless [] t) as H. cbn [concat]. rewrite !app_nil_r in *. exact H. Qed.
