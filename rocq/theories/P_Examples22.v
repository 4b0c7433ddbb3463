(** Concrete files of bytes that meet the hypotheses of the theorems about encodings. *)
From Coq Require Import String Ascii ZArith NArith Reals Bool Arith List Lia.
From Verif Require Import Base LinAlg Constants M_Validate M_Text M_Poscar M_Files M_Bytes S_Text S_Files S_Cut S_Bytes P_Text P_Poscar P_Poscar4 P_Bytes P_Bytes2 P_Bytes3 P_Examples5.
Import ListNotations.
Local Open Scope N_scope.

(** Exact arithmetic; everything below the surrogates printable *)
Definition byE : env := mkEnv M_Text.Fin (fun _ => None) (fun c => c <? 55296).
Lemma byE_sound : sound_printable byE.
Proof. intros c H. left. apply N.ltb_lt. exact H. Qed.
(** "café", in UTF-8 and in Latin-1 *)
Definition cafe : text := [99; 97; 102; 233].
Definition cafe8 : list N := [99; 97; 102; 195; 169].
Lemma cafe_utf8 : utf8_text cafe cafe8.
Proof. apply (proj1 (proj1 (f_C46_codec cafe cafe8))). reflexivity. Qed.
Lemma ex_C46_codec : utf8_encode cafe = Some cafe8 /\ utf8_decode cafe8 = Some (cafe, []) /\ ~ utf8_text [55296] [237; 160; 128].
Proof.
  repeat split; try reflexivity. intros H. apply decode_iff in H. discriminate.
Qed.
(** the two bytes of one character in different blocks *)
Lemma ex_C50_bytes : utf8_text (cafe ++ [13; 10]) (concat [[99; 97; 102; 195]; [169; 13]; [10]]) /\
  read_structure_file byE [[99; 97; 102; 195]; [169; 13]; [10]] =
    BErr (Plain (InvalidFileException (txt "scale factor could not be parsed: "))).
Proof.
  assert (U : utf8_text (cafe ++ [13; 10]) (concat [[99; 97; 102; 195]; [169; 13]; [10]])) by (apply (proj1 (f_C46_codec _ _)); reflexivity).
  split; [exact U|]. rewrite (proj1 (f_C50_bytes byE _ _ U)). reflexivity.
Qed.
Lemma ex_latin1 : hopeless [99; 97; 102; 233; 10] /\
  read_structure_file byE [[99; 97; 102; 233; 10]] = BErr UnboundLocalError.
Proof.
  assert (D : forall more, utf8_decode ([99; 97; 102; 233; 10] ++ more) = None) by (intros more; reflexivity).
  assert (H : hopeless [99; 97; 102; 233; 10]) by (intros more t U; apply decode_iff in U; rewrite D in U; discriminate).
  split; [exact H|]. apply f_C50_other_encoding. exact H.
Qed.
Lemma by_written : exists pieces, structure_pieces byE exl exn exp cafe = Ok pieces.
Proof. destruct ex_C46 as (V & N & C & _). apply f_C46_success. auto. Qed.
Lemma by_written_ts : exists pieces, trajectory_pieces byE exl exn ext cafe = Ok pieces.
Proof. destruct ex_C52 as (V & N & C & _). apply f_C52_success. auto. Qed.
(** a structure labelled "café" is written and read back, byte by byte *)
Lemma ex_C46_bytes : exists pieces bytes lat pos, structure_pieces byE exl exn exp cafe = Ok pieces /\ file_bytes pieces = Some bytes /\
  firstn 5 bytes = cafe8 /\ read_structure_file byE (map (fun b => [b]) bytes) = BOk (lat, exn, pos).
Proof.
  destruct by_written as (pieces & H). destruct ex_C46 as (_ & _ & _ & _ & WL & WP & _).
  destruct (f_C46_bytes byE _ _ _ _ _ byE_sound eq_refl WL WP H) as (bytes & lat & pos & B & R & _).
  exists pieces, bytes, lat, pos. split; [exact H|]. split; [exact B|]. split.
  - destruct (structure_parts _ _ _ _ _ _ H) as (tail & P & _). unfold file_bytes in B. rewrite P in B.
    change (repr_body (e_printable byE) cafe) with cafe in B. cbn [cafe app utf8_encode] in B.
    destruct (utf8_encode tail) as [x|]; [|discriminate]. cbn in B. apply some_inj in B. subst. reflexivity.
  - apply R. clear. induction bytes as [|b l IH]; [reflexivity|]. cbn [map concat app]. rewrite IH. reflexivity.
Qed.
Lemma ex_C52_bytes : exists pieces bytes ps, trajectory_pieces byE exl exn ext cafe = Ok pieces /\ file_bytes pieces = Some bytes /\
  read_trajectory_file byE [bytes] = BOk ps /\ List.length ps = 2%nat.
Proof.
  destruct by_written_ts as (pieces & H). destruct ex_C52 as (_ & _ & _ & WL & WP & _).
  destruct (f_C52_bytes byE _ _ _ _ _ byE_sound eq_refl WL WP H) as (bytes & ps & B & R & S & _).
  exists pieces, bytes, ps. split; [exact H|]. split; [exact B|]. split; [apply R; cbn; apply app_nil_r|]. injection S as S. symmetry. exact S.
Qed.
(** a lone surrogate is no character of UTF-8, and can label a structure *)
Lemma ex_C48_encodable : ~ (exists bytes, utf8_text [56507] bytes) /\
  exists pieces bytes, structure_pieces byE exl exn exp [56507] = Ok pieces /\ file_bytes pieces = Some bytes.
Proof.
  split.
  - intros (bytes & U). apply (proj1 (f_C46_codec _ _)) in U. discriminate.
  - destruct ex_C46 as (V & N & C & _). destruct (proj2 (f_C46_success byE exl exn exp [56507]) (conj V (conj N C))) as (pieces & H).
    destruct (proj1 (f_C48_encodable byE exl exn [56507] byE_sound) _ _ H) as (bytes & B & _). exists pieces, bytes. auto.
Qed.
(** a write interrupted in the middle of the character of the label *)
Lemma ex_C54_bytes : exists pieces bytes rest, structure_pieces byE exl exn exp cafe = Ok pieces /\ file_bytes pieces = Some bytes /\
  bytes = ([99; 97; 102; 195] ++ rest)%list /\ read_structure_file byE [[99; 97; 102; 195]] = BErr UnboundLocalError.
Proof.
  destruct ex_C46_bytes as (pieces & bytes & lat & pos & H & B & F & _). exists pieces, bytes, (169 :: skipn 5 bytes). split; [exact H|]. split; [exact B|]. split.
  - rewrite <- (firstn_skipn 5 bytes) at 1. rewrite F. reflexivity.
  - apply unfinished_file; cbn; try (intros [|[|[|[|[]]]]]; discriminate). intros t U. apply decode_iff in U. discriminate.
Qed.
