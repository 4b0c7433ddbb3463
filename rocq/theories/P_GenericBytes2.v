(** Concrete files for the generic readers on bytes. *)
From Coq Require Import String ZArith NArith Reals Bool Arith List.
From Verif Require Import Base LinAlg M_Validate M_Text M_Poscar M_Outcar M_Vasprun M_Files M_Dataset M_Generic M_Bytes M_BytesOutcar M_GenericBytes
  S_Text S_Cut S_Bytes S_BytesOutcar S_GenericBytes P_BytesOutcar P_BytesOutcar3 P_GenericBytes P_Examples7.
Import ListNotations.
Local Open Scope string_scope.

Lemma ex_C63_bytes : holds (Present o_bytes) (BPresent [o_bytes]) /\
  exists a, forall parse early p, byte_read_positions oE parse early (fun _ => BPresent [o_bytes]) p "outcar" = BG (GOk a).
Proof.
  split; [exact o_utf8|]. destruct o_positions as (a & Ha & _). exists a. intros parse early p.
  destruct (f_C63_bytes oE parse early (fun _ => Present o_bytes) (fun _ => BPresent [o_bytes]) p o_utf8 unit (fun _ _ _ => Err ValueError) "outcar") as (_ & _ & _ & _ & H & _).
  rewrite H. unfold generic_read_positions, dispatch, lookup, position_readers. cbn [find fst snd String.eqb Ascii.eqb Bool.eqb]. unfold from_file. rewrite Ha. reflexivity.
Qed.
Lemma ex_C63_sound : (forall t, ~ utf8_text t (concat [o_bytes; [233; 10]%N])) /\
  exists a, forall parse early p, byte_read_positions oE parse early (fun _ => BPresent [o_bytes; [233; 10]%N]) p "outcar" = BG (GOk a).
Proof.
  split. { intros t. pose proof (o_hopeless [] t) as H. cbn [concat]. rewrite !app_nil_r in *. exact H. }
  destruct (outcar_positions_file oE [o_bytes; [233; 10]%N]) as [a|e] eqn:Er.
  - exists a. intros parse early p. unfold byte_read_positions, bdispatch, lookup. cbn [find fst snd String.eqb Ascii.eqb Bool.eqb]. unfold from_bytes. rewrite Er. reflexivity.
  - exfalso. vm_compute in Er. discriminate Er.
Qed.
