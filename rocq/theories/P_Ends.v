(** Line ends *)
From Coq Require Import String ZArith NArith Bool Arith List Lia.
From Verif Require Import Base LinAlg M_Validate M_Text M_Poscar M_Outcar M_Vasprun M_Files M_Dataset M_Generic S_Ends.
Import ListNotations.
Local Open Scope nat_scope.

Lemma universal_plain s : ~ In 13%N s -> universal s = s.
Proof.
  induction s as [|c s IH]; intros H; [reflexivity|]. cbn [universal]. destruct (N.eqb_spec c 13) as [-> | N]; [exfalso; apply H; left; reflexivity|]. f_equal. apply IH. intros I. apply H. right. exact I.
Qed.
Lemma universal_crlf s : ~ In 13%N s -> universal (with_line_ends CRLF s) = s.
Proof.
  induction s as [|c s IH]; intros H; [reflexivity|]. assert (H' : ~ In 13%N s) by (intros I; apply H; right; exact I). specialize (IH H').
  unfold with_line_ends in *. cbn [flat_map]. destruct (N.eqb_spec c 10) as [-> | N].
  - cbn [app CRLF universal]. cbn [N.eqb Pos.eqb]. rewrite IH. reflexivity.
  - cbn [app universal]. destruct (N.eqb_spec c 13) as [-> | N']; [exfalso; apply H; left; reflexivity|]. f_equal. exact IH.
Qed.
Lemma universal_cr s : ~ In 13%N s -> universal (with_line_ends CR s) = s.
Proof.
  induction s as [|c s IH]; intros H; [reflexivity|]. assert (H' : ~ In 13%N s) by (intros I; apply H; right; exact I). specialize (IH H').
  assert (HD : forall d l, with_line_ends CR s = d :: l -> d <> 10%N).
  { intros d l E. destruct s as [|a s]; [discriminate|]. unfold with_line_ends in E. cbn [flat_map] in E. destruct (N.eqb_spec a 10); cbn in E; injection E; intros; subst; [discriminate|assumption]. }
  unfold with_line_ends in *. cbn [flat_map]. destruct (N.eqb_spec c 10) as [-> | N].
  - unfold CR at 1. cbn [app universal]. cbn [N.eqb Pos.eqb]. destruct (flat_map (fun c => if (c =? 10)%N then CR else [c]) s) as [|d l] eqn:E; [cbn in IH; subst; reflexivity|].
    destruct (N.eqb_spec d 10) as [-> | N]; [exfalso; exact (HD _ _ eq_refl eq_refl)|]. change (NL :: universal (d :: l) = 10%N :: s). rewrite IH. reflexivity.
  - cbn [app universal]. destruct (N.eqb_spec c 13) as [-> | N']; [exfalso; apply H; left; reflexivity|]. f_equal. exact IH.
Qed.
Lemma universal_same s t : same_text s t -> universal t = universal s.
Proof.
  intros (H & [-> | [-> | ->]]); [reflexivity| |]; [rewrite universal_crlf by exact H|rewrite universal_cr by exact H]; symmetry; apply universal_plain, H.
Qed.
Lemma f_C80_structure E s t : same_text s t -> read_structure E t = read_structure E s.
Proof. intros H. unfold read_structure. rewrite (universal_same s t H). reflexivity. Qed.
Lemma f_C80_positions_ts E s t : same_text s t -> read_positions_ts E t = read_positions_ts E s.
Proof. intros H. unfold read_positions_ts. rewrite (universal_same s t H). reflexivity. Qed.
Lemma from_file_same {A} (rd : text -> res A) f f' p : (forall s t, same_text s t -> rd t = rd s) -> same_files f f' -> from_file f' rd p = from_file f rd p.
Proof. intros HR HF. unfold from_file. destruct (HF p) as [-> | (s & t & -> & -> & HS)]; [reflexivity|]. apply HR, HS. Qed.

Ltac ends H := unfold outcar_read_phonons, outcar_read_trajectory, outcar_read_positions_and_polarizability, outcar_read_structure_and_polarizability, outcar_read_positions, outcar_read_ref_structure, poscar_read_positions, poscar_read_ref_structure, read_positions, outcar_open;
  rewrite ?(universal_same _ _ H); reflexivity.
Section Generic.
Context (E : env) (parse : text -> parsed) (f f' : fs) (HF : same_files f f').
Lemma f_C80_phonons p : generic_read_phonons E parse f' p "outcar" = generic_read_phonons E parse f p "outcar".
Proof.
  unfold generic_read_phonons, dispatch, lookup. cbn -[from_file]. rewrite (from_file_same (outcar_read_phonons E) f f' p); [reflexivity| |exact HF]. intros s t H. ends H.
Qed.
Lemma f_C80_trajectory p : generic_read_trajectory E parse f' p "outcar" = generic_read_trajectory E parse f p "outcar".
Proof.
  unfold generic_read_trajectory, dispatch, lookup. cbn -[from_file]. rewrite (from_file_same (outcar_read_trajectory E) f f' p); [reflexivity| |exact HF]. intros s t H. ends H.
Qed.
Lemma f_C80_positions_and_polarizability p : generic_read_positions_and_polarizability E parse f' p "outcar" = generic_read_positions_and_polarizability E parse f p "outcar".
Proof.
  unfold generic_read_positions_and_polarizability, dispatch, lookup. cbn -[from_file]. rewrite (from_file_same (outcar_read_positions_and_polarizability E) f f' p); [reflexivity| |exact HF]. intros s t H. ends H.
Qed.
Lemma sap_same s t : same_text s t -> outcar_read_structure_and_polarizability E t = outcar_read_structure_and_polarizability E s.
Proof. intros H. ends H. Qed.
Lemma f_C80_structure_and_polarizability p : generic_read_structure_and_polarizability E parse f' p "outcar" = generic_read_structure_and_polarizability E parse f p "outcar".
Proof.
  unfold generic_read_structure_and_polarizability, dispatch, lookup. cbn -[from_file]. rewrite (from_file_same (outcar_read_structure_and_polarizability E) f f' p); [reflexivity|exact sap_same|exact HF].
Qed.
Lemma f_C80_positions p fmt : fmt = "poscar"%string \/ fmt = "outcar"%string \/ fmt = "xdatcar"%string -> generic_read_positions E parse f' p fmt = generic_read_positions E parse f p fmt.
Proof.
  intros [-> | [-> | ->]]; unfold generic_read_positions, dispatch, lookup; cbn -[from_file].
  - rewrite (from_file_same (poscar_read_positions E) f f' p); [reflexivity| |exact HF]. intros s t H. ends H.
  - rewrite (from_file_same (outcar_read_positions E) f f' p); [reflexivity| |exact HF]. intros s t H. ends H.
  - rewrite (from_file_same (poscar_read_positions E) f f' p); [reflexivity| |exact HF]. intros s t H. ends H.
Qed.
Lemma f_C80_ref_structure {A} (mk : list Z -> narr -> narr -> res A) p fmt : fmt = "poscar"%string \/ fmt = "outcar"%string \/ fmt = "xdatcar"%string ->
  generic_read_ref_structure E parse mk f' p fmt = generic_read_ref_structure E parse mk f p fmt.
Proof.
  assert (HP : forall s t, same_text s t -> poscar_read_ref_structure E mk t = poscar_read_ref_structure E mk s) by (intros s t H; unfold poscar_read_ref_structure; rewrite (f_C80_structure E s t H); reflexivity).
  intros [-> | [-> | ->]]; unfold generic_read_ref_structure, dispatch, lookup; cbn -[from_file].
  - rewrite (from_file_same (poscar_read_ref_structure E mk) f f' p); [reflexivity|exact HP|exact HF].
  - rewrite (from_file_same (outcar_read_ref_structure mk E) f f' p); [reflexivity| |exact HF]. intros s t H. ends H.
  - rewrite (from_file_same (poscar_read_ref_structure E mk) f f' p); [reflexivity|exact HP|exact HF].
Qed.
Lemma f_C80_dataset torch cast ps : generic_read_dataset E parse torch cast f' ps "outcar" = generic_read_dataset E parse torch cast f ps "outcar".
Proof.
  unfold generic_read_dataset, dispatch, lookup. destruct (negb torch); [reflexivity|]. cbn -[from_file read_dataset].
  assert (HE : read_dataset (from_file f' (outcar_read_structure_and_polarizability E)) torch cast ps = read_dataset (from_file f (outcar_read_structure_and_polarizability E)) torch cast ps).
  { unfold read_dataset. destruct (negb torch); [reflexivity|]. destruct ps as [|p0 ps]; [reflexivity|]. f_equal.
    assert (HL : forall ps i l z pos pol, dataset_loop (from_file f' (outcar_read_structure_and_polarizability E)) i l z pos pol ps = dataset_loop (from_file f (outcar_read_structure_and_polarizability E)) i l z pos pol ps); [|apply HL].
    clear ps p0. intros ps. induction ps as [|p ps IH]; intros i l z pos pol; [reflexivity|].
    cbn [dataset_loop]. rewrite (from_file_same (outcar_read_structure_and_polarizability E) f f' p sap_same HF). destruct (from_file f _ p) as [[[[a b] c] d]|er]; [|reflexivity]. cbn [rbind].
    match goal with |- rbind ?x _ = _ => destruct x; [|reflexivity] end. cbn [rbind]. apply IH. }
  rewrite HE. reflexivity.
Qed.
End Generic.
