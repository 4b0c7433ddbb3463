(** Concrete cases meeting the hypotheses of the theorems about generic readers *)
From Coq Require Import String Ascii ZArith NArith QArith Qreals Reals Bool Arith List Lia Lra.
From Verif Require Import Base LinAlg Constants M_Validate M_Text M_Poscar M_Outcar M_Vasprun M_Files M_Dataset M_Generic
  S_Text S_Outcar S_Vasprun S_Generic P_Text P_Outcar P_Outcar2 P_Outcar3 P_Vasprun P_Generic P_Generic2 P_Examples7.
Import ListNotations.
Local Open Scope string_scope.

Definition g_fs : fs := fun q => if teqb q (txt "vasprun.xml") then Present (txt "<modeling>...") else Absent.
(** Like [v_root], but the symbol is no element *)
Definition x_root : xml := el "modeling"
  [ el "atominfo" [eln "array" "atoms" [el "set" [el "rc" [Elem (txt "c") [] (Some (txt "Xx")) []]]]];
    eln "structure" "initialpos" [el "crystal" [eln "varray" "basis" (map vrow ["1 0 0"; "0 1 0"; "0 0 1"])]; eln "varray" "positions" [vrow " 0 1 0 "]] ].
Definition x_parse (_ : text) : parsed := Tree x_root.
Lemma g_no_key parse root : (forall c, parse c = Tree root) -> no_key_errors g_fs parse.
Proof. intros H. split; [intros p; unfold g_fs; destruct (teqb p _); discriminate|]. intros c. rewrite H. discriminate. Qed.
Lemma x_unknown : unknown_symbol g_fs x_parse (txt "vasprun.xml").
Proof.
  exists (txt "<modeling>..."), x_root, [txt "Xx"], (txt "Xx"). split; [reflexivity|]. split; [reflexivity|]. split; [apply parse_symbols_ok; vm_compute; reflexivity|].
  split; [left; reflexivity|vm_compute; reflexivity].
Qed.
Lemma ex_C63 : no_key_errors g_fs v_parse /\ no_key_errors g_fs x_parse /\ unknown_symbol g_fs x_parse (txt "vasprun.xml") /\
  (exists a, generic_read_positions oE v_parse g_fs (txt "vasprun.xml") "vasprun.xml" = GOk a) /\
  (exists a, generic_read_positions oE x_parse g_fs (txt "vasprun.xml") "vasprun.xml" = GOk a) /\
  g_fs (txt "OUTCAR") = Absent.
Proof.
  split; [apply (g_no_key _ v_root); reflexivity|]. split; [apply (g_no_key _ x_root); reflexivity|]. split; [exact x_unknown|].
  assert (G : forall parse root, (forall c, parse c = Tree root) -> array_at oE root initial_path (array2 [mkV 0 1 0]) -> exists a, generic_read_positions oE parse g_fs (txt "vasprun.xml") "vasprun.xml" = GOk a).
  { intros parse root Hp Ha. exists (array2 [mkV 0 1 0]). pose proof (f_C63_positions oE parse g_fs (txt "vasprun.xml")) as (_ & _ & _ & H).
    replace (from_file g_fs (vasprun_read_positions oE parse) (txt "vasprun.xml")) with (@Ok narr (array2 [mkV 0 1 0])) in H; [exact H|].
    symmetry. change (vasprun_read_positions oE parse (txt "<modeling>...") = Ok (array2 [mkV 0 1 0])). unfold vasprun_read_positions, root_element. rewrite Hp. cbn [rbind]. apply initial_ok. exact Ha. }
  split; [apply (G _ v_root); [reflexivity|]; eexists; split; [opath|apply varray3_array; [discriminate|ovarray]]|].
  split; [apply (G _ x_root); [reflexivity|]; eexists; split; [opath|apply varray3_array; [discriminate|ovarray]]|reflexivity].
Qed.
(** "Unsupported format" does not mean that the format is not supported *)
Lemma f_C63_message_refuted : ~ (forall E parse f p fmt, no_key_errors f parse -> In fmt ["outcar"; "vasprun.xml"] ->
  generic_read_structure_and_polarizability E parse f p fmt <> GErr (UnsupportedFormat fmt)).
Proof.
  intros H. apply (H oE x_parse g_fs (txt "vasprun.xml") "vasprun.xml"); [apply (g_no_key _ x_root); reflexivity|right; left; reflexivity|].
  apply (proj2 (proj1 (f_C63_masked oE x_parse unit (fun _ _ _ => Ok tt) g_fs (txt "vasprun.xml") "vasprun.xml" (g_no_key _ x_root (fun _ => eq_refl)) ltac:(discriminate)) (or_intror (or_introl eq_refl)))).
  split; [reflexivity|exact x_unknown].
Qed.
