(** Proofs about the generic readers: C63. *)
From Coq Require Import String Ascii ZArith NArith QArith Reals Bool Arith List Lia.
From Verif Require Import Base LinAlg Constants M_Validate M_Text M_Poscar M_Outcar M_Vasprun M_Files M_Dataset M_Generic
  S_Text S_Outcar S_Vasprun S_Generic P_Text P_Outcar P_Outcar2 P_Outcar3 P_Vasprun P_Generic.
Import ListNotations.
Local Open Scope string_scope.

Lemma lookup_none {A} (t : list (string * A)) fmt : ~ In fmt (map fst t) -> lookup t fmt = None.
Proof.
  intros H. unfold lookup. destruct (find _ t) as [e|] eqn:E; [|reflexivity]. apply find_some in E. destruct E as [E1 E2]. apply String.eqb_eq in E2.
  exfalso. apply H. rewrite <- E2. apply in_map. exact E1.
Qed.
Lemma dispatch_none {A P} (t : list (string * (P -> res A))) fmt p g : ~ In fmt (map fst t) -> dispatch t fmt p g = GErr g.
Proof. intros H. unfold dispatch. rewrite lookup_none by exact H. reflexivity. Qed.
Section Generic.
Context (E : env) (parse : text -> parsed).
Lemma f_C63_phonons f p :
  reported "outcar" (from_file f (outcar_read_phonons E) p) (generic_read_phonons E parse f p "outcar") /\
  reported "vasprun.xml" (from_file f (vasprun_read_phonons E parse) p) (generic_read_phonons E parse f p "vasprun.xml").
Proof. split; (apply (dispatch_reported (phonon_readers E parse f)); reflexivity). Qed.
Lemma f_C63_trajectory f p :
  reported "outcar" (from_file f (outcar_read_trajectory E) p) (generic_read_trajectory E parse f p "outcar") /\
  reported "vasprun.xml" (from_file f (vasprun_read_trajectory E parse) p) (generic_read_trajectory E parse f p "vasprun.xml").
Proof. split; (apply (dispatch_reported (trajectory_readers E parse f)); reflexivity). Qed.
Lemma f_C63_positions_and_polarizability f p :
  reported "outcar" (from_file f (outcar_read_positions_and_polarizability E) p) (generic_read_positions_and_polarizability E parse f p "outcar") /\
  reported "vasprun.xml" (from_file f (vasprun_read_positions_and_polarizability E parse) p) (generic_read_positions_and_polarizability E parse f p "vasprun.xml").
Proof. split; (apply (dispatch_reported (position_polarizability_readers E parse f)); reflexivity). Qed.
Lemma f_C63_structure_and_polarizability f p :
  reported "outcar" (from_file f (outcar_read_structure_and_polarizability E) p) (generic_read_structure_and_polarizability E parse f p "outcar") /\
  reported "vasprun.xml" (from_file f (vasprun_read_structure_and_polarizability E parse) p) (generic_read_structure_and_polarizability E parse f p "vasprun.xml").
Proof. split; (apply (dispatch_reported (structure_polarizability_readers E parse f)); reflexivity). Qed.
Lemma f_C63_dataset cast f ps :
  reported "outcar" (read_dataset (from_file f (outcar_read_structure_and_polarizability E)) true cast ps) (generic_read_dataset E parse true cast f ps "outcar") /\
  reported "vasprun.xml" (read_dataset (from_file f (vasprun_read_structure_and_polarizability E parse)) true cast ps) (generic_read_dataset E parse true cast f ps "vasprun.xml").
Proof. split; (apply (dispatch_reported (dataset_readers E parse true cast f)); reflexivity). Qed.
Lemma f_C63_positions f p :
  reported "poscar" (from_file f (poscar_read_positions E) p) (generic_read_positions E parse f p "poscar") /\
  reported "outcar" (from_file f (outcar_read_positions E) p) (generic_read_positions E parse f p "outcar") /\
  reported "xdatcar" (from_file f (poscar_read_positions E) p) (generic_read_positions E parse f p "xdatcar") /\
  reported "vasprun.xml" (from_file f (vasprun_read_positions E parse) p) (generic_read_positions E parse f p "vasprun.xml").
Proof. repeat split; (apply (dispatch_reported (position_readers E parse f)); reflexivity). Qed.
Lemma f_C63_ref_structure (A : Type) (mk : list Z -> narr -> narr -> res A) f p :
  reported "poscar" (from_file f (poscar_read_ref_structure E mk) p) (generic_read_ref_structure E parse mk f p "poscar") /\
  reported "outcar" (from_file f (outcar_read_ref_structure mk E) p) (generic_read_ref_structure E parse mk f p "outcar") /\
  reported "xdatcar" (from_file f (poscar_read_ref_structure E mk) p) (generic_read_ref_structure E parse mk f p "xdatcar") /\
  reported "vasprun.xml" (from_file f (vasprun_read_ref_structure mk E parse) p) (generic_read_ref_structure E parse mk f p "vasprun.xml").
Proof. repeat split; (apply (dispatch_reported (ref_structure_readers E parse mk f)); reflexivity). Qed.
Lemma f_C63_unsupported (A : Type) (mk : list Z -> narr -> narr -> res A) torch cast f p ps fmt :
  (~ In fmt ["outcar"; "vasprun.xml"] ->
     generic_read_phonons E parse f p fmt = GErr (UnsupportedFormat fmt) /\
     generic_read_trajectory E parse f p fmt = GErr (if String.eqb fmt "xdatcar" then XdatcarTrajectory else UnsupportedFormat fmt) /\
     generic_read_positions_and_polarizability E parse f p fmt = GErr (UnsupportedFormat fmt) /\
     generic_read_structure_and_polarizability E parse f p fmt = GErr (UnsupportedFormat fmt) /\
     generic_read_dataset E parse torch cast f ps fmt = GErr (if torch then UnsupportedFormat fmt else Passed UserError)) /\
  (~ In fmt ["poscar"; "outcar"; "xdatcar"; "vasprun.xml"] ->
     generic_read_positions E parse f p fmt = GErr (UnsupportedFormat fmt) /\
     generic_read_ref_structure E parse mk f p fmt = GErr (UnsupportedFormat fmt)).
Proof.
  split; intros H.
  - repeat split; try (apply dispatch_none; exact H). unfold generic_read_dataset. destruct torch; [|reflexivity]. apply dispatch_none; exact H.
  - split; apply dispatch_none; exact H.
Qed.
Lemma reported_key {A} fmt (s : res A) g : reported fmt s g -> g = GErr (UnsupportedFormat fmt) <-> s = Err KeyError.
Proof. unfold reported. destruct s as [a|e]; [intros ->; split; discriminate|]. destruct e; intros ->; split; congruence || discriminate. Qed.
Lemma f_C63_never_masked f p fmt : no_key_errors f parse -> forall fmt',
  (In fmt ["outcar"; "vasprun.xml"] -> generic_read_trajectory E parse f p fmt <> GErr (UnsupportedFormat fmt') /\
     generic_read_positions_and_polarizability E parse f p fmt <> GErr (UnsupportedFormat fmt')) /\
  (In fmt ["poscar"; "outcar"; "xdatcar"; "vasprun.xml"] -> generic_read_positions E parse f p fmt <> GErr (UnsupportedFormat fmt')).
Proof.
  intros [Hf Hp] fmt'.
  assert (D : forall A (t : list (string * (path -> res A))) fm r g, lookup t fm = Some r -> nk (r p) -> (forall e, g <> Passed e) -> dispatch t fm p g <> GErr (UnsupportedFormat fmt')).
  { intros A t fm r g Hl Hn Hg X. unfold dispatch in X. rewrite Hl in X. destruct (r p) as [a|e] eqn:Er; [discriminate|]. destruct e; try discriminate. apply Hn. reflexivity. }
  split.
  - intros [<-|[<-|[]]]; split; (eapply D; [reflexivity| |discriminate]); apply nk_file; try exact Hf; intros c _; auto using nk_outcar_t, nk_outcar_pp, nk_vasprun_t, nk_vasprun_pp.
  - intros [<-|[<-|[<-|[<-|[]]]]]; (eapply D; [reflexivity| |discriminate]); apply nk_file; try exact Hf; intros c _; unfold poscar_read_positions; auto using nk_map, nk_poscar_positions, nk_outcar_p, nk_vasprun_p.
Qed.
Lemma file_key {A} f (read : text -> res A) p : (forall q, f q <> Blocked KeyError) -> from_file f read p = Err KeyError <-> exists c, f p = Present c /\ read c = Err KeyError.
Proof.
  intros Hf. unfold from_file. destruct (f p) eqn:Ep; split.
  - discriminate.
  - intros (c & X & _). discriminate.
  - eauto.
  - intros (c & X & H). congruence.
  - intros X. exfalso. apply (Hf p). congruence.
  - intros (c & X & _). discriminate.
Qed.
Lemma unknown_iff f p : (exists c, f p = Present c /\ exists root symbols s, parse c = Tree root /\ symbols_are root symbols /\ In s symbols /\ symbol_number s = None) <-> unknown_symbol f parse p.
Proof. unfold unknown_symbol. split; [intros (c & H1 & r & ss & s & H)|intros (c & r & ss & s & H1 & H)]; [exists c, r, ss, s|exists c; split; [exact H1|]; exists r, ss, s]; auto. Qed.
Lemma f_C63_masked (A : Type) (mk : list Z -> narr -> narr -> res A) f p fmt : no_key_errors f parse -> (forall z l x, mk z l x <> Err KeyError) ->
  (In fmt ["outcar"; "vasprun.xml"] ->
     (generic_read_phonons E parse f p fmt = GErr (UnsupportedFormat fmt) <-> fmt = "vasprun.xml" /\ unknown_symbol f parse p) /\
     (generic_read_structure_and_polarizability E parse f p fmt = GErr (UnsupportedFormat fmt) <-> fmt = "vasprun.xml" /\ unknown_symbol f parse p)) /\
  (In fmt ["poscar"; "outcar"; "xdatcar"; "vasprun.xml"] ->
     (generic_read_ref_structure E parse mk f p fmt = GErr (UnsupportedFormat fmt) <-> fmt = "vasprun.xml" /\ unknown_symbol f parse p)).
Proof.
  intros [Hf Hp] Hm.
  assert (D : forall B fm (r : text -> res B) g, reported fm (from_file f r p) g -> (forall c, nk (r c)) -> fm <> "vasprun.xml" -> (g = GErr (UnsupportedFormat fm) <-> fm = "vasprun.xml" /\ unknown_symbol f parse p)).
  { intros B fm r g Hr Hn Hv. rewrite (reported_key _ _ _ Hr). split; [|tauto]. intros X. exfalso. revert X. apply nk_file; auto. }
  assert (V : forall B (r : text -> res B) g, reported "vasprun.xml" (from_file f r p) g ->
     (forall c, r c = Err KeyError <-> exists root symbols s, parse c = Tree root /\ symbols_are root symbols /\ In s symbols /\ symbol_number s = None) ->
     (g = GErr (UnsupportedFormat "vasprun.xml") <-> "vasprun.xml" = "vasprun.xml" /\ unknown_symbol f parse p)).
  { intros B r g Hr Hk. rewrite (reported_key _ _ _ Hr), file_key by exact Hf. rewrite <- unknown_iff. split.
    - intros (c & X & Y). split; [reflexivity|]. exists c. split; [exact X|]. apply Hk. exact Y.
    - intros (_ & c & X & Y). exists c. split; [exact X|]. apply Hk. exact Y. }
  split.
  - intros [<-|[<-|[]]]; split.
    + eapply D; [apply f_C63_phonons|intros; apply nk_outcar_ph|discriminate].
    + eapply D; [apply f_C63_structure_and_polarizability|intros; apply nk_outcar_sp|discriminate].
    + eapply V; [apply f_C63_phonons|intros; apply vasprun_ph_key, Hp].
    + eapply V; [apply f_C63_structure_and_polarizability|intros; apply vasprun_sp_key, Hp].
  - intros [<-|[<-|[<-|[<-|[]]]]].
    + eapply D; [apply f_C63_ref_structure|intros; apply nk_poscar_ref, Hm|discriminate].
    + eapply D; [apply f_C63_ref_structure|intros; apply nk_outcar_ref, Hm|discriminate].
    + eapply D; [apply f_C63_ref_structure|intros; apply nk_poscar_ref, Hm|discriminate].
    + eapply V; [apply f_C63_ref_structure|intros; apply vasprun_ref_key; [apply Hp|exact Hm]].
Qed.
Lemma f_C63_missing_file (A : Type) (mk : list Z -> narr -> narr -> res A) f p fmt : f p = Absent ->
  (In fmt ["outcar"; "vasprun.xml"] ->
     generic_read_phonons E parse f p fmt = GErr (Passed FileNotFoundError) /\
     generic_read_trajectory E parse f p fmt = GErr (Passed FileNotFoundError) /\
     generic_read_positions_and_polarizability E parse f p fmt = GErr (Passed FileNotFoundError) /\
     generic_read_structure_and_polarizability E parse f p fmt = GErr (Passed FileNotFoundError)) /\
  (In fmt ["poscar"; "outcar"; "xdatcar"; "vasprun.xml"] ->
     generic_read_positions E parse f p fmt = GErr (Passed FileNotFoundError) /\
     generic_read_ref_structure E parse mk f p fmt = GErr (Passed FileNotFoundError)).
Proof.
  intros H. assert (X : forall B (r : text -> res B), from_file f r p = Err FileNotFoundError) by (intros; unfold from_file; rewrite H; reflexivity).
  split; [intros [<-|[<-|[]]]|intros [<-|[<-|[<-|[<-|[]]]]]]; repeat split;
    unfold generic_read_phonons, generic_read_trajectory, generic_read_positions_and_polarizability, generic_read_structure_and_polarizability, generic_read_positions, generic_read_ref_structure, dispatch;
    cbn [lookup find fst snd phonon_readers trajectory_readers position_polarizability_readers structure_polarizability_readers position_readers ref_structure_readers String.eqb Ascii.eqb Bool.eqb];
    cbn -[from_file]; rewrite X; reflexivity.
Qed.
(** Datasets *)
Lemma nk_allclose a b : nk (np_allclose a b). Proof. unfold np_allclose. nk. Qed.
Lemma nk_new cast a b c d : nk (dataset_new cast a b c d).
Proof. unfold dataset_new. nk; try apply nk_shape; [unfold verify_list_len; nk|]. unfold scale_and_flatten. cbv zeta. nk. Qed.
Lemma loop_key {Path} (read_fn : Path -> res (narr * list Z * narr * narr)) paths : forall idx l z pos pol, dataset_loop read_fn idx l z pos pol paths = Err KeyError -> exists p, In p paths /\ read_fn p = Err KeyError.
Proof.
  induction paths as [|p paths IH]; intros idx l z pos pol H; [discriminate|]. cbn [dataset_loop] in H. destruct (read_fn p) as [[[[l1 z1] x1] a1]|e] eqn:Ep.
  - cbn [rbind] in H. apply bind_key in H.
    + destruct H as ([] & _ & H). apply IH in H. destruct H as (q & Hq & Hr). exists q. split; [right; exact Hq|exact Hr].
    + destruct (Nat.eqb idx 0); [discriminate|]. apply nk_bind; [apply nk_allclose|]. intros c _. nk.
  - exists p. split; [left; reflexivity|]. cbn in H. congruence.
Qed.
Lemma f_C63_dataset_masked torch cast f ps fmt : no_key_errors f parse -> In fmt ["outcar"; "vasprun.xml"] ->
  generic_read_dataset E parse torch cast f ps fmt = GErr (UnsupportedFormat fmt) -> fmt = "vasprun.xml" /\ exists p, In p ps /\ unknown_symbol f parse p.
Proof.
  intros [Hf Hp] Hfmt H. destruct torch; [|discriminate].
  assert (G : forall (r : path -> res (narr * list Z * narr * narr)), read_dataset r true cast ps = Err KeyError -> exists p, In p ps /\ r p = Err KeyError).
  { intros r X. unfold read_dataset in X. cbn [negb] in X. destruct ps as [|p0 ps]; [discriminate|]. apply bind_key2 in X; [eapply loop_key; exact X|].
    intros [[[l z] pos] pol] _. nk; auto using nk_stack, nk_new. }
  destruct Hfmt as [<-|[<-|[]]].
  - apply (reported_key _ _ _ (proj1 (f_C63_dataset cast f ps))) in H. apply G in H. destruct H as (p & _ & H). exfalso. revert H. apply nk_file; [exact Hf|]. intros; apply nk_outcar_sp.
  - split; [reflexivity|]. apply (reported_key _ _ _ (proj2 (f_C63_dataset cast f ps))) in H. apply G in H. destruct H as (p & Hin & H). exists p. split; [exact Hin|].
    apply file_key in H; [|exact Hf]. destruct H as (c & Hc & H). apply vasprun_sp_key in H; [|apply Hp]. apply unknown_iff. eauto.
Qed.
End Generic.
