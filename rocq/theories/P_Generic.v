(** Proofs about the generic readers: C63. *)
From Coq Require Import String Ascii ZArith NArith QArith Reals Bool Arith List Lia.
From Verif Require Import Base LinAlg Constants M_Validate M_Text M_Poscar M_Outcar M_Vasprun M_Files M_Dataset M_Generic
  S_Text S_Outcar S_Vasprun S_Generic P_Text P_Outcar P_Outcar2 P_Outcar3 P_Vasprun.
Import ListNotations.
Local Open Scope nat_scope.

(** ** Computations that never raise KeyError *)
Definition nk {A} (r : res A) : Prop := r <> Err KeyError.
Lemma nk_ok {A} (a : A) : nk (Ok a). Proof. discriminate. Qed.
Lemma nk_bind {A B} (r : res A) (k : A -> res B) : nk r -> (forall a, r = Ok a -> nk (k a)) -> nk (rbind r k).
Proof. destruct r as [a|e]; cbn; [intros _ H; apply H; reflexivity|]. intros H _ E. apply H. congruence. Qed.
Lemma nk_map {A B} (f : A -> B) r : nk r -> nk (rmap f r).
Proof. destruct r; cbn; [discriminate|]. intros H E. apply H. congruence. Qed.
Lemma nk_mapM {A B} (f : A -> res B) l : (forall a, In a l -> nk (f a)) -> nk (mapM f l).
Proof.
  induction l as [|a l IH]; intros H; [discriminate|]. cbn [mapM]. apply nk_bind; [apply H; left; reflexivity|]. intros b _. apply nk_bind; [|intros; apply nk_ok].
  apply IH. intros x Hx. apply H. right. exact Hx.
Qed.
Ltac nk := repeat (
  match goal with
  | |- nk (Ok _) => apply nk_ok
  | |- nk (Err _) => unfold nk; discriminate
  | |- nk (invalid _ _) => unfold nk, invalid; discriminate
  | |- nk (rbind _ _) => apply nk_bind; [|intros ? ?]
  | |- nk (let '(_, _) := ?x in _) => destruct x
  | |- nk (if ?c then _ else _) => destruct c
  | |- nk (match ?x with _ => _ end) => destruct x eqn:?
  end; cbv beta); auto.
Lemma nk_shape a b : nk (verify_ndarray_shape a b). Proof. unfold verify_ndarray_shape. nk. Qed.
Lemma nk_skip m f : nk (skip_until m f). Proof. induction f as [|l f IH]; cbn [skip_until]; nk. Qed.
Lemma nk_or {A} m (r : res A) : nk r -> nk (or_invalid m r).
Proof. unfold or_invalid. destruct r as [a|e]; [intros; apply nk_ok|]. destruct e; unfold nk; intros H; try discriminate. congruence. Qed.
Lemma nk_np_rows l : nk (np_rows l). Proof. unfold np_rows. nk. Qed.
Lemma nk_stack l : nk (np_stack l). Proof. unfold np_stack. nk. Qed.
Lemma nk_inv33 E l : nk (np_inv E l).
Proof. unfold np_inv. nk. apply nk_map. unfold minv. nk. Qed.
Lemma nk_inv E a : nk (inv_arr E a).
Proof. unfold inv_arr. nk. all: try apply nk_inv33. Qed.
Lemma nk_matmul a i : nk (matmul_inv a i). Proof. unfold matmul_inv. nk. Qed.
Lemma nk_potcar f : nk (potcar_loop f). Proof. induction f; cbn [potcar_loop]; nk. Qed.
Lemma nk_outcar_symbols f : nk (outcar_symbols f).
Proof. unfold outcar_symbols. nk; try apply nk_or; try apply nk_skip; try apply nk_potcar. Qed.
Lemma nk_table_rows E m n f : nk (table_rows E m n f).
Proof. revert f. induction n; intros f; cbn [table_rows]; nk. Qed.
Lemma nk_table E m n f : nk (table E m n f).
Proof. unfold table. nk; try apply nk_table_rows; try apply nk_np_rows. Qed.
Lemma nk_fractional E n f : nk (outcar_fractional E n f).
Proof. unfold outcar_fractional. nk; try apply nk_or; try apply nk_skip; try apply nk_table. Qed.
Lemma nk_polarizability E f : nk (outcar_polarizability E f).
Proof. unfold outcar_polarizability. nk; try apply nk_or; try apply nk_skip; try apply nk_table. Qed.
Lemma nk_lattice E f : nk (outcar_lattice E f).
Proof. unfold outcar_lattice. nk; try apply nk_or; nk; try apply nk_skip; try apply nk_table. Qed.
Lemma nk_outcar_pp E c : nk (outcar_read_positions_and_polarizability E c).
Proof. unfold outcar_read_positions_and_polarizability. nk; auto using nk_outcar_symbols, nk_fractional, nk_polarizability. Qed.
Lemma nk_outcar_p E c : nk (outcar_read_positions E c).
Proof. unfold outcar_read_positions. nk; auto using nk_outcar_symbols, nk_fractional. Qed.
Lemma nk_outcar_sp E c : nk (outcar_read_structure_and_polarizability E c).
Proof. unfold outcar_read_structure_and_polarizability. nk; auto using nk_outcar_symbols, nk_lattice, nk_fractional, nk_polarizability. Qed.
Lemma nk_outcar_ref {A} (mk : list Z -> narr -> narr -> res A) E c : (forall a b d, nk (mk a b d)) -> nk (outcar_read_ref_structure mk E c).
Proof. intros H. unfold outcar_read_ref_structure. nk; auto using nk_outcar_symbols, nk_lattice, nk_fractional. Qed.
Lemma nk_eigen E n l acc f : nk (eigen_loop E n l acc f).
Proof. revert acc. induction f; intros acc; cbn [eigen_loop]; nk. Qed.
Lemma nk_word E m k l : nk (word_float E m k l). Proof. unfold word_float. nk. Qed.
Lemma nk_mode_line E f : nk (read_mode_line E f).
Proof. unfold read_mode_line. nk; try apply nk_or; auto using nk_skip, nk_word. Qed.
Lemma nk_modes E k n l f : nk (mode_loop E k n l f).
Proof. revert f. induction k; intros f; cbn [mode_loop]; nk; auto using nk_mode_line, nk_eigen. Qed.
Lemma nk_div ev ws : nk (div_weights ev ws).
Proof. unfold div_weights. nk. apply nk_mapM. intros a _. unfold div_frame. nk. Qed.
Lemma nk_phonons_of a b c : nk (phonons_of a b c). Proof. unfold phonons_of. nk; apply nk_shape. Qed.
Lemma nk_trajectory_of a b : nk (trajectory_of a b). Proof. unfold trajectory_of. nk; apply nk_shape. Qed.
(** Every element has a weight *)
Lemma weight_known s : symbol_number s <> None -> exists w, atomic_weight s = Ok w.
Proof.
  unfold symbol_number, atomic_weight. intros H.
  assert (N : map fst atomic_weights = map fst atomic_numbers) by (vm_compute; reflexivity).
  revert N H. generalize atomic_weights, atomic_numbers. intros lw ln. revert ln. induction lw as [|[a w] lw IH]; intros [|[b n] ln] N H; try discriminate.
  - cbn in H. congruence.
  - cbn in N. injection N as <- N. cbn [find fst] in *. destruct (teqb (txt a) s); [eauto|]. apply (IH ln); [exact N|]. exact H.
Qed.
Lemma weight_unknown s : symbol_number s = None -> atomic_weight s = Err KeyError.
Proof.
  unfold symbol_number, atomic_weight. intros H.
  assert (N : map fst atomic_weights = map fst atomic_numbers) by (vm_compute; reflexivity).
  revert N H. generalize atomic_weights, atomic_numbers. intros lw ln. revert ln. induction lw as [|[a w] lw IH]; intros [|[b n] ln] N H; try discriminate; [reflexivity|].
  cbn in N. injection N as <- N. cbn [find fst] in *. destruct (teqb (txt a) s); [discriminate|]. apply (IH ln); [exact N|]. exact H.
Qed.
Lemma potcar_symbol_known l s : potcar_symbol l = Some s -> symbol_number s <> None.
Proof.
  unfold potcar_symbol. destruct (rev (split l)) as [|x [|w r]]; try discriminate. destruct (symbol_number (before_underscore w)) eqn:E; [|discriminate].
  intros H. injection H as <-. congruence.
Qed.
Lemma potcar_loop_known f ss r : potcar_loop f = Ok (ss, r) -> Forall (fun s => symbol_number s <> None) ss.
Proof.
  revert ss r. induction f as [|l f IH]; intros ss r H; cbn [potcar_loop] in H; [injection H as <- <-; constructor|].
  destruct (contains _ l); [|injection H as <- <-; constructor]. destruct (potcar_symbol l) as [s|] eqn:Es; [|discriminate].
  apply bind_ok in H. destruct H as ([ss' r'] & Hl & H). injection H as <- <-. constructor; [eapply potcar_symbol_known; exact Es|eapply IH; exact Hl].
Qed.
Lemma outcar_symbols_known f ss r : outcar_symbols f = Ok (ss, r) -> Forall (fun s => symbol_number s <> None) ss.
Proof.
  unfold outcar_symbols. intros H. apply bind_ok in H. destruct H as ([l f1] & _ & H). destruct (potcar_symbol l) as [s|] eqn:Es; [|discriminate].
  apply bind_ok in H. destruct H as ([ss' f2] & Hl & H). destruct (next_line f2) as [l3 f3]. apply bind_ok in H. destruct H as ([l4 f4] & _ & H).
  destruct (ints _) as [ns|]; [|discriminate]. injection H as <- <-. apply potcar_loop_known in Hl. pose proof (potcar_symbol_known _ _ Es) as Ks.
  assert (K : Forall (fun s => symbol_number s <> None) (if contains (txt "VRHFIN") l3 then removelast (s :: ss') else s :: ss')).
  { destruct (contains _ l3); [|constructor; assumption]. apply Forall_forall. intros x Hx.
    assert (In x (s :: ss')). { rewrite (app_removelast_last [] (l := s :: ss')) by discriminate. apply in_or_app. left. exact Hx. }
    destruct H as [<-|H]; [exact Ks|]. rewrite Forall_forall in Hl. apply Hl, H. }
  apply Forall_forall. intros x Hx. apply in_flat_map in Hx. destruct Hx as ([w c] & Hw & Hx). apply repeat_spec in Hx. subst x. apply in_combine_l in Hw.
  rewrite Forall_forall in K. apply K, Hw.
Qed.
Lemma nk_outcar_ph E c : nk (outcar_read_phonons E c).
Proof.
  unfold outcar_read_phonons. apply nk_bind; [apply nk_outcar_symbols|]. intros [ss f] Hs. apply nk_bind.
  - apply nk_mapM. intros s Hin. apply outcar_symbols_known in Hs. rewrite Forall_forall in Hs. destruct (weight_known s (Hs s Hin)) as [w Hw]. rewrite Hw. apply nk_ok.
  - intros ws _. cbv zeta. nk; try apply nk_or; auto using nk_lattice, nk_fractional, nk_skip, nk_modes, nk_stack, nk_div, nk_phonons_of.
Qed.
Lemma nk_blocks E fuel n l b f : nk (blocks_loop E fuel n l b f).
Proof. revert b f. induction fuel; intros b f; cbn [blocks_loop]; nk; auto using nk_inv, nk_matmul. unfold outcar_next_cart. apply nk_table. Qed.
Lemma nk_outcar_t E c : nk (outcar_read_trajectory E c).
Proof.
  unfold outcar_read_trajectory. nk; auto using nk_outcar_symbols, nk_lattice, nk_blocks, nk_stack, nk_trajectory_of.
  unfold outcar_timestep. nk; try apply nk_or; auto using nk_skip, nk_word.
Qed.
(** poscar *)
Lemma nk_row E m s : nk (read_row E m s). Proof. unfold read_row. nk. Qed.
Lemma nk_rows E m n s : nk (read_rows E m n s). Proof. revert s. induction n; intros s; cbn [read_rows]; nk; auto using nk_row. Qed.
Lemma nk_poscar_structure E c : nk (read_structure E c).
Proof.
  unfold read_structure. nk.
  - unfold read_lattice. nk. apply nk_rows.
  - unfold read_atomic_symbols. nk.
  - unfold read_positions_from. nk; auto using nk_rows, nk_inv33. unfold read_mode. nk.
Qed.
Lemma nk_poscar_positions E c : nk (read_positions E c).
Proof.
  unfold read_positions. nk.
  - unfold read_lattice. nk. apply nk_rows.
  - unfold read_atomic_symbols. nk.
  - unfold read_positions_from. nk; auto using nk_rows, nk_inv33. unfold read_mode. nk.
Qed.
Lemma nk_poscar_ref {A} (mk : list Z -> narr -> narr -> res A) E c : (forall a b d, nk (mk a b d)) -> nk (poscar_read_ref_structure E mk c).
Proof. intros H. unfold poscar_read_ref_structure. nk. apply nk_poscar_structure. Qed.
(** vasprun.xml *)
Lemma nk_root parse c : parse c <> Raises KeyError -> nk (root_element parse c).
Proof. unfold root_element. intros H. destruct (parse c) as [| |e]; unfold nk; try discriminate. intros E. apply H. congruence. Qed.
Lemma nk_missing m o : nk (or_missing m o). Proof. unfold or_missing. nk. Qed.
Lemma nk_text m e : nk (text_of m e). Proof. unfold text_of. nk. Qed.
Lemma nk_floats E t : nk (floats_of E t). Proof. unfold floats_of. nk. Qed.
Lemma nk_parse_symbols r : nk (parse_symbols r).
Proof. unfold parse_symbols. nk; [apply nk_missing|]. apply nk_mapM. intros c _. nk. apply nk_text. Qed.
Lemma nk_parse_rows E v : nk (parse_rows E v).
Proof. unfold parse_rows. nk; [|apply nk_np_rows]. apply nk_mapM. intros c _. nk; auto using nk_text, nk_floats. Qed.
Lemma nk_vlattice E r : nk (parse_lattice E r). Proof. unfold parse_lattice. nk; auto using nk_missing, nk_parse_rows. Qed.
Lemma nk_initial E r : nk (parse_initial_positions E r). Proof. unfold parse_initial_positions. nk; auto using nk_missing, nk_parse_rows. Qed.
Lemma nk_vpol E r : nk (parse_polarizability E r). Proof. unfold parse_polarizability. nk; auto using nk_missing, nk_parse_rows. Qed.
Lemma nk_vasprun_pp E parse c : parse c <> Raises KeyError -> nk (vasprun_read_positions_and_polarizability E parse c).
Proof. intros H. unfold vasprun_read_positions_and_polarizability. nk; auto using nk_root, nk_initial, nk_vpol. Qed.
Lemma nk_vasprun_p E parse c : parse c <> Raises KeyError -> nk (vasprun_read_positions E parse c).
Proof. intros H. unfold vasprun_read_positions. nk; auto using nk_root, nk_initial. Qed.
Lemma nk_vasprun_t E parse c : parse c <> Raises KeyError -> nk (vasprun_read_trajectory E parse c).
Proof.
  intros H. unfold vasprun_read_trajectory. nk; auto using nk_root, nk_stack, nk_trajectory_of.
  - apply nk_mapM. intros s _. nk; auto using nk_missing, nk_parse_rows.
  - unfold parse_timestep. nk; auto using nk_missing, nk_text.
Qed.
(** ... except by looking up a symbol *)
Lemma numbers_key ss : mapM atomic_number ss = Err KeyError <-> exists s, In s ss /\ symbol_number s = None.
Proof.
  induction ss as [|s ss IH]; cbn [mapM]; [split; [discriminate|intros (s & [] & _)]|]. unfold atomic_number at 1.
  destruct (symbol_number s) eqn:E; cbn [rbind].
  - split.
    + intros H. assert (mapM atomic_number ss = Err KeyError) by (destruct (mapM atomic_number ss); [discriminate|cbn in H; congruence]).
      apply IH in H0. destruct H0 as (x & Hx & Hn). exists x. split; [right; exact Hx|exact Hn].
    + intros (x & [<-|Hx] & Hn); [congruence|]. assert (H : mapM atomic_number ss = Err KeyError) by (apply IH; eauto). rewrite H. reflexivity.
  - split; [intros _; exists s; split; [left; reflexivity|exact E]|reflexivity].
Qed.
Lemma numbers_err ss e : mapM atomic_number ss = Err e -> e = KeyError.
Proof.
  induction ss as [|s ss IH]; cbn [mapM]; [discriminate|]. unfold atomic_number at 1. destruct (symbol_number s); cbn [rbind]; [|congruence].
  destruct (mapM atomic_number ss); cbn; [discriminate|]. intros H. apply IH. congruence.
Qed.
Lemma weights_key ss : mapM atomic_weight ss = Err KeyError <-> exists s, In s ss /\ symbol_number s = None.
Proof.
  induction ss as [|s ss IH]; cbn [mapM]; [split; [discriminate|intros (s & [] & _)]|].
  destruct (symbol_number s) eqn:E.
  - destruct (weight_known s) as [w Hw]; [congruence|]. rewrite Hw. cbn [rbind]. split.
    + intros H. assert (H0 : mapM atomic_weight ss = Err KeyError) by (destruct (mapM atomic_weight ss); [discriminate|cbn in H; congruence]).
      apply IH in H0. destruct H0 as (x & Hx & Hn). exists x. split; [right; exact Hx|exact Hn].
    + intros (x & [<-|Hx] & Hn); [congruence|]. assert (H : mapM atomic_weight ss = Err KeyError) by (apply IH; eauto). rewrite H. reflexivity.
  - rewrite (weight_unknown s E). cbn [rbind]. split; [intros _; exists s; split; [left; reflexivity|exact E]|reflexivity].
Qed.
Lemma bind_key {A B} (r : res A) (k : A -> res B) : nk r -> rbind r k = Err KeyError <-> exists a, r = Ok a /\ k a = Err KeyError.
Proof.
  intros H. destruct r as [a|e]; cbn; split.
  - eauto.
  - intros (a' & E & Hk). congruence.
  - intros E. exfalso. apply H. congruence.
  - intros (a' & E & _). discriminate.
Qed.
Lemma bind_key2 {A B} (r : res A) (k : A -> res B) : (forall a, r = Ok a -> nk (k a)) -> rbind r k = Err KeyError <-> r = Err KeyError.
Proof.
  intros H. destruct r as [a|e]; cbn; [|split; congruence]. split; [|discriminate]. intros E. exfalso. apply (H a eq_refl). exact E.
Qed.
Lemma vasprun_key_gen {A} (k : xml -> list text -> res A) parse c : parse c <> Raises KeyError ->
  (forall root ss, k root ss = Err KeyError <-> exists s, In s ss /\ symbol_number s = None) ->
  (let* root := root_element parse c in let* ss := parse_symbols root in k root ss) = Err KeyError <->
  exists root symbols s, parse c = Tree root /\ symbols_are root symbols /\ In s symbols /\ symbol_number s = None.
Proof.
  intros Hp Hk. rewrite bind_key by (apply nk_root; exact Hp). split.
  - intros (root & Hr & H). apply root_ok in Hr. apply bind_key in H; [|apply nk_parse_symbols]. destruct H as (ss & Hs & H). apply Hk in H. destruct H as (s & Hin & Hn).
    apply parse_symbols_ok in Hs. exists root, ss, s. auto.
  - intros (root & ss & s & Hr & Hs & Hin & Hn). exists root. split; [apply root_ok; exact Hr|]. apply bind_key; [apply nk_parse_symbols|]. exists ss. split; [apply parse_symbols_ok; exact Hs|].
    apply Hk. eauto.
Qed.
Lemma vasprun_sp_key E parse c : parse c <> Raises KeyError -> vasprun_read_structure_and_polarizability E parse c = Err KeyError <->
  exists root symbols s, parse c = Tree root /\ symbols_are root symbols /\ In s symbols /\ symbol_number s = None.
Proof.
  intros Hp. unfold vasprun_read_structure_and_polarizability. apply (vasprun_key_gen (fun root symbols =>
    let* numbers := mapM atomic_number symbols in let* lattice := parse_lattice E root in let* positions := parse_initial_positions E root in
    let* polarizability := parse_polarizability E root in Ok (lattice, numbers, positions, polarizability))); [exact Hp|].
  intros root ss. rewrite bind_key2; [apply numbers_key|]. intros ns _. nk; auto using nk_vlattice, nk_initial, nk_vpol.
Qed.
Lemma vasprun_ref_key {A} (mk : list Z -> narr -> narr -> res A) E parse c : parse c <> Raises KeyError -> (forall a b d, nk (mk a b d)) -> vasprun_read_ref_structure mk E parse c = Err KeyError <->
  exists root symbols s, parse c = Tree root /\ symbols_are root symbols /\ In s symbols /\ symbol_number s = None.
Proof.
  intros Hp Hm. unfold vasprun_read_ref_structure. apply (vasprun_key_gen (fun root symbols =>
    let* numbers := mapM atomic_number symbols in let* lattice := parse_lattice E root in let* positions := parse_initial_positions E root in
    mk numbers lattice positions)); [exact Hp|].
  intros root ss. rewrite bind_key2; [apply numbers_key|]. intros ns _. nk; auto using nk_vlattice, nk_initial.
Qed.
Lemma nk_eigenvectors E r : nk (parse_eigenvectors E r).
Proof.
  unfold parse_eigenvectors. nk; auto using nk_vlattice, nk_parse_symbols, nk_missing, nk_stack. apply nk_mapM. intros v _. nk; auto using nk_text, nk_floats, nk_inv, nk_matmul.
  unfold reshape_rows. nk.
Qed.
Lemma vasprun_ph_key E parse c : parse c <> Raises KeyError -> vasprun_read_phonons E parse c = Err KeyError <->
  exists root symbols s, parse c = Tree root /\ symbols_are root symbols /\ In s symbols /\ symbol_number s = None.
Proof.
  intros Hp. unfold vasprun_read_phonons. apply (vasprun_key_gen (fun root symbols =>
    let* weights := mapM atomic_weight symbols in let* ref := parse_initial_positions E root in let* wav := parse_eigenvalues E root in
    let* ev := parse_eigenvectors E root in let* disp := div_weights ev weights in phonons_of ref wav disp)); [exact Hp|].
  intros root ss. rewrite bind_key2; [apply weights_key|]. intros ns _. nk; auto using nk_initial, nk_eigenvectors, nk_div, nk_phonons_of.
  unfold parse_eigenvalues. nk; auto using nk_missing, nk_text, nk_floats.
Qed.

(** ** Dispatch *)
Lemma nk_file {A} f (read : text -> res A) p : (forall q, f q <> Blocked KeyError) -> (forall c, f p = Present c -> nk (read c)) -> nk (from_file f read p).
Proof. intros Hf Hr. unfold from_file. destruct (f p) eqn:E; [discriminate|apply Hr; reflexivity|]. intros H. apply (Hf p). congruence. Qed.
Lemma dispatch_reported {A P} (table : list (string * (P -> res A))) fmt p read : lookup table fmt = Some read ->
  reported fmt (read p) (dispatch table fmt p (UnsupportedFormat fmt)).
Proof. intros H. unfold dispatch, reported. rewrite H. destruct (read p) as [a|e]; [reflexivity|]. destruct e; reflexivity. Qed.
Lemma dispatch_supported {A P} (table : list (string * (P -> res A))) fmt p g read : lookup table fmt = Some read ->
  (dispatch table fmt p g = GErr g -> (forall e, g <> Passed e) -> read p = Err KeyError).
Proof. intros H. unfold dispatch. rewrite H. destruct (read p) as [a|e]; [discriminate|]. destruct e; try reflexivity; intros X Y; injection X as X; exfalso; eapply Y; symmetry; exact X. Qed.
