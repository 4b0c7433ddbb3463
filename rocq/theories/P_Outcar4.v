(** Which exceptions the readers of OUTCAR and vasprun.xml raise, unreadable numbers, and trajectories
    of runs that were stopped. *)
From Coq Require Import String Ascii ZArith NArith QArith Qreals Reals Bool Arith List Lia Lra.
From Verif Require Import Base LinAlg Constants M_Validate M_StructUtils M_Text M_Poscar M_Outcar M_Vasprun
  S_Lattice S_Text S_Outcar S_Vasprun P_StructUtils P_Text P_Poscar P_Poscar2 P_Poscar4 P_Outcar P_Outcar2 P_Outcar3 P_Vasprun P_Generic.
Import ListNotations.
Local Open Scope nat_scope.

(** * Computations that raise only certain exceptions *)
Definition only {A} (P : exn -> Prop) (r : res A) : Prop := forall e, r = Err e -> P e.
Definition may (l : list exn) (e : exn) : Prop := (exists m, e = InvalidFileException m) \/ In e l.
Section Only.
Variable l : list exn.
Notation P := (may l).
Lemma only_ok {A} (a : A) : only P (Ok a). Proof. intros e. discriminate. Qed.
Lemma only_err {A} e : In e l -> only P (@Err A e). Proof. intros H e' E. injection E as <-. right. auto. Qed.
Lemma only_inv {A} m : only P (@Err A (InvalidFileException m)). Proof. intros e' E. injection E as <-. left. eauto. Qed.
Lemma only_bind {A B} (r : res A) (k : A -> res B) : only P r -> (forall a, r = Ok a -> only P (k a)) -> only P (rbind r k).
Proof. destruct r as [a|e]; cbn; [intros _ H; apply H; reflexivity|]. intros H _ e' E. apply H. congruence. Qed.
Lemma only_map {A B} (f : A -> B) r : only P r -> only P (rmap f r).
Proof. destruct r; cbn; intros H e' E; [discriminate|]. apply H. congruence. Qed.
Lemma only_mapM {A B} (f : A -> res B) ls : (forall a, In a ls -> only P (f a)) -> only P (mapM f ls).
Proof.
  induction ls as [|a ls IH]; intros H; [intros e; discriminate|]. cbn [mapM]. apply only_bind; [apply H; left; reflexivity|]. intros b _. apply only_bind; [|intros; apply only_ok].
  apply IH. intros x Hx. apply H. right. exact Hx.
Qed.
End Only.
Ltac on := repeat (
  match goal with
  | |- only _ (Ok _) => apply only_ok
  | |- only _ (Err (InvalidFileException _)) => apply only_inv
  | |- only _ (Err _) => apply only_err; cbn; tauto
  | |- only _ (invalid _ _) => apply only_inv
  | |- only _ (rbind _ _) => apply only_bind; [|intros ? ?]
  | |- only _ (let '(_, _) := ?x in _) => destruct x
  | |- only _ (if ?c then _ else _) => destruct c
  | |- only _ (match ?x with _ => _ end) => destruct x eqn:?
  end; cbv beta); auto.
Section Lists.
Variable l : list exn.
Hypothesis V : In ValueError l.
Notation P := (may l).
Lemma on_shape a b : only P (verify_ndarray_shape a b). Proof. unfold verify_ndarray_shape. on. Qed.
Lemma on_skip msg m f : only P (or_invalid msg (skip_until m f)).
Proof. intros e H. apply or_invalid_skip in H as [-> _]. left. eauto. Qed.
Lemma on_np_rows x : only P (np_rows x). Proof. unfold np_rows. on. Qed.
Lemma on_stack x : only P (np_stack x). Proof. unfold np_stack. on. Qed.
Lemma on_symbols f : only P (outcar_symbols f).
Proof. intros e H. apply symbols_err in H as [H|[-> _]]; [left; auto|right; auto]. Qed.
Lemma on_table E m n f : only P (table E m n f).
Proof. intros e H. apply table_err in H as [H|[-> _]]; [left; auto|right; auto]. Qed.
Lemma on_fractional E n f : only P (outcar_fractional E n f).
Proof. unfold outcar_fractional. on; auto using on_skip, on_table. Qed.
Lemma on_polarizability E f : only P (outcar_polarizability E f).
Proof. unfold outcar_polarizability. on; auto using on_skip, on_table. Qed.
Lemma on_lattice E f : only P (outcar_lattice E f).
Proof.
  unfold outcar_lattice. on; [|apply on_table]. destruct (skip_until (txt "Write flags") f) as [[l0 f0]|e] eqn:Hs; cbn [rbind].
  - apply on_skip.
  - apply skip_until_err in Hs as [-> _]. cbn. apply only_inv.
Qed.
Lemma on_word E m k x : only P (word_float E m k x). Proof. unfold word_float. on. Qed.
Lemma on_mode_line E f : only P (read_mode_line E f).
Proof. unfold read_mode_line. on; auto using on_skip, on_word. Qed.
Lemma on_eigen E n x acc f : only P (eigen_loop E n x acc f).
Proof. revert acc. induction f; intros acc; cbn [eigen_loop]; on. Qed.
Lemma on_modes E k n x f : only P (mode_loop E k n x f).
Proof. revert f. induction k; intros f; cbn [mode_loop]; on; auto using on_mode_line, on_eigen. Qed.
Lemma on_div ev ws : only P (div_weights ev ws).
Proof. unfold div_weights. on. apply only_mapM. intros ch _. unfold div_frame. on. Qed.
Lemma on_phonons_of a b c : only P (phonons_of a b c). Proof. unfold phonons_of. on; apply on_shape. Qed.
Lemma on_trajectory_of a b : only P (trajectory_of a b). Proof. unfold trajectory_of. on; apply on_shape. Qed.
Lemma on_timestep E f : only P (outcar_timestep E f). Proof. unfold outcar_timestep. on; auto using on_skip, on_word. Qed.
Lemma on_matmul a i : only P (matmul_inv a i). Proof. unfold matmul_inv. on. Qed.
Lemma on_floats E t : only P (floats_of E t). Proof. unfold floats_of. on. Qed.
Lemma on_missing msg o : only P (or_missing msg o). Proof. unfold or_missing. on. Qed.
Lemma on_text msg e : only P (text_of msg e). Proof. unfold text_of. on. Qed.
Lemma on_parse_rows E x : only P (parse_rows E x).
Proof. unfold parse_rows. on; auto using on_np_rows. apply only_mapM. intros ch _. on; auto using on_text, on_floats. Qed.
Lemma on_initial E x : only P (parse_initial_positions E x).
Proof. unfold parse_initial_positions. on; auto using on_missing, on_parse_rows. Qed.
Lemma on_vpol E x : only P (parse_polarizability E x).
Proof. unfold parse_polarizability. on; auto using on_missing, on_parse_rows. Qed.
Lemma on_vlattice E x : only P (parse_lattice E x).
Proof. unfold parse_lattice. on; auto using on_missing, on_parse_rows. Qed.
Lemma on_vtimestep E x : only P (parse_timestep E x).
Proof. unfold parse_timestep. on; auto using on_missing, on_text. Qed.
Lemma on_eigenvalues E x : only P (parse_eigenvalues E x).
Proof. unfold parse_eigenvalues. on; auto using on_missing, on_text, on_floats. Qed.
Hypothesis LA : In LinAlgError l.
Lemma on_inv E a : only P (inv_arr E a).
Proof. unfold inv_arr. on. unfold np_inv. on. apply only_map. unfold minv. on. Qed.
Lemma on_blocks E fuel n x ml f : only P (blocks_loop E fuel n x ml f).
Proof.
  revert ml f. induction fuel; intros ml f; cbn [blocks_loop]; [on|]. destruct (skip_until _ _) as [[l1 f1]|]; [|on].
  destruct (ml && negb _); [apply IHfuel|]. on; auto using on_inv, on_matmul. unfold outcar_next_cart. apply on_table.
Qed.
Hypothesis IE : In IndexError l.
Lemma on_vsymbols x : only P (parse_symbols x).
Proof. unfold parse_symbols. on; [apply on_missing|]. apply only_mapM. intros ch _. on. apply on_text. Qed.
Lemma on_eigenvectors E x : only P (parse_eigenvectors E x).
Proof.
  unfold parse_eigenvectors. on; auto using on_vlattice, on_vsymbols, on_missing, on_stack. apply only_mapM. intros ch _.
  on; auto using on_text, on_floats, on_inv, on_matmul. unfold reshape_rows. on.
Qed.
End Lists.

(** * OUTCAR *)
Lemma may_value e : may [ValueError] e <-> (exists m, e = InvalidFileException m) \/ e = ValueError.
Proof. unfold may. cbn. intuition. Qed.
Lemma f_outcar_errors E content e :
  (outcar_read_positions_and_polarizability E content = Err e \/ outcar_read_structure_and_polarizability E content = Err e) ->
  (exists m, e = InvalidFileException m) \/ e = ValueError.
Proof.
  assert (V : In ValueError [ValueError]) by (left; auto).
  intros [H|H]; apply may_value; revert H.
  - apply (only_bind [ValueError]); [apply on_symbols; auto|]. intros [ss f1] _. on; auto using on_fractional, on_polarizability.
  - apply (only_bind [ValueError]); [apply on_symbols; auto|]. intros [ss f1] _. on; auto using on_fractional, on_polarizability, on_lattice.
Qed.
Lemma f_trajectory_errors E content e : outcar_read_trajectory E content = Err e ->
  (exists m, e = InvalidFileException m) \/ e = ValueError \/ e = LinAlgError.
Proof.
  intros H. assert (M : may [ValueError; LinAlgError] e); [|unfold may in M; cbn in M; intuition]. revert e H. fold (@only ntrajectory (may [ValueError; LinAlgError]) (outcar_read_trajectory E content)).
  assert (V : In ValueError [ValueError; LinAlgError]) by (left; auto). assert (L : In LinAlgError [ValueError; LinAlgError]) by (right; left; auto).
  unfold outcar_read_trajectory. on; auto using on_symbols, on_timestep, on_lattice, on_blocks, on_stack, on_trajectory_of.
Qed.
Lemma weights_known ss : Forall (fun s => symbol_number s <> None) ss -> exists ws, mapM atomic_weight ss = Ok ws.
Proof.
  induction 1 as [|s ss H _ IH]; [exists []; reflexivity|]. destruct (weight_known s H) as (w & E), IH as (ws & IH). exists (w :: ws). cbn [mapM]. rewrite E, IH. reflexivity.
Qed.
Lemma f_phonon_errors E content e : outcar_read_phonons E content = Err e ->
  (exists m, e = InvalidFileException m) \/ e = ValueError.
Proof.
  intros H. apply may_value. revert e H. fold (@only nphonons (may [ValueError]) (outcar_read_phonons E content)).
  assert (V : In ValueError [ValueError]) by (left; auto).
  unfold outcar_read_phonons. apply only_bind; [apply on_symbols; auto|]. intros [ss f1] Hs.
  destruct (weights_known ss (outcar_symbols_known _ _ _ Hs)) as (ws & ->). cbn [rbind].
  on; auto using on_fractional, on_lattice, on_skip, on_modes, on_stack, on_div, on_phonons_of.
Qed.

(** ** Numbers that cannot be read *)
Lemma f_timestep_garbled E content f symbols r0 lt r1 w : file_lines content f -> species f symbols r0 ->
  first_with (txt "time-step for ionic-motion") r0 lt r1 -> nth_error (split lt) 2 = Some w -> float_of (e_fl E) w = None ->
  outcar_read_trajectory E content = Err ValueError.
Proof.
  intros Hf Hs Ht Hw Hn. apply file_lines_open in Hf. unfold outcar_read_trajectory. rewrite <- Hf. apply symbols_ok in Hs. rewrite Hs. cbn [rbind].
  unfold outcar_timestep. apply skip_until_ok in Ht. rewrite Ht. cbn [or_invalid rbind]. unfold word_float. rewrite Hw, Hn. reflexivity.
Qed.

(** ** Singular lattices *)
Lemma matrix_singular E A : mdet A = 0%R -> inv_arr E (matrix A) = Err LinAlgError.
Proof.
  intros H. unfold inv_arr, matrix, array2. cbn [na_shape na_data List.length Nat.eqb]. rewrite rows_n3_flat. unfold np_inv.
  change (map fin3 [LinAlg.r0 A; LinAlg.r1 A; LinAlg.r2 A]) with (rows3 A). rewrite finite33_rows. unfold minv. destruct (Req_EM_T _ _); [reflexivity|contradiction].
Qed.
Lemma f_singular E content f symbols r0 lt r1 dt A r2 b bs : file_lines content f ->
  species f symbols r0 -> symbols <> [] ->
  first_with (txt "time-step for ionic-motion") r0 lt r1 -> timestep_line E lt dt ->
  lattice_block E r1 (matrix A) r2 -> mdet A = 0%R -> blocks_in E (List.length symbols) r2 (b :: bs) ->
  outcar_read_trajectory E content = Err LinAlgError.
Proof.
  intros Hf Hs Hne Ht Htl Hl HA Hb. apply file_lines_open in Hf. unfold outcar_read_trajectory. rewrite <- Hf.
  apply symbols_ok in Hs. rewrite Hs. cbn [rbind]. rewrite (timestep_ok _ _ _ _ _ Ht Htl). cbn [rbind].
  apply lattice_ok in Hl. rewrite Hl. cbn [rbind].
  inversion Hb as [|f0 l sep body f' ml vs bs0 H1 H2 H3 H4 H5 H6 H7]; subst. cbn [blocks_loop]. change position_marker with block_marker.
  apply skip_until_ok in H1. rewrite H1. cbn [andb]. unfold outcar_next_cart. cbn [next_line snd].
  assert (Ht2 : table E "Cartesian positions could not be parsed: " (List.length symbols) (body ++ f') = Ok (array2 vs, f')).
  { apply table_ok. rewrite <- H6, <- (f2len H5). apply rows3_table; [|exact H5]. intros ->. destruct symbols; [congruence|discriminate]. }
  rewrite Ht2. cbn [rbind]. rewrite (matrix_singular E A HA). reflexivity.
Qed.

(** ** Runs that were stopped while a block was being written *)
Definition last_ml (prev : bool) (bs : list block) : bool := fold_left (fun _ b => fst b) bs prev.
Lemma first_with_app m f l r g : first_with m f l r -> first_with m (f ++ g) l (r ++ g).
Proof. intros (pre & -> & H). exists pre. rewrite <- app_assoc. split; [reflexivity|exact H]. Qed.
Lemma skip_junk m junk g : nowhere m junk -> skip_until m (junk ++ g) = skip_until m g.
Proof. induction 1 as [|x junk H _ IH]; [reflexivity|]. cbn [app skip_until]. apply contains_false in H. rewrite H. exact IH. Qed.
Lemma blocks_loop_junk E fuel n lat prev junk g : nowhere block_marker junk ->
  blocks_loop E fuel n lat prev (junk ++ g) = blocks_loop E fuel n lat prev g.
Proof. intros H. destruct fuel; [reflexivity|]. cbn [blocks_loop]. change position_marker with block_marker. rewrite skip_junk by auto. reflexivity. Qed.
Lemma blocks_loop_app E n lat B g : 0 < n -> inv_arr E lat = Ok (rows3 B) -> forall fuel f bs prev,
  List.length (f ++ g) < fuel -> blocks_in E n f bs -> exists fuel', List.length g < fuel' /\
  blocks_loop E fuel n lat prev (f ++ g) =
    (let* ps := blocks_loop E fuel' n lat (last_ml prev bs) g in Ok (map (fun vs => array2 (rows_mul vs B)) (keep prev bs) ++ ps)).
Proof.
  intros Hn Hinv. induction fuel as [|fuel IH]; intros f bs prev Hf Hb; [lia|].
  destruct Hb as [f H|f l sep body f' ml vs bs H1 H2 H3 H4 H5 H6 H7].
  - exists (S fuel). rewrite app_length in Hf. split; [lia|]. rewrite blocks_loop_junk by auto. cbn [last_ml fold_left keep map app].
    destruct (blocks_loop E (S fuel) n lat prev g); reflexivity.
  - cbn [blocks_loop]. change position_marker with block_marker. apply (first_with_app _ _ _ _ g) in H1. pose proof (first_with_length _ _ _ _ H1) as Hl. apply skip_until_ok in H1. rewrite H1.
    assert (Hml : contains (txt "(ML)") l = ml).
    { destruct ml; [apply contains_spec, H2; reflexivity|]. apply contains_false. intros Ho. apply H2 in Ho. discriminate. }
    cbn [app List.length] in Hl. rewrite <- app_assoc in Hl. rewrite app_length in Hl.
    rewrite Hml. cbn [keep last_ml fold_left fst]. fold (last_ml ml bs). destruct (prev && negb ml).
    + destruct (IH f' bs ml) as (fuel' & L & R); [lia|exact H7|]. exists fuel'. split; [exact L|].
      change ((sep :: body ++ f') ++ g)%list with (((sep :: body) ++ f') ++ g)%list. rewrite <- app_assoc, blocks_loop_junk by (constructor; assumption). exact R.
    + unfold outcar_next_cart. cbn [app next_line snd]. rewrite <- app_assoc.
      assert (Ht : table E "Cartesian positions could not be parsed: " n (body ++ f' ++ g) = Ok (array2 vs, f' ++ g)).
      { apply table_ok. rewrite <- H6, <- (f2len H5). apply rows3_table; [|exact H5]. intros ->. cbn in H6. lia. }
      rewrite Ht. cbn [rbind]. rewrite Hinv. cbn [rbind]. rewrite matmul_array2. cbn [rbind].
      destruct (IH f' bs ml) as (fuel' & L & R); [lia|exact H7|]. exists fuel'. split; [exact L|]. rewrite R.
      destruct (blocks_loop E fuel' n lat (last_ml ml bs) g); reflexivity.
Qed.
Lemma short_table E msg n body vs : rows3_at E body vs -> List.length body < n ->
  table E msg n body = (match body with [] => Ok (mkNarr [n; 0] [], []) | _ => Err ValueError end).
Proof.
  intros Hb Hl. set (rs := map (fun v => entries3 (fin3 v)) vs ++ repeat [] (n - List.length body)).
  assert (Hr : table_rows E msg n body = Ok (rs, skipn n body)).
  { apply table_rows_ok. split; [|reflexivity]. pose proof (f2len Hb) as Hbl. split.
    - unfold rs. rewrite app_length, map_length, repeat_length. lia.
    - intros i x Hx. unfold rs in Hx. destruct (lt_dec i (List.length body)) as [Hi | Hi].
      + rewrite nth_error_app1 in Hx by (rewrite map_length; lia). pose proof (rows3_rows E body vs Hb []) as [_ H].
        rewrite app_nil_r in H. apply H. exact Hx.
      + rewrite nth_error_app2 in Hx by (rewrite map_length; lia). apply nth_error_In, repeat_spec in Hx. subst.
        rewrite nth_overflow by lia. apply row_of_nil. }
  unfold table. rewrite Hr. cbn [rbind]. destruct body as [|l0 b0].
  - inversion Hb; subst. unfold rs. cbn [map app List.length]. rewrite Nat.sub_0_r, skipn_nil.
    assert (Ha : np_rows (repeat [] n) = Ok (mkNarr [n; 0] [])).
    { apply np_rows_ok. right. split; [destruct n; [cbn in Hl; lia|discriminate]|]. exists 0. split.
      - apply Forall_forall. intros x Hx. apply repeat_spec in Hx. subst. reflexivity.
      - rewrite repeat_length, concat_nils. reflexivity. }
    rewrite Ha. reflexivity.
  - assert (He : np_rows rs = Err ValueError).
    { apply np_rows_err. split; [reflexivity|]. inversion Hb as [|? v0 ? v' Hl0 Hb0]; subst.
      exists (entries3 (fin3 v0)), []. split; [left; reflexivity|]. split; [|discriminate].
      apply in_or_app. right. destruct (n - List.length (l0 :: b0)) eqn:Hd; [lia|]. left. reflexivity. }
    rewrite He. reflexivity.
Qed.
Lemma last_ml_snoc prev bs b : last_ml prev (bs ++ [b]) = fst b.
Proof. unfold last_ml. rewrite fold_left_app. reflexivity. Qed.
Lemma f_stopped E content f symbols r0 lt r1 dt A B r2 bs l rest vs : file_lines content f ->
  species f symbols r0 -> symbols <> [] ->
  first_with (txt "time-step for ionic-motion") r0 lt r1 -> timestep_line E lt dt ->
  lattice_block E r1 (matrix A) (r2 ++ l :: rest) -> mmul A B = mI ->
  blocks_in E (List.length symbols) r2 bs -> occurs block_marker l ->
  rows3_at E (tl rest) vs -> List.length vs < List.length symbols ->
  occurs (txt "(ML)") l \/ (forall bs' b, bs = bs' ++ [b] -> fst b = false) ->
  outcar_read_trajectory E content = Err ValueError.
Proof.
  intros Hf Hs Hne Ht Htl Hl HAB Hb Ho Hr Hv Hc. apply file_lines_open in Hf. unfold outcar_read_trajectory. rewrite <- Hf.
  apply symbols_ok in Hs. rewrite Hs. cbn [rbind]. rewrite (timestep_ok _ _ _ _ _ Ht Htl). cbn [rbind].
  apply lattice_ok in Hl. rewrite Hl. cbn [rbind].
  assert (Hn : 0 < List.length symbols) by (destruct symbols; [congruence|cbn; lia]).
  destruct (blocks_loop_app E _ _ B (l :: rest) Hn (matrix_inv E A B HAB) (S (List.length (r2 ++ l :: rest))) r2 bs false (Nat.lt_succ_diag_r _) Hb) as (fuel & L & R).
  rewrite R. destruct fuel as [|fuel]; [lia|]. cbn [blocks_loop skip_until]. change position_marker with block_marker.
  apply contains_spec in Ho. rewrite Ho.
  assert (Hk : last_ml false bs && negb (contains (txt "(ML)") l) = false).
  { destruct Hc as [Hc|Hc].
    - apply contains_spec in Hc. rewrite Hc. apply andb_false_r.
    - destruct bs as [|b0 bs0] eqn:Eb; [reflexivity|]. destruct (exists_last (l := b0 :: bs0)) as (bs' & b & Ebs); [discriminate|].
      rewrite Ebs, last_ml_snoc, (Hc bs' b Ebs). reflexivity. }
  rewrite Hk. unfold outcar_next_cart.
  assert (Et : snd (next_line rest) = tl rest) by (destruct rest; reflexivity). rewrite Et.
  rewrite (short_table E _ _ _ vs Hr) by (rewrite (f2len Hr); exact Hv).
  destruct (tl rest); cbn [rbind]; [|reflexivity]. rewrite (matrix_inv E A B HAB). reflexivity.
Qed.
Lemma f_stopped_skipped E content f symbols r0 lt r1 dt A B r2 bs vs0 l rest steps : file_lines content f ->
  species f symbols r0 -> symbols <> [] ->
  first_with (txt "time-step for ionic-motion") r0 lt r1 -> timestep_line E lt (Fin dt) -> (0 < dt)%R ->
  lattice_block E r1 (matrix A) (r2 ++ l :: rest) -> mmul A B = mI ->
  blocks_in E (List.length symbols) r2 (bs ++ [(true, vs0)]) -> occurs block_marker l -> ~ occurs (txt "(ML)") l -> nowhere block_marker rest ->
  steps_are (bs ++ [(true, vs0)]) steps ->
  exists fs, outcar_read_trajectory E content = Ok (array3 (List.length symbols) fs, Fin dt) /\
    Forall2 (fun cart frac => cell_images (rows_mul cart B) frac) steps fs.
Proof.
  intros Hf Hs Hne Ht Htl Hdt Hl HAB Hb Ho Hml Hr Hst. apply file_lines_open in Hf. unfold outcar_read_trajectory. rewrite <- Hf.
  apply symbols_ok in Hs. rewrite Hs. cbn [rbind]. rewrite (timestep_ok _ _ _ _ _ Ht Htl). cbn [rbind].
  apply lattice_ok in Hl. rewrite Hl. cbn [rbind].
  assert (Hn : 0 < List.length symbols) by (destruct symbols; [congruence|cbn; lia]).
  destruct (blocks_loop_app E _ _ B (l :: rest) Hn (matrix_inv E A B HAB) (S (List.length (r2 ++ l :: rest))) r2 _ false (Nat.lt_succ_diag_r _) Hb) as (fuel & L & R).
  rewrite R. rewrite last_ml_snoc. destruct fuel as [|fuel]; [lia|]. cbn [blocks_loop skip_until fst]. change position_marker with block_marker.
  apply contains_spec in Ho. rewrite Ho. apply contains_false in Hml. rewrite Hml. cbn [andb negb].
  assert (Hz : blocks_loop E fuel (List.length symbols) (matrix A) false rest = Ok []).
  { destruct fuel; [reflexivity|]. cbn [blocks_loop]. change position_marker with block_marker.
    assert (Hk : skip_until block_marker rest = Err NoMatchingLineFoundException) by (apply skip_until_err; auto). rewrite Hk. reflexivity. }
  rewrite Hz. cbn [rbind]. rewrite app_nil_r. clear R Hz.
  rewrite <- (steps_unique _ _ _ Hst (steps_exist _)) in *.
  assert (Hk : steps <> []).
  { rewrite (steps_unique _ _ _ Hst (steps_exist _)). destruct bs as [|[ml vs] bs]; cbn; discriminate. }
  assert (Hlen : Forall (fun vs => List.length vs = List.length symbols) steps).
  { rewrite (steps_unique _ _ _ Hst (steps_exist _)). eapply keep_length. exact Hb. }
  exists (map (fun vs => map (vmap wrap) (rows_mul vs B)) steps). split.
  - replace (map (fun vs => array2 (rows_mul vs B)) steps) with (map array2 (map (fun vs => rows_mul vs B) steps)) by (rewrite map_map; reflexivity).
    pose proof (np_stack_array2 (List.length symbols) (map (fun vs => rows_mul vs B) steps)) as HN.
    destruct (map array2 (map (fun vs => rows_mul vs B) steps)) eqn:Hm; [destruct steps; [congruence|discriminate]|].
    rewrite HN.
    + cbn [rbind]. unfold trajectory_of, array3. cbn [na_shape na_data].
      change (verify_ndarray_shape _ _) with (Ok tt). cbn [rbind]. unfold num_le0, Rleb. destruct (Rle_dec dt 0); [lra|].
      do 3 f_equal; [rewrite !map_length; reflexivity|]. rewrite map_wrap_entries. do 2 f_equal.
      rewrite concat_map, map_map. reflexivity.
    + destruct steps; [congruence|discriminate].
    + apply Forall_forall. intros x Hx. apply in_map_iff in Hx. destruct Hx as (y & <- & Hy). rewrite Forall_forall in Hlen.
      unfold rows_mul. rewrite map_length. apply Hlen. exact Hy.
  - clear. induction steps as [|v steps IH]; constructor; [|exact IH].
    unfold cell_images. induction (rows_mul v B) as [|x xs IHx]; constructor; [|exact IHx]. unfold vall2, vmap. cbn. repeat split; apply wrap_image.
Qed.

(** ** Wavenumbers that cannot be read *)
Lemma mode_loop_bad E n lat B : inv_arr E lat = Ok (rows3 B) -> 0 < n -> forall ms f g, modes_then E n f ms g -> forall k e,
  read_mode_line E g = Err e -> List.length ms < k -> mode_loop E k n lat f = Err e.
Proof.
  intros Hi Hn ms f g H. induction H as [f|f l body f' g w vs ms H1 H2 H3 H4 H5 IH]; intros k e He Hk; (destruct k as [|k]; [cbn in Hk; lia|]); cbn [mode_loop].
  - rewrite He. reflexivity.
  - rewrite (mode_line_ok _ _ _ _ _ H1 H2). cbn [rbind]. rewrite (eigen_loop_ok E n lat B Hi _ _ H3 []) by (cbn; exact H4). cbn [rbind].
    rewrite (IH k e) by (auto; cbn in Hk; lia). reflexivity.
Qed.
Lemma phonons_bad_mode E content f symbols f0 A B f1 ps f2 lm f3 ms g e : file_lines content f ->
  species f symbols f0 -> symbols <> [] ->
  lattice_block E f0 (matrix A) f1 -> mmul A B = mI ->
  fractional_block E (List.length symbols) f1 ps f2 ->
  first_with (txt "Eigenvectors and eigenvalues of the dynamical matrix") f2 lm f3 ->
  modes_then E (List.length symbols) f3 ms g -> List.length ms < List.length symbols * 3 ->
  read_mode_line E g = Err e -> outcar_read_phonons E content = Err e.
Proof.
  intros Hf Hs Hne Hl HAB Hp Hm Hms Hk He. apply file_lines_open in Hf. unfold outcar_read_phonons. rewrite <- Hf.
  apply symbols_ok in Hs. rewrite Hs. cbn [rbind]. destruct (weights_known symbols (outcar_symbols_known _ _ _ Hs)) as (ws & ->). cbn [rbind].
  apply lattice_ok in Hl. rewrite Hl. cbn [rbind]. apply fractional_ok in Hp. rewrite Hp. cbn [rbind]. apply skip_until_ok in Hm. rewrite Hm. cbn [or_invalid rbind].
  assert (Hn : 0 < List.length symbols) by (destruct symbols; [congruence|cbn; lia]).
  rewrite (mode_loop_bad E _ _ B (matrix_inv E A B HAB) Hn _ _ _ Hms _ _ He Hk). reflexivity.
Qed.
Lemma f_wavenumber E content f symbols f0 A B f1 ps f2 lm f3 ms g : file_lines content f ->
  species f symbols f0 -> symbols <> [] ->
  lattice_block E f0 (matrix A) f1 -> mmul A B = mI ->
  fractional_block E (List.length symbols) f1 ps f2 ->
  first_with (txt "Eigenvectors and eigenvalues of the dynamical matrix") f2 lm f3 ->
  modes_then E (List.length symbols) f3 ms g -> List.length ms < List.length symbols * 3 ->
  (nowhere (txt "cm-1") g \/
   (exists l r, first_with (txt "cm-1") g l r /\
     (List.length (split l) < 7 \/ (~ occurs (txt "f/i") l /\ List.length (split l) = 7))) ->
   outcar_read_phonons E content = Err (InvalidFileException (txt "eigenvalue could not be parsed"))) /\
  (forall l r w, first_with (txt "cm-1") g l r ->
     (occurs (txt "f/i") l /\ nth_error (split l) 6 = Some w) \/ (~ occurs (txt "f/i") l /\ nth_error (split l) 7 = Some w) ->
     float_of (e_fl E) w = None -> outcar_read_phonons E content = Err ValueError).
Proof.
  intros Hf Hs Hne Hl HAB Hp Hm Hms Hk.
  pose proof (fun e => phonons_bad_mode E content f symbols f0 A B f1 ps f2 lm f3 ms g e Hf Hs Hne Hl HAB Hp Hm Hms Hk) as X. split.
  - intros [H|(l & r & H1 & H2)]; apply X; unfold read_mode_line.
    + assert (Hz : skip_until (txt "cm-1") g = Err NoMatchingLineFoundException) by (apply skip_until_err; auto). rewrite Hz. reflexivity.
    + apply skip_until_ok in H1. rewrite H1. cbn [or_invalid rbind]. unfold word_float.
      destruct (contains (txt "f/i") l) eqn:Hc.
      * assert (List.length (split l) < 7) by (destruct H2 as [H2|[H2 _]]; [exact H2|apply contains_spec in Hc; contradiction]).
        rewrite (proj2 (nth_error_None (split l) 6)) by lia. reflexivity.
      * rewrite (proj2 (nth_error_None (split l) 7)) by lia. reflexivity.
  - intros l r w H1 H2 H3. apply X. unfold read_mode_line. apply skip_until_ok in H1. rewrite H1. cbn [or_invalid rbind]. unfold word_float.
    destruct H2 as [[H2 H4]|[H2 H4]]; [apply contains_spec in H2|apply contains_false in H2]; rewrite H2, H4, H3; reflexivity.
Qed.

(** * vasprun.xml *)
Definition vmay (parse : text -> parsed) (content : text) (l : list exn) (e : exn) : Prop := may l e \/ parse content = Raises e.
Lemma root_errors {A} parse content l (k : xml -> res A) e : (forall r, only (may l) (k r)) -> rbind (root_element parse content) k = Err e -> vmay parse content l e.
Proof.
  intros H. unfold root_element. destruct (parse content) as [r| |x] eqn:Hp; cbn [rbind]; intros E.
  - left. apply (H r). exact E.
  - left. left. injection E as <-. eauto.
  - right. injection E as <-. exact Hp.
Qed.
Lemma f_vasprun_positions_errors E parse content e :
  vasprun_read_positions E parse content = Err e \/ vasprun_read_positions_and_polarizability E parse content = Err e ->
  (exists m, e = InvalidFileException m) \/ e = ValueError \/ parse content = Raises e.
Proof.
  intros H. assert (M : vmay parse content [ValueError] e); [|unfold vmay, may in M; cbn in M; intuition].
  assert (V : In ValueError [ValueError]) by (left; auto).
  destruct H as [H|H]; (eapply root_errors; [|exact H]); intros r; cbv beta; [apply on_initial; auto|]. on; auto using on_initial, on_vpol.
Qed.
Lemma f_vasprun_structure_errors E parse content e :
  vasprun_read_structure_and_polarizability E parse content = Err e ->
  (exists m, e = InvalidFileException m) \/ e = ValueError \/ e = IndexError \/ e = KeyError \/ parse content = Raises e.
Proof.
  intros H. assert (M : vmay parse content [ValueError; IndexError; KeyError] e); [|unfold vmay, may in M; cbn in M; intuition].
  assert (V : In ValueError [ValueError; IndexError; KeyError]) by (left; auto). assert (I : In IndexError [ValueError; IndexError; KeyError]) by (right; left; auto).
  eapply root_errors; [|exact H]. intros r. cbv beta. on; auto using on_initial, on_vpol, on_vlattice.
  - apply on_vsymbols; auto.
  - apply only_mapM. intros ch _. unfold atomic_number. on.
Qed.
Lemma f_vasprun_trajectory_errors E parse content e :
  vasprun_read_trajectory E parse content = Err e ->
  (exists m, e = InvalidFileException m) \/ e = ValueError \/ parse content = Raises e.
Proof.
  intros H. assert (M : vmay parse content [ValueError] e); [|unfold vmay, may in M; cbn in M; intuition].
  assert (V : In ValueError [ValueError]) by (left; auto).
  eapply root_errors; [|exact H]. intros r. cbv beta. on; auto using on_vtimestep, on_stack, on_trajectory_of. apply only_mapM. intros ch _. on; auto using on_missing, on_parse_rows.
Qed.
Lemma f_vasprun_phonon_errors E parse content e :
  vasprun_read_phonons E parse content = Err e ->
  (exists m, e = InvalidFileException m) \/ e = ValueError \/ e = IndexError \/ e = KeyError \/ e = LinAlgError \/ parse content = Raises e.
Proof.
  intros H. assert (M : vmay parse content [ValueError; IndexError; KeyError; LinAlgError] e); [|unfold vmay, may in M; cbn in M; intuition].
  assert (V : In ValueError [ValueError; IndexError; KeyError; LinAlgError]) by (left; auto). assert (I : In IndexError [ValueError; IndexError; KeyError; LinAlgError]) by (right; left; auto).
  assert (L : In LinAlgError [ValueError; IndexError; KeyError; LinAlgError]) by (cbn; auto).
  eapply root_errors; [|exact H]. intros r. cbv beta. on; auto using on_initial, on_eigenvalues, on_eigenvectors, on_div, on_phonons_of.
  - apply on_vsymbols; auto.
  - apply only_mapM. intros ch _. unfold atomic_weight. on.
Qed.

Lemma np_stack_differ l a b : In a l -> In b l -> na_shape a <> na_shape b -> np_stack l = Err ValueError.
Proof.
  intros Ha Hb Hne. destruct l as [|x l]; [destruct Ha|]. cbn [np_stack]. destruct (forallb _ l) eqn:H; [exfalso|reflexivity]. rewrite forallb_forall in H.
  assert (X : forall y, In y (x :: l) -> na_shape y = na_shape x).
  { intros y [<-|Hy]; [reflexivity|]. specialize (H y Hy). destruct (list_eq_dec Nat.eq_dec (na_shape y) (na_shape x)); [assumption|discriminate]. }
  rewrite (X a Ha), (X b Hb) in Hne. congruence.
Qed.
Lemma f_C62_differ E parse content root structs fs dt vs vs' : parse content = Tree root ->
  unnamed_structures root structs ->
  Forall2 (fun s vs => exists v, first_at s [tag "varray"] v /\ varray3 E v vs) structs fs ->
  Forall (fun vs => vs <> []) fs -> In vs fs -> In vs' fs -> List.length vs <> List.length vs' ->
  timestep_at E root dt -> vasprun_read_trajectory E parse content = Err ValueError.
Proof.
  intros Hr Hs HF Hl Ha Hb Hne Ht.
  unfold vasprun_read_trajectory. apply root_ok in Hr. rewrite Hr. cbn [rbind].
  rewrite <- (structures_unique _ _ _ Hs (structures_ok root)).
  assert (HM : mapM (fun s => let* v := or_missing "structure varray not found" (xfind s [tag "varray"]) in parse_rows E v) structs = Ok (map array2 fs)).
  { apply mapM_Ok. clear -HF Hl. induction HF as [|s vs structs fs (v & Hv & H3) _ IH]; [constructor|].
    inversion Hl as [|? ? Hlv Hl']; subst. cbn [map]. constructor; [|apply IH; assumption]. apply at_path_ok. exists v. split; [exact Hv|].
    apply varray3_array; [exact Hlv|exact H3]. }
  rewrite HM. cbn [rbind]. apply timestep_ok' in Ht.
  pose proof (np_stack_differ (map array2 fs) (array2 vs) (array2 vs') (in_map _ _ _ Ha) (in_map _ _ _ Hb)) as N.
  rewrite N by (cbn; congruence). rewrite Ht. destruct (map array2 fs) eqn:Hm; [destruct fs; [destruct Ha|discriminate]|]. reflexivity.
Qed.
Lemma wrap_num_cell l : Forall2 in_unit_cell l (map wrap_num l).
Proof.
  induction l as [|x l IH]; cbn [map]; constructor; auto. destruct x as [a|b|]; cbn; auto. exists (wrap a). split; [reflexivity|apply wrap_image].
Qed.
Lemma f_C62_converse_cell E parse content shape data dt :
  vasprun_read_trajectory E parse content = Ok (mkNarr shape data, dt) ->
  exists root structs arrays, parse content = Tree root /\ unnamed_structures root structs /\ structs <> [] /\
    Forall2 (fun s a => exists v, first_at s [tag "varray"] v /\ varray_is E v a) structs arrays /\
    hd 0%nat shape = List.length structs /\ Forall2 in_unit_cell (concat (map na_data arrays)) data /\ timestep_at E root dt.
Proof.
  intros H. destruct (f_C62_converse _ _ _ _ _ _ H) as (root & structs & arrays & A & B & C & D & F & -> & G).
  exists root, structs, arrays. repeat split; auto. apply wrap_num_cell.
Qed.
