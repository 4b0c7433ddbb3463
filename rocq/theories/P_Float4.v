(** Structure and trajectory files of doubles: the file theorems of C47 *)
From Coq Require Import String ZArith NArith Reals Bool List Lia Lra.
From Flocq Require Import Core.Core IEEE754.BinarySingleNaN.
From Verif Require Import Base LinAlg Constants M_Validate M_Spectrum M_Text M_Poscar M_Float S_Spectrum S_Text S_Float
  P_Convolve2 P_Text P_Poscar P_Poscar2 P_Poscar3 P_Poscar4 P_Float P_Float2 P_Float3.
Import ListNotations.
Local Open Scope R_scope.

Lemma nearest_unique : forall x n m, nearest_even x n -> nearest_even x m -> n = m.
Proof.
  intros x n m [A1 A2] [B1 B2]. 
  destruct (Req_dec (Rabs (IZR n - x)) (1 / 2)) as [E|E].
  - destruct (Req_dec (Rabs (IZR m - x)) (1 / 2)) as [E'|E'].
    + specialize (A2 E). specialize (B2 E').
      assert (Z.abs (n - m) < 2)%Z.
      { apply lt_IZR. rewrite abs_IZR, minus_IZR. replace (IZR n - IZR m) with ((IZR n - x) - (IZR m - x)) by ring.
        eapply Rle_lt_trans; [apply Rabs_triang|]. rewrite Rabs_Ropp. lra. }
      apply Z.even_spec in A2, B2. destruct A2 as [a ->], B2 as [b ->]. lia.
    + apply (nearest_close x); [split; assumption|]. lra.
  - symmetry. apply (nearest_close x); [split; assumption|]. lra.
Qed.

(** what one entry becomes *)
Lemma reread_val : forall x v, reread fl64 (val x) v -> exists y : f64, v = val y /\
  (finite x -> finite y /\ B2R y = rnd (dec16 (B2R x))) /\ (~ finite x -> y = x) /\ (finite x -> Bsign y = Bsign x).
Proof.
  intros x v H. destruct (reads_back x) as (y & _ & Hf & Hn). exists y.
  split; [|split; [intros F; destruct (Hf F) as (A & B & _); split; assumption|split; [exact Hn|intros F; apply Hf; exact F]]].
  destruct (is_finite x) eqn:F.
  - rewrite (val_finite x F) in H. inversion H as [r v' [n [N ->]] E1 E2| |]; subst.
    destruct (Hf F) as (Fy & Ey & _). rewrite (val_finite y Fy).
    replace n with (sgn16 (B2R x)) by (apply (nearest_unique (B2R x * 10 ^ 16)); [apply sgn16_nearest|exact N]).
    change (IZR (sgn16 (B2R x)) / 10 ^ 16) with (dec16 (B2R x)). rewrite Ey. apply fl64_rnd.
    apply (dec16_back (B2R x) (fmt_B2R x) (abs_B2R_lt_emax 53 1024 x)).
  - rewrite Hn by (unfold finite; congruence). destruct x as [s|s| |s m e h]; try discriminate F; inversion H; reflexivity.
Qed.

Lemma reread_kept : forall x v, reread fl64 (val x) v -> kept x v.
Proof.
  intros x v H. destruct (reread_val x v H) as (y & E & Hf & Hn & Hs). exists y. split; [symmetry; exact E|].
  assert (G := dec16_back (B2R x) (fmt_B2R x) (abs_B2R_lt_emax 53 1024 x)). cbv zeta in G.
  destruct G as (_ & G2 & G3 & _).
  split; [|split; [|exact Hn]].
  - intros F. destruct (Hf F) as [F' Ey]. split; [exact F'|]. unfold value. rewrite Ey. exact G2.
  - intros F L. destruct (Hf F) as [F' Ey]. apply f64_eq; [exact F'|exact F|rewrite Ey; apply G3; exact L|apply Hs; exact F].
Qed.

Lemma scaled16_zero : forall r, scaled16 r = 0%Z -> Rabs r <= 5 / 10 ^ 17.
Proof.
  intros r H. assert (N := proj1 (rint_spec (Rabs r * IZR (10 ^ 16)))). fold (scaled16 r) in N. rewrite H in N.
  change (10 ^ 16)%Z with 10000000000000000%Z in N. apply Rabs_le_inv in N. lra.
Qed.

Lemma reread_text : forall x v, reread fl64 (val x) v -> ~ tiny_negative x -> fmt_f16 v = fmt_f16 (val x).
Proof.
  intros x v H T. destruct (reread_val x v H) as (y & E & Hf & Hn & _). subst v.
  destruct (is_finite x) eqn:F; [|rewrite Hn by (unfold finite; congruence); reflexivity].
  destruct (Hf F) as [F' Ey]. rewrite (val_finite x F), (val_finite y F'). unfold fmt_f16. f_equal. rewrite !fmt_fin.
  assert (G := dec16_back (B2R x) (fmt_B2R x) (abs_B2R_lt_emax 53 1024 x)). cbv zeta in G. rewrite <- Ey in G.
  destruct G as (_ & G2 & G3 & G4 & G5 & G6 & _).
  f_equal; [|unfold fin_digits; rewrite G4; reflexivity].
  unfold Rltb. destruct (Rlt_dec (B2R y) 0) as [Ly|Ly], (Rlt_dec (B2R x) 0) as [Lx|Lx]; try reflexivity; [lra|].
  exfalso. assert (Y0 : B2R y = 0) by lra. rewrite Y0, scaled16_0 in G4. symmetry in G4. apply scaled16_zero in G4.
  apply T. split; [exact F|]. unfold value. rewrite Rabs_left in G4 by exact Lx. lra.
Qed.

Lemma reread_cell : forall x v, reread fl64 (val x) v -> in_cell (val x) -> in_cell v.
Proof.
  intros x v H C. destruct (reread_val x v H) as (y & E & Hf & Hn & _). subst v.
  destruct (is_finite x) eqn:F; [|rewrite Hn by (unfold finite; congruence); exact C].
  destruct (Hf F) as [F' Ey]. rewrite (val_finite x F) in C. rewrite (val_finite y F'). simpl in *.
  assert (G := dec16_back (B2R x) (fmt_B2R x) (abs_B2R_lt_emax 53 1024 x)). cbv zeta in G. rewrite <- Ey in G.
  destruct G as (_ & _ & _ & _ & G5 & _ & G7). split; [apply G5|apply G7]; lra.
Qed.

Lemma cell_not_tiny : forall x, in_cell (val x) -> ~ tiny_negative x.
Proof. intros x C [F T]. rewrite (val_finite x F) in C. simpl in C. unfold value in T. lra. Qed.

Definition same_fmt (a b : num) : Prop := fmt_f16 a = fmt_f16 b.
Lemma rows_same : forall l m, Forall2 same_fmt l m -> Forall2 (fun a b => forall i, row_str i a = row_str i b) (rows_n3 l) (rows_n3 m).
Proof.
  fix IH 3. intros l m H.
  destruct H as [|a b l m Ha H]; [constructor|]. destruct H as [|a2 b2 l m Hb H]; [constructor|].
  destruct H as [|a3 b3 l m Hc H]; [constructor|]. cbn [rows_n3]. constructor; [|apply IH; exact H].
  intros i. unfold row_str. cbn [nx ny nz]. unfold same_fmt in *. rewrite Ha, Hb, Hc. reflexivity.
Qed.
Lemma rows_text_same : forall i r s, Forall2 (fun a b => forall i, row_str i a = row_str i b) r s -> flat_map (row_str i) r = flat_map (row_str i) s.
Proof. intros i r s H. induction H as [|a b r s H1 _ IH]; [reflexivity|]. cbn [flat_map]. rewrite H1, IH. reflexivity. Qed.
Lemma forall2_firstn : forall {A B} (P : A -> B -> Prop) n l m, Forall2 P l m -> Forall2 P (firstn n l) (firstn n m).
Proof. intros A B P n. induction n as [|n IH]; intros l m H; [constructor|]. destruct H; [constructor|]. cbn [firstn]. constructor; auto. Qed.
Lemma forall2_skipn : forall {A B} (P : A -> B -> Prop) n l m, Forall2 P l m -> Forall2 P (skipn n l) (skipn n m).
Proof. intros A B P n. induction n as [|n IH]; intros l m H; [exact H|]. destruct H; [constructor|]. cbn [skipn]. auto. Qed.
Lemma chunks_same : forall n s r r' i, Forall2 (fun a b => forall i, row_str i a = row_str i b) r r' ->
  config_pieces i (chunks n s r) = config_pieces i (chunks n s r').
Proof.
  intros n s. induction s as [|s IH]; intros r r' i H; [reflexivity|]. cbn [chunks config_pieces]. f_equal. f_equal.
  - apply rows_text_same. apply forall2_firstn. exact H.
  - apply IH. apply forall2_skipn. exact H.
Qed.

Lemma map_f2 : forall {A B} (f : A -> B) (P : A -> num -> Prop) (Q : B -> num -> Prop) l m,
  (forall a v, Q (f a) v -> P a v) -> Forall2 Q (map f l) m -> Forall2 P l m.
Proof.
  intros A B f P Q l m I H. remember (map f l) as l' eqn:E. revert l E. induction H as [|b v l' m H1 _ IH]; intros l E.
  - destruct l; [constructor|discriminate].
  - destruct l as [|a l]; [discriminate|]. cbn [map] in E. injection E as -> ->. constructor; [apply I; exact H1|apply IH; reflexivity].
Qed.
Lemma f2_text : forall l m, Forall (fun x => ~ tiny_negative x) l -> Forall2 (reread fl64) (map val l) m ->
  Forall2 same_fmt m (map val l).
Proof.
  intros l m N H. remember (map val l) as l' eqn:E. revert l E N. induction H as [|b v l' m H1 _ IH]; intros l E N.
  - constructor.
  - destruct l as [|a l]; [discriminate|]. cbn [map] in E. injection E as -> ->. inversion N; subst.
    constructor; [apply reread_text; assumption|]. apply (IH l); auto.
Qed.
Lemma f2_cell : forall l m, Forall in_cell (map val l) -> Forall2 (reread fl64) (map val l) m -> Forall in_cell m.
Proof.
  intros l m N H. remember (map val l) as l' eqn:E. revert l E N. induction H as [|b v l' m H1 _ IH]; intros l E N.
  - constructor.
  - destruct l as [|a l]; [discriminate|]. cbn [map] in E. injection E as -> ->. inversion N; subst.
    constructor; [eapply reread_cell; eassumption|]. apply (IH l); auto.
Qed.
Lemma cells_not_tiny : forall l, Forall in_cell (map val l) -> Forall (fun x => ~ tiny_negative x) l.
Proof. intros l H. apply Forall_forall. intros x I. apply cell_not_tiny. rewrite Forall_forall in H. apply H. apply in_map. exact I. Qed.

Lemma fl64_1 : fl64 1 = Fin 1.
Proof. rewrite fl64_rnd; rewrite (rnd_id 1 fmt_1); [reflexivity|]. rewrite Rabs_R1. generalize two_lt_emax. lra. Qed.

Lemma wf64 : forall a, List.length (a64_data a) = prod_list (a64_shape a) -> narr_wf (narr64 a).
Proof. intros a H. unfold narr_wf, narr64. cbn [na_data na_shape]. rewrite map_length. exact H. Qed.

Lemma f_C47_structure : forall inv pr lattice numbers positions label pieces,
  let E := mkEnv fl64 inv pr in
  List.length (a64_data lattice) = prod_list (a64_shape lattice) ->
  List.length (a64_data positions) = prod_list (a64_shape positions) ->
  structure_pieces E (narr64 lattice) numbers (narr64 positions) label = Ok pieces ->
  exists lat pos,
    read_structure E (concat pieces) = Ok (lat, numbers, pos) /\
    Forall2 kept (a64_data lattice) (entries lat) /\ Forall2 kept (a64_data positions) (entries pos) /\
    (Forall (fun x => ~ tiny_negative x) (a64_data lattice) ->
     structure_pieces E (mkNarr (a64_shape lattice) (entries lat)) numbers (mkNarr (a64_shape positions) (entries pos)) label = Ok pieces).
Proof.
  intros inv pr lattice numbers positions label pieces E WL WP H.
  destruct (f_C46_roundtrip E _ _ _ _ _ fl64_1 (wf64 _ WL) (wf64 _ WP) H) as (lat & pos & R & L1 & L2 & P1 & P2).
  cbn [e_fl E narr64 na_data] in L2, P2.
  pose proof (proj1 (f_C46_success E (narr64 lattice) numbers (narr64 positions) label) (ex_intro _ _ H)) as ((SL & K & SP & C) & NE & CT).
  cbn [narr64 na_data na_shape] in SL, SP, C.
  exists lat, pos. split; [exact R|].
  split; [eapply map_f2; [apply reread_kept|exact L2]|]. split; [eapply map_f2; [apply reread_kept|exact P2]|].
  intros T.
  assert (S2 : exists p', structure_pieces E (mkNarr (a64_shape lattice) (entries lat)) numbers (mkNarr (a64_shape positions) (entries pos)) label = Ok p').
  { apply f_C46_success. split; [|split; assumption]. unfold valid_structure. cbn [na_shape na_data].
    split; [exact SL|]. split; [exact K|]. split; [exact SP|]. eapply f2_cell; [exact C|exact P2]. }
  destruct S2 as [p' S2]. rewrite S2. revert H S2. unfold structure_pieces.
  destruct (verify_structure (narr64 lattice) numbers (narr64 positions)) as [[]|]; [|discriminate].
  destruct (verify_structure (mkNarr _ _) numbers _) as [[]|]; [|discriminate]. cbn [rbind].
  destruct (get_symbols_str numbers) as [sym|]; [|discriminate]. cbn [rbind narr64 na_data].
  intros H S2. rewrite <- H, <- S2. unfold header. f_equal. unfold lattice_str, positions_str.
  rewrite (rows_text_same _ _ _ (rows_same _ _ (f2_text _ _ T L2))).
  rewrite (rows_text_same _ _ _ (rows_same _ _ (f2_text _ _ (cells_not_tiny _ C) P2))). reflexivity.
Qed.

Lemma f_C47_trajectory : forall inv pr lattice numbers pts label pieces,
  let E := mkEnv fl64 inv pr in
  List.length (a64_data lattice) = prod_list (a64_shape lattice) ->
  List.length (a64_data pts) = prod_list (a64_shape pts) ->
  trajectory_pieces E (narr64 lattice) numbers (narr64 pts) label = Ok pieces ->
  exists ps,
    read_positions_ts E (concat pieces) = Ok ps /\ Forall2 kept (a64_data pts) (flat_map entries ps) /\
    trajectory_pieces E (narr64 lattice) numbers (mkNarr (a64_shape pts) (flat_map entries ps)) label = Ok pieces.
Proof.
  intros inv pr lattice numbers pts label pieces E WL WP H.
  destruct (f_C52_roundtrip E _ _ _ _ _ fl64_1 (wf64 _ WL) (wf64 _ WP) H) as (ps & R & S1 & S2 & P2).
  cbn [e_fl E narr64 na_data na_shape] in S1, P2.
  pose proof (proj1 (f_C52_success E (narr64 lattice) numbers (narr64 pts) label) (ex_intro _ _ H)) as ((SL & K & SP & C) & NE & CT).
  cbn [narr64 na_data na_shape] in SL, SP, C.
  exists ps. split; [exact R|]. split; [eapply map_f2; [apply reread_kept|exact P2]|].
  assert (S3 : exists p', trajectory_pieces E (narr64 lattice) numbers (mkNarr (a64_shape pts) (flat_map entries ps)) label = Ok p').
  { apply f_C52_success. split; [|split; assumption]. unfold valid_trajectory. cbn [na_shape na_data].
    split; [exact SL|]. split; [exact K|]. split; [exact SP|]. eapply f2_cell; [exact C|exact P2]. }
  destruct S3 as [p' S3]. rewrite S3. revert H S3. unfold trajectory_pieces.
  destruct (verify_trajectory (narr64 lattice) numbers (narr64 pts)) as [[]|]; [|discriminate].
  destruct (verify_trajectory (narr64 lattice) numbers _) as [[]|]; [|discriminate]. cbn [rbind].
  destruct (get_symbols_str numbers) as [sym|]; [|discriminate]. cbn [rbind narr64 na_data na_shape].
  intros H S3. rewrite <- H, <- S3. f_equal. f_equal. unfold frames_n3. cbn [na_data na_shape].
  apply chunks_same. apply rows_same. apply f2_text; [apply cells_not_tiny; exact C|exact P2].
Qed.

(** ** Sharpness: a double below 1/2 that does not survive, and a concrete structure *)
Definition ex_small : f64 := @B754_finite 53 1024 false 4503599627370497 (-55) eq_refl. (* 1/8 plus one unit in the last place *)
Lemma f_C47_small_refuted : ~ (forall x y : f64, finite x -> reads_as (fmt64 x) y -> y = x).
Proof.
  intros H. destruct (reads_back ex_small) as (y & R & Hf & _). specialize (H ex_small y eq_refl R). subst y.
  destruct (Hf eq_refl) as (_ & E & _).
  assert (V : B2R ex_small = / 8 + / 2 ^ 55) by (unfold ex_small, B2R, F2R; simpl; lra).
  assert (D : dec16 (B2R ex_small) = / 8).
  { unfold dec16. replace (sgn16 (B2R ex_small)) with 1250000000000000%Z; [lra|]. symmetry.
    apply (nearest_close (B2R ex_small * 10 ^ 16)); [apply sgn16_nearest|]. rewrite V, Rabs_left; lra. }
  rewrite D in E. rewrite (rnd_id (/ 8)) in E.
  - rewrite V in E. lra.
  - replace (/ 8) with (IZR 1 * bpow radix2 (-3)) by (simpl; lra). apply fmt_mult; [reflexivity|lia].
Qed.

Definition ex_third : f64 := @B754_finite 53 1024 false 6004799503160661 (-54) eq_refl. (* 1/3 *)
Definition ex64_lattice : arr64 := mkArr64 [3; 3]%nat [fone; fzero false; fzero false; fzero false; fone; fzero false; ex_third; fzero false; fone].
Definition ex64_positions : arr64 := mkArr64 [2; 3]%nat [fzero false; ex_third; fhalf; fhalf; fzero false; ex_small].
Lemma ex64_written : forall inv pr, exists pieces,
  structure_pieces (mkEnv fl64 inv pr) (narr64 ex64_lattice) [1; 8]%Z (narr64 ex64_positions) (txt "x") = Ok pieces /\
  List.length (a64_data ex64_lattice) = prod_list (a64_shape ex64_lattice) /\
  List.length (a64_data ex64_positions) = prod_list (a64_shape ex64_positions) /\
  Forall (fun x => ~ tiny_negative x) (a64_data ex64_lattice).
Proof.
  intros inv pr.
  assert (V3 : B2R ex_third = 6004799503160661 / 2 ^ 54) by (unfold ex_third, B2R, F2R; simpl; lra).
  assert (Vs : B2R ex_small = / 8 + / 2 ^ 55) by (unfold ex_small, B2R, F2R; simpl; lra).
  assert (S : exists pieces, structure_pieces (mkEnv fl64 inv pr) (narr64 ex64_lattice) [1; 8]%Z (narr64 ex64_positions) (txt "x") = Ok pieces).
  { apply f_C46_success. split; [|split; [discriminate|]].
    - split; [reflexivity|]. split; [repeat constructor; cbn; discriminate|]. split; [reflexivity|].
      cbn [narr64 na_data ex64_positions a64_data map].
      assert (CC : forall x : f64, is_finite x = true -> 0 <= B2R x <= 1 -> in_cell (val x)) by (intros x F B; rewrite (val_finite x F); exact B).
      assert (C0 : in_cell (val (fzero false))) by (apply CC; [reflexivity|change (B2R (fzero false)) with 0; lra]).
      assert (Ch : in_cell (val fhalf)) by (apply CC; [reflexivity|rewrite B2R_half; lra]).
      assert (C3 : in_cell (val ex_third)) by (apply CC; [reflexivity|rewrite V3; lra]).
      assert (Cs : in_cell (val ex_small)) by (apply CC; [reflexivity|rewrite Vs; lra]).
      repeat (apply Forall_cons; [assumption|]). apply Forall_nil.
    - intros i j k z Hij Hi Hk. destruct i as [|[|i]], j as [|[|j]], k as [|[|k]]; cbn in *; try lia; try congruence; destruct k; discriminate. }
  destruct S as [pieces S]. exists pieces. split; [exact S|]. split; [reflexivity|]. split; [reflexivity|].
  cbn [ex64_lattice a64_data]. 
  assert (Z0 : ~ tiny_negative (fzero false)) by (intros [_ T]; change (value (fzero false)) with 0 in T; lra).
  assert (Z1 : ~ tiny_negative fone) by (intros [_ T]; unfold value in T; rewrite B2R_one in T; lra).
  assert (Z3 : ~ tiny_negative ex_third) by (intros [_ T]; unfold value in T; rewrite V3 in T; lra).
  repeat (apply Forall_cons; [assumption|]). apply Forall_nil.
Qed.
