(** Writers: success conditions, round trips, labels; Cartesian mode of the reader. *)
From Coq Require Import String Ascii ZArith NArith Reals Lra Lia Psatz Bool Arith List.
From Verif Require Import Base LinAlg Constants M_Validate M_Spectrum M_Text M_Poscar S_Spectrum S_Text P_Text P_Poscar P_Poscar2 P_Poscar3.
Import ListNotations.
Local Open Scope N_scope.

Lemma verify_trajectory_spec lattice numbers pts :
  (verify_trajectory lattice numbers pts = Ok tt <-> valid_trajectory lattice numbers pts) /\
  (forall e, verify_trajectory lattice numbers pts = Err e -> e = ValueError).
Proof.
  unfold verify_trajectory, valid_trajectory.
  assert (V2 : verify_ndarray_shape (na_shape lattice) [Some 3; Some 3]%nat = if list_eq_dec Nat.eq_dec (na_shape lattice) [3; 3]%nat then Ok tt else Err ValueError).
  { destruct (na_shape lattice) as [|x [|y [|z sh]]]; try (destruct (list_eq_dec Nat.eq_dec _ [3; 3]%nat); [discriminate|reflexivity]).
    unfold verify_ndarray_shape. cbn [List.length Nat.eqb negb dims_match].
    destruct (list_eq_dec Nat.eq_dec [x; y] [3; 3]%nat) as [E|E].
    - injection E as -> ->. auto.
    - destruct (Nat.eqb_spec x 3); auto. destruct (Nat.eqb_spec y 3); auto. subst. congruence. }
  rewrite V2. destruct (list_eq_dec Nat.eq_dec (na_shape lattice) [3; 3]%nat) as [E1|E1]; cbn [rbind verify_list_len].
  2: { split; [split; [discriminate|intros (X & _); congruence]|intros e H; congruence]. }
  destruct (existsb unknown_number numbers) eqn:U.
  { split; [split; [discriminate|]|intros e H; congruence]. intros (_ & K & _).
    apply existsb_exists in U as (n & I & Hn). rewrite Forall_forall in K. apply K, unknown_spec in I. congruence. }
  assert (K : Forall known numbers).
  { apply Forall_forall. intros n I. apply unknown_spec. destruct (unknown_number n) eqn:Q; auto.
    assert (existsb unknown_number numbers = true) by (apply existsb_exists; eauto). congruence. }
  assert (V3 : verify_ndarray_shape (na_shape pts) [None; Some (List.length numbers); Some 3%nat] = Ok tt <-> exists s, na_shape pts = [s; List.length numbers; 3]%nat).
  { destruct (na_shape pts) as [|x [|y [|z [|w sh]]]]; try (split; [discriminate|intros (? & X); discriminate]).
    unfold verify_ndarray_shape. cbn [List.length Nat.eqb negb dims_match].
    destruct (Nat.eqb_spec y (List.length numbers)) as [->|N]; [|split; [discriminate|intros (? & X); injection X; intros; subst; congruence]].
    destruct (Nat.eqb_spec z 3) as [->|N]; [split; eauto|split; [discriminate|intros (? & X); injection X; intros; subst; congruence]]. }
  destruct (verify_ndarray_shape (na_shape pts) _) as [[]|e0] eqn:VS; cbn [rbind].
  2: { split; [split; [discriminate|intros (_ & _ & X & _); apply V3 in X; discriminate]|]. intros e H. injection H as <-.
       unfold verify_ndarray_shape in VS. destruct (negb _); [congruence|]. destruct (dims_match _ _); congruence. }
  assert (O : outside pts = false <-> Forall in_cell (na_data pts)).
  { unfold outside. split; intros H.
    - apply Forall_forall. intros x I.
      assert (Q : num_lt x 0 || num_gt x 1 = false).
      { destruct (num_lt x 0 || num_gt x 1) eqn:Q; auto. assert (existsb (fun x => num_lt x 0 || num_gt x 1) (na_data pts) = true) by (apply existsb_exists; eauto). congruence. }
      apply orb_false_iff in Q as [Q1 Q2]. destruct x as [r|b|]; cbn in *; auto.
      + apply Rltb_false in Q1, Q2. lra.
      + destruct b; discriminate.
    - apply Bool.not_true_is_false. intros Q. apply existsb_exists in Q as (x & I & Q). rewrite Forall_forall in H. apply H in I.
      apply orb_true_iff in Q as [Q|Q]; destruct x as [r|b|]; cbn in *; try discriminate; try contradiction; apply Rltb_true in Q; lra. }
  destruct (outside pts) eqn:Q.
  - split; [split; [discriminate|]|intros e H; congruence]. intros (_ & _ & _ & X). apply O in X. congruence.
  - split; [split; auto|intros e H; discriminate]. intros _. repeat split; auto; [apply V3; auto|apply O; auto].
Qed.

(** * When the writers succeed *)
Lemma f_C46_success E lattice numbers positions label :
  (exists pieces, structure_pieces E lattice numbers positions label = Ok pieces) <->
  valid_structure lattice numbers positions /\ numbers <> [] /\ contiguous numbers.
Proof.
  unfold structure_pieces. destruct (verify_structure_spec lattice numbers positions) as [V1 V2]. split.
  - intros (pieces & H). apply rbind_ok in H as ([] & V & H). apply V1 in V. split; auto.
    apply rbind_ok in H as (sym & G & _). pose proof (f_C49_grouping numbers) as GG. rewrite G in GG. destruct GG as (_ & _ & C). split; auto.
    intros ->. discriminate.
  - intros (V & NE & C). rewrite (proj2 V1 V). cbn [rbind]. destruct V as (_ & K & _).
    destruct (proj2 (f_C49_iff numbers K NE) C) as (t & ->). cbn [rbind]. eauto.
Qed.
Lemma f_C46_failure E lattice numbers positions label e :
  structure_pieces E lattice numbers positions label = Err e ->
  e = ValueError \/ (e = IndexError /\ numbers = [] /\ valid_structure lattice numbers positions).
Proof.
  unfold structure_pieces. destruct (verify_structure_spec lattice numbers positions) as [V1 V2].
  destruct (verify_structure lattice numbers positions) as [[]|e0] eqn:V; cbn [rbind]; [|intros H; injection H as <-; left; auto].
  pose proof (proj1 V1 eq_refl) as VS. destruct numbers as [|n l].
  - cbn [get_symbols_str rbind]. intros H. injection H as <-. right. auto.
  - destruct VS as (_ & K & _). destruct (get_symbols_cases (n :: l) K) as [(u & ks & -> & _)|(-> & _)]; [discriminate|discriminate|].
    cbn [rbind]. intros H. injection H as <-. auto.
Qed.
Lemma f_C52_success E lattice numbers pts label :
  (exists pieces, trajectory_pieces E lattice numbers pts label = Ok pieces) <->
  valid_trajectory lattice numbers pts /\ numbers <> [] /\ contiguous numbers.
Proof.
  unfold trajectory_pieces. destruct (verify_trajectory_spec lattice numbers pts) as [V1 V2]. split.
  - intros (pieces & H). apply rbind_ok in H as ([] & V & H). apply V1 in V. split; auto.
    apply rbind_ok in H as (sym & G & _). pose proof (f_C49_grouping numbers) as GG. rewrite G in GG. destruct GG as (_ & _ & C). split; auto.
    intros ->. discriminate.
  - intros (V & NE & C). rewrite (proj2 V1 V). cbn [rbind]. destruct V as (_ & K & _).
    destruct (proj2 (f_C49_iff numbers K NE) C) as (t & ->). cbn [rbind]. eauto.
Qed.
Lemma f_C52_failure E lattice numbers pts label e :
  trajectory_pieces E lattice numbers pts label = Err e ->
  e = ValueError \/ (e = IndexError /\ numbers = [] /\ valid_trajectory lattice numbers pts).
Proof.
  unfold trajectory_pieces. destruct (verify_trajectory_spec lattice numbers pts) as [V1 V2].
  destruct (verify_trajectory lattice numbers pts) as [[]|e0] eqn:V; cbn [rbind]; [|intros H; injection H as <-; left; auto].
  pose proof (proj1 V1 eq_refl) as VS. destruct numbers as [|n l].
  - cbn [get_symbols_str rbind]. intros H. injection H as <-. right. auto.
  - destruct VS as (_ & K & _). destruct (get_symbols_cases (n :: l) K) as [(u & ks & -> & _)|(-> & _)]; [discriminate|discriminate|].
    cbn [rbind]. intros H. injection H as <-. auto.
Qed.

(** * No carriage returns *)
Lemma no_cr_single s : single_line s -> no_cr s.
Proof. intros [_ H]. exact H. Qed.
Lemma no_cr_snoc s : no_cr s -> no_cr (s ++ [10]).
Proof. intros H. apply no_cr_app; auto. intros [I|[]]. discriminate. Qed.
Lemma no_cr_symbols u ks : Forall known u -> no_cr (symbols_text u ks).
Proof.
  intros K. unfold symbols_text, NL.
  assert (S1 : single_line (join (txt "  ") (map sym_text u))).
  { apply single_join; [apply single_spaces; repeat constructor|]. apply Forall_forall. intros w I. apply in_map_iff in I as (n & <- & I).
    rewrite Forall_forall in K. apply nospace_single. apply (sym_text_ok n (K n I)). }
  assert (S2 : single_line (join (txt "   ") (map count_text ks))).
  { apply single_join; [apply single_spaces; repeat constructor|]. apply Forall_forall. intros w I. apply in_map_iff in I as (n & <- & I).
    apply nospace_single, nospace_str_int. }
  assert (S3 : no_cr (txt "   ")) by (vm_compute; intuition discriminate).
  assert (S4 : no_cr [10]) by (vm_compute; intuition discriminate).
  apply no_cr_single in S1, S2. auto 12 using no_cr_app.
Qed.
Lemma no_cr_header E label lat u ks : Forall known u ->
  no_cr (concat (header E label (lattice_str lat) (symbols_text u ks))).
Proof.
  intros K. unfold header. cbn [concat]. rewrite app_nil_r.
  apply no_cr_app; [apply no_cr_snoc, no_cr_single, repr_single|].
  apply no_cr_app; [vm_compute; intuition discriminate|].
  apply no_cr_app; [apply no_cr_flat; intros v; apply no_cr_row; repeat constructor|apply no_cr_symbols; auto].
Qed.
Lemma no_cr_positions l : no_cr (positions_str l).
Proof. apply no_cr_flat. intros v. apply no_cr_row. repeat constructor. Qed.

Lemma numbers_sym l : Forall known l -> numbers_of (map sym_text l) = l.
Proof. intros H. unfold numbers_of. rewrite map_map. induction H; cbn [map]; auto. destruct (sym_text_ok x H) as (_ & _ & ->). congruence. Qed.

(** the common header, read back *)
Lemma read_header E label lat u ks s : e_fl E 1%R = Fin 1 -> List.length lat = 3%nat -> Forall known u -> u <> [] -> List.length u = List.length ks ->
  exists s1, read_lattice E (concat (header E label (lattice_str lat) (symbols_text u ks)) ++ s) = Ok (map (reread3_f (e_fl E)) lat, s1) /\
    read_atomic_symbols s1 = Ok (map sym_text (expand u ks), s).
Proof.
  intros F L K NE LK. exists (symbols_text u ks ++ s)%list. split; [|apply read_symbols_text; auto].
  unfold header. cbn [concat]. rewrite app_nil_r, <- !app_assoc.
  etransitivity; [|apply (read_lattice_text E label lat (symbols_text u ks ++ s) F L)]. f_equal. rewrite <- !app_assoc. reflexivity.
Qed.

Lemma read_mode_direct l s : ~ In 10 l -> read_mode ((68 :: l) ++ 10 :: s) = Ok (false, s).
Proof.
  intros H. unfold read_mode. rewrite readline_line by (intros [X|X]; [discriminate|auto]). reflexivity.
Qed.
Lemma read_frame E lat l rows s : ~ In 10 l ->
  read_positions_from E lat (List.length rows) (((68 :: l) ++ [10]) ++ positions_str rows ++ s) = Ok (map (reread3_f (e_fl E)) rows, s).
Proof.
  intros H. unfold read_positions_from. rewrite <- app_assoc. cbn [app].
  change (68 :: l ++ 10 :: positions_str rows ++ s)%list with ((68 :: l) ++ 10 :: (positions_str rows ++ s))%list.
  rewrite read_mode_direct by auto. cbn [rbind]. unfold positions_str. rewrite read_rows_str by (repeat constructor). reflexivity.
Qed.

Lemma f_C46_roundtrip E lattice numbers positions label pieces :
  e_fl E 1%R = Fin 1 -> narr_wf lattice -> narr_wf positions ->
  structure_pieces E lattice numbers positions label = Ok pieces ->
  exists lat pos,
    read_structure E (concat pieces) = Ok (lat, numbers, pos) /\
    List.length lat = 3%nat /\ Forall2 (reread (e_fl E)) (na_data lattice) (entries lat) /\
    List.length pos = List.length numbers /\ Forall2 (reread (e_fl E)) (na_data positions) (entries pos).
Proof.
  intros F WL WP H.
  pose proof (proj1 (f_C46_success E lattice numbers positions label) (ex_intro _ _ H)) as ((SL & K & SP & _) & NE & _).
  unfold narr_wf in *. rewrite SL in WL. rewrite SP in WP. cbn [prod_list fold_right] in WL, WP.
  assert (WL' : List.length (na_data lattice) = (3 * 3)%nat) by (unfold prod_list in WL; simpl in WL; lia).
  assert (WP' : List.length (na_data positions) = (List.length numbers * 3)%nat) by (unfold prod_list in WP; simpl in WP; lia).
  destruct (rows_n3_length _ _ WL') as [L1 L2]. destruct (rows_n3_length _ _ WP') as [P1 P2].
  destruct (get_symbols_cases numbers K NE) as [(u & ks & G & X & ND & KU & NU & LU & _)|(G & _)].
  2: { unfold structure_pieces in H. rewrite G in H. destruct (verify_structure _ _ _); discriminate. }
  unfold structure_pieces in H. destruct (verify_structure lattice numbers positions) as [[]|]; [|discriminate]. rewrite G in H. cbn [rbind] in H.
  apply (f_equal (fun r => match r with Ok x => concat x | Err _ => [] end)) in H.
  set (rl := rows_n3 (na_data lattice)) in *. set (rp := rows_n3 (na_data positions)) in *.
  exists (map (reread3_f (e_fl E)) rl), (map (reread3_f (e_fl E)) rp). rewrite <- H. clear H.
  rewrite !map_length. split; [|rewrite <- L2 at 1; rewrite <- P2 at 1; repeat split; auto; apply reread_entries].
  unfold read_structure.
  assert (T : universal (concat (header E label (lattice_str rl) (symbols_text u ks) ++ [(txt "Direct" ++ [NL])%list; positions_str rp]))
    = (concat (header E label (lattice_str rl) (symbols_text u ks)) ++ ((68 :: txt "irect") ++ [10]) ++ positions_str rp ++ [])%list).
  { rewrite universal_id.
    - rewrite concat_app. f_equal.
    - rewrite concat_app. apply no_cr_app; [apply no_cr_header; auto|]. cbn [concat]. rewrite app_nil_r. apply no_cr_app; [vm_compute; intuition discriminate|apply no_cr_positions]. }
  rewrite T. destruct (read_header E label rl u ks (((68 :: txt "irect") ++ [10]) ++ positions_str rp ++ []) F L1 KU NU LU) as (s1 & R1 & R2).
  rewrite R1. cbn [rbind]. rewrite R2. cbn [rbind]. rewrite map_length.
  assert (LR : List.length rp = List.length (expand u ks)) by (rewrite <- X; exact P1). rewrite <- LR. rewrite read_frame by (vm_compute; intuition discriminate).
  cbn [rbind]. rewrite <- X. rewrite numbers_sym by auto. reflexivity.
Qed.

(** * Labels *)
Lemma f_C48_structure E lattice numbers positions label label' pieces :
  structure_pieces E lattice numbers positions label = Ok pieces ->
  exists pieces', structure_pieces E lattice numbers positions label' = Ok pieces' /\
    single_line (first_line (concat pieces)) /\ after_line (concat pieces) = after_line (concat pieces').
Proof.
  unfold structure_pieces. destruct (verify_structure _ _ _); cbn [rbind]; [|discriminate].
  destruct (get_symbols_str numbers) as [sym|]; cbn [rbind]; [|discriminate]. intros H.
  eexists. split; [reflexivity|]. apply (f_equal (fun r => match r with Ok x => x | Err _ => [] end)) in H. rewrite <- H.
  unfold header. cbn [app concat]. unfold NL. rewrite <- !(app_assoc (repr_body _ _)). cbn [app].
  rewrite first_line_app by apply repr_single. rewrite !after_line_app by apply repr_single. split; auto. apply repr_single.
Qed.
Lemma f_C48_trajectory E lattice numbers pts label label' pieces :
  trajectory_pieces E lattice numbers pts label = Ok pieces ->
  exists pieces', trajectory_pieces E lattice numbers pts label' = Ok pieces' /\
    single_line (first_line (concat pieces)) /\ after_line (concat pieces) = after_line (concat pieces').
Proof.
  unfold trajectory_pieces. destruct (verify_trajectory _ _ _); cbn [rbind]; [|discriminate].
  destruct (get_symbols_str numbers) as [sym|]; cbn [rbind]; [|discriminate]. intros H.
  eexists. split; [reflexivity|]. apply (f_equal (fun r => match r with Ok x => x | Err _ => [] end)) in H. rewrite <- H.
  unfold header. cbn [app concat]. unfold NL. rewrite <- !(app_assoc (repr_body _ _)). cbn [app].
  rewrite first_line_app by apply repr_single. rewrite !after_line_app by apply repr_single. split; auto. apply repr_single.
Qed.

(** * Trajectories *)
Lemma chunks_ok n s : forall l, List.length l = (s * n)%nat ->
  List.length (chunks n s l) = s /\ Forall (fun f => List.length f = n) (chunks n s l) /\ concat (chunks n s l) = l.
Proof.
  induction s as [|s IH]; intros l L; cbn [chunks].
  - destruct l; [repeat split; auto|discriminate].
  - destruct (IH (skipn n l)) as (A & B & C); [rewrite skipn_length; lia|]. cbn [List.length concat]. rewrite A, C, firstn_skipn. repeat split; auto.
    constructor; auto. apply firstn_length_le. lia.
Qed.
Definition frames_text (i : nat) (fs : list (list n3)) : text := concat (config_pieces i fs).
Lemma config_label_eq i : exists l, config_label i = ((68 :: l) ++ [10])%list /\ single_line l.
Proof.
  unfold config_label, NL, pad_left. eexists (txt "irect configuration= " ++ repeat 32 (6 - List.length (str_int (Z.of_nat (S i)))) ++ str_int (Z.of_nat (S i)))%list.
  split; [change (txt "Direct configuration= ") with (68 :: txt "irect configuration= "); cbn [app]; rewrite <- !app_assoc; reflexivity|].
  apply single_app; [vm_compute; split; intuition discriminate|].
  apply single_app; [apply single_spaces, repeat_32|apply nospace_single, nospace_str_int].
Qed.
Lemma frames_configs E lat n fs : forall i, Forall (fun f => List.length f = n) fs ->
  configurations E lat n (frames_text i fs) (map (map (reread3_f (e_fl E))) fs) [].
Proof.
  induction fs as [|f fs IH]; intros i H; [constructor|]. inversion H; subst. unfold frames_text. cbn [config_pieces concat map].
  destruct (config_label_eq i) as (l & -> & [S1 _]). econstructor; [|apply (IH (S i)); auto].
  apply read_positions_from_ok. apply read_frame. auto.
Qed.
Lemma no_cr_frames fs : forall i, no_cr (frames_text i fs).
Proof.
  induction fs as [|f fs IH]; intros i; [intros []|]. unfold frames_text. cbn [config_pieces concat].
  destruct (config_label_eq i) as (l & -> & [_ S2]). apply no_cr_app; [|apply no_cr_app; [apply no_cr_positions|apply (IH (S i))]].
  apply no_cr_snoc. intros [I|I]; [discriminate|auto].
Qed.
Lemma entries_concat fs : flat_map entries fs = entries (concat fs).
Proof. unfold entries. rewrite (flat_map_concat_map _ (concat fs)), concat_map, <- flat_map_concat_map. induction fs; cbn [flat_map map concat]; auto. rewrite concat_app, IHfs. f_equal. apply flat_map_concat_map. Qed.

Lemma f_C52_roundtrip E lattice numbers pts label pieces :
  e_fl E 1%R = Fin 1 -> narr_wf lattice -> narr_wf pts ->
  trajectory_pieces E lattice numbers pts label = Ok pieces ->
  exists ps,
    read_positions_ts E (concat pieces) = Ok ps /\
    na_shape pts = [List.length ps; List.length numbers; 3]%nat /\
    Forall (fun p => List.length p = List.length numbers) ps /\
    Forall2 (reread (e_fl E)) (na_data pts) (flat_map entries ps).
Proof.
  intros F WL WP H.
  pose proof (proj1 (f_C52_success E lattice numbers pts label) (ex_intro _ _ H)) as ((SL & K & (ns & SP) & _) & NE & _).
  unfold narr_wf in *. rewrite SL in WL. rewrite SP in WP.
  assert (WL' : List.length (na_data lattice) = (3 * 3)%nat) by (unfold prod_list in WL; simpl in WL; lia).
  assert (WP' : List.length (na_data pts) = ((ns * List.length numbers) * 3)%nat) by (unfold prod_list in WP; simpl in WP; lia).
  destruct (rows_n3_length _ _ WL') as [L1 L2]. destruct (rows_n3_length _ _ WP') as [P1 P2].
  destruct (get_symbols_cases numbers K NE) as [(u & ks & G & X & ND & KU & NU & LU & _)|(G & _)].
  2: { unfold trajectory_pieces in H. rewrite G in H. destruct (verify_trajectory _ _ _); discriminate. }
  unfold trajectory_pieces in H. destruct (verify_trajectory lattice numbers pts) as [[]|]; [|discriminate]. rewrite G in H. cbn [rbind] in H.
  apply (f_equal (fun r => match r with Ok x => concat x | Err _ => [] end)) in H.
  set (rl := rows_n3 (na_data lattice)) in *.
  assert (FR : frames_n3 pts = chunks (List.length numbers) ns (rows_n3 (na_data pts))) by (unfold frames_n3; rewrite SP; reflexivity).
  destruct (chunks_ok (List.length numbers) ns (rows_n3 (na_data pts)) P1) as (C1 & C2 & C3). rewrite <- FR in *.
  set (fs := frames_n3 pts) in *.
  exists (map (map (reread3_f (e_fl E))) fs). rewrite <- H. clear H. rewrite map_length. split; [|split; [|split]].
  - unfold read_positions_ts.
    assert (T : universal (concat (header E label (lattice_str rl) (symbols_text u ks) ++ config_pieces 0 fs))
      = (concat (header E label (lattice_str rl) (symbols_text u ks)) ++ frames_text 0 fs)%list).
    { rewrite universal_id.
      - rewrite concat_app. reflexivity.
      - rewrite concat_app. apply no_cr_app; [apply no_cr_header; auto|]. apply no_cr_frames. }
    rewrite T. destruct (read_header E label rl u ks (frames_text 0 fs) F L1 KU NU LU) as (s1 & R1 & R2).
    rewrite R1. cbn [rbind]. rewrite R2. cbn [rbind]. rewrite map_length, <- X. apply read_configs_ok; [lia|].
    exists []. split; [apply frames_configs; auto|]. left. left. auto.
  - rewrite C1. exact SP.
  - apply Forall_forall. intros p I. apply in_map_iff in I as (f & <- & I). rewrite map_length. rewrite Forall_forall in C2. auto.
  - rewrite entries_concat. rewrite <- P2 at 1. rewrite <- C3 at 1. rewrite <- concat_map. apply reread_entries.
Qed.

(** * Scale factor and Cartesian mode *)
Lemma row_at_fun E s k v w : row_at E s k v -> row_at E s k w -> v = w.
Proof.
  intros (a & b & c & ws & E1 & A & B & C) (a' & b' & c' & ws' & E2 & A' & B' & C'). rewrite E1 in E2. injection E2 as <- <- <- <-.
  destruct v, w; simpl in *; congruence.
Qed.
Lemma mode_line_fun s k k' : mode_line s k -> mode_line s k' -> k = k'.
Proof. intros [[-> A]|[-> A]] [[-> B]|[-> B]]; auto; contradiction. Qed.
Lemma starts_fun l a b : starts l a -> starts l b -> a = b.
Proof. intros (d & t & -> & A) (d' & t' & E & B). injection E as <- <-. congruence. Qed.

Lemma nth_error_ext_3 {A} (l m : list A) : List.length l = 3%nat -> List.length m = 3%nat ->
  (forall i v w, nth_error l i = Some v -> nth_error m i = Some w -> v = w) -> l = m.
Proof.
  intros L M H. destruct l as [|a [|b [|c [|? ?]]]]; try discriminate. destruct m as [|a' [|b' [|c' [|? ?]]]]; try discriminate.
  rewrite (H 0%nat a a'), (H 1%nat b b'), (H 2%nat c c') by reflexivity. reflexivity.
Qed.

Lemma f_C51_lattice E content lat numbers p scale raw :
  read_structure E content = Ok (lat, numbers, p) ->
  float_of (e_fl E) (line 1 (universal content)) = Some scale ->
  rows_at E (universal content) 2 raw -> List.length raw = 3%nat ->
  lat = map (n3_scale scale) raw.
Proof.
  intros H S R L. apply f_C50_format in H as ((scale' & raw' & A & B & C & D & _) & _). rewrite S in A. injection A as <-. rewrite D. f_equal.
  apply nth_error_ext_3; auto. intros i v w V W. apply (row_at_fun E (universal content) (2 + i)); [apply (C i v V)|apply (R i w W)].
Qed.

Lemma num_mul_product x y z : num_mul x y = z <-> product x y z.
Proof.
  split.
  - intros <-. destruct x as [a|a|], y as [b|b|]; cbn [num_mul]; try (constructor; auto; fail).
    + destruct (Req_EM_T a 0) as [->|]; [eapply product_zero; left; eauto|]. eapply product_infinite with (b := b); try congruence; auto.
      unfold negative, Rltb. destruct (Rlt_dec a 0), b; cbn; intuition congruence.
    + destruct (Req_EM_T b 0) as [->|]; [eapply product_zero; right; eauto|]. eapply product_infinite with (b := a); try congruence; auto.
      unfold negative, Rltb. destruct (Rlt_dec b 0), a; cbn; intuition congruence.
    + eapply product_infinite with (b := a); try congruence; auto. unfold negative. destruct a, b; cbn; intuition congruence.
  - destruct 1 as [a b|x y [-> | ->]|x y b [[-> ->]|[-> ->]]|x y b neg Nx Ny Zx Zy I G].
    + reflexivity.
    + destruct y; reflexivity.
    + destruct x; reflexivity.
    + cbn. destruct (Req_EM_T 0 0); congruence.
    + cbn. destruct (Req_EM_T 0 0); congruence.
    + destruct x as [a|a|], y as [c|c|]; try congruence; cbn [num_mul]; unfold negative in G.
      * destruct I; discriminate.
      * destruct (Req_EM_T a 0); [congruence|]. f_equal. unfold Rltb. destruct (Rlt_dec a 0), c, neg; cbn; intuition congruence.
      * destruct (Req_EM_T c 0); [congruence|]. f_equal. unfold Rltb. destruct (Rlt_dec c 0), a, neg; cbn; intuition congruence.
      * f_equal. destruct a, c, neg; cbn; intuition congruence.
Qed.
Lemma n3_scale_scaled c v w : n3_scale c v = w <-> scaled c v w.
Proof.
  unfold n3_scale, scaled. rewrite <- !num_mul_product. destruct w as [x y z]. cbn. split; [intros H; injection H; auto|]. intros (-> & -> & ->). reflexivity.
Qed.
Lemma f_C51_scaled E content lat numbers p scale raw :
  read_structure E content = Ok (lat, numbers, p) ->
  float_of (e_fl E) (line 1 (universal content)) = Some scale ->
  rows_at E (universal content) 2 raw -> List.length raw = 3%nat ->
  Forall2 (scaled scale) raw lat.
Proof.
  intros H S R L. rewrite (f_C51_lattice _ _ _ _ _ _ _ H S R L). clear. induction raw; constructor; auto. apply n3_scale_scaled. reflexivity.
Qed.

Lemma row_mul_fin x m : row_mul (fin3 x) (rows3 m) = fin3 (vmul x m).
Proof.
  unfold row_mul, fin3, rows3. cbn [nth nx ny nz num_mul num_add].
  unfold vmul, vdot. cbn [vx vy vz]. f_equal; f_equal; ring.
Qed.
Lemma finite33_rows m : finite33 (rows3 m) = Some m.
Proof. destruct m as [[? ? ?] [? ? ?] [? ? ?]]. reflexivity. Qed.
Lemma scale_rows s A : map (n3_scale (Fin s)) (rows3 A) = rows3 (mscale s A).
Proof.
  unfold rows3, fin3, n3_scale, mscale, vscale. cbn [map nx ny nz vx vy vz r0 r1 r2 num_mul].
  rewrite !(Rmult_comm _ s). reflexivity.
Qed.

(** the Cartesian rows [x] come back as fractional positions of [x] in the scaled lattice *)
Lemma f_C51_cartesian E content lat numbers p s A k i x :
  read_structure E content = Ok (lat, numbers, p) ->
  float_of (e_fl E) (line 1 (universal content)) = Some (Fin s) ->
  rows_at E (universal content) 2 (rows3 A) ->
  mode_line (after_lines 7 (universal content)) k -> starts (line (7 + k) (universal content)) 99 ->
  (i < List.length numbers)%nat -> row_at E (universal content) (8 + k + i) (fin3 x) ->
  exists y, nth_error p i = Some (fin3 y) /\ vmul y (mscale s A) = x.
Proof.
  intros H S R MK ST Li RX. pose proof (f_C51_lattice _ _ _ _ _ _ _ H S R eq_refl) as LAT. rewrite scale_rows in LAT.
  apply f_C50_format in H as (_ & rest & (k' & rows & MK' & L & RA & _ & [(ST' & _)|(ST' & NE & inv & I & ->)])).
  - rewrite (mode_line_fun _ _ _ MK' MK) in ST'. rewrite line_after in ST'. pose proof (starts_fun _ _ _ ST ST'). discriminate.
  - rewrite (mode_line_fun _ _ _ MK' MK) in RA. rewrite LAT in I. unfold np_inv in I. rewrite finite33_rows in I.
    destruct (minv (mscale s A)) as [J|] eqn:MI; cbn [rmap] in I; [|discriminate]. apply (f_equal (fun r => match r with Ok z => z | Err _ => [] end)) in I. cbn beta iota in I. subst inv.
    destruct (minv_Ok _ _ MI) as (_ & JI & _).
    destruct (nth_error rows i) as [v|] eqn:V; [|apply nth_error_None in V; lia].
    pose proof (proj1 (row_at_after E (universal content) (Datatypes.S k + i) 7 v) (RA i v V)) as RV. assert (v = fin3 x).
    { apply (row_at_fun E (universal content) (8 + k + i)); auto. }
    subst v. exists (vmul x J). rewrite nth_error_map, V. cbn [option_map]. rewrite row_mul_fin. split; auto.
    rewrite <- vmul_mmul, JI. apply vmul_mI.
Qed.
(** The format scales Cartesian coordinates with the lattice: [y'] with [y' (s A) = s x].
    The code's answer [y] agrees exactly when the scale is 1 or the row is zero. *)
Lemma f_C51_disagree (s : R) (A : M3) (x y y' : V3) : s <> 0%R -> mdet A <> 0%R ->
  vmul y (mscale s A) = x -> vmul y' (mscale s A) = vscale s x ->
  (y = y' <-> s = 1%R \/ x = v0).
Proof.
  intros S D Y Y'. rewrite !vmul_mscale in *.
  destruct (minv_exists A D) as (J & MI). destruct (minv_Ok _ _ MI) as (AJ & JA & _).
  assert (Z : vmul y' A = x).
  { assert (X : vscale (/ s) (vscale s (vmul y' A)) = vscale (/ s) (vscale s x)) by congruence.
    rewrite !vscale_vscale in X. rewrite Rinv_l in X by auto. rewrite !vscale_1 in X. auto. }
  split.
  - intros <-. rewrite Z in Y. destruct (Req_dec s 1); auto. right. destruct x as [a b c]. unfold vscale in Y. simpl in Y.
    injection Y as Ya Yb Yc. unfold v0. f_equal; nra.
  - intros [-> | ->].
    + rewrite vscale_1 in Y. rewrite <- (vmul_mI y), <- (vmul_mI y'), <- AJ, !vmul_mmul. congruence.
    + assert (Q : forall z, vmul z A = v0 -> z = v0) by (intros z Hz; rewrite <- (vmul_mI z), <- AJ, vmul_mmul, Hz; apply vmul_v0).
      rewrite (Q y' Z). apply Q. assert (X : vscale (/ s) (vscale s (vmul y A)) = vscale (/ s) v0) by congruence.
      rewrite vscale_vscale, Rinv_l, vscale_1, vscale_v0 in X by auto. auto.
Qed.
