(** Proofs about polarizability datasets: C78 (indexing) and C64 (reading). *)
From Coq Require Import String Ascii ZArith NArith Reals Bool Arith List Lia Lra.
From Verif Require Import Base LinAlg Constants M_Validate M_Text M_Poscar M_Outcar M_Vasprun M_Dataset S_Dataset
  P_Poscar P_Outcar P_Outcar2 P_Dataset P_Dataset2.
Import ListNotations.
Local Open Scope nat_scope.

(** ** C66: which calls are rejected *)
Lemma f_C66_rejects d ts m s : ds_raw d = tensors ts -> narr_wf m -> narr_wf s ->
  (valid_scaling (m, s) -> exists d', scale_polarizabilities d m s = Ok d') /\
  (~ valid_scaling (m, s) -> scale_polarizabilities d m s = Err ValueError).
Proof.
  intros Hr Wm Ws. split.
  - intros V. destruct V as [Vm Vs]. cbn [fst snd] in Vm, Vs. unfold narr_wf in Wm, Ws. rewrite Vm in Wm. rewrite Vs in Ws.
    destruct (rescaled_tensors ts m s) as (v & Hv & _); [rewrite Wm; reflexivity|rewrite Ws; reflexivity|].
    eexists. apply scale_ok. split; [split; assumption|]. exists v. rewrite Hr. split; [exact Hv|reflexivity].
  - intros V. unfold scale_polarizabilities. destruct (verify_ndarray_shape (na_shape m) [Some 3; Some 3]) as [[]|e] eqn:E1.
    + destruct (verify_ndarray_shape (na_shape s) [Some 3; Some 3]) as [[]|e] eqn:E2.
      * exfalso. apply V. apply shape33 in E1, E2. split; assumption.
      * cbn [rbind]. f_equal. revert E2. unfold verify_ndarray_shape. repeat match goal with |- context [if ?c then _ else _] => destruct c end; congruence.
    + cbn [rbind]. f_equal. revert E1. unfold verify_ndarray_shape. repeat match goal with |- context [if ?c then _ else _] => destruct c end; congruence.
Qed.

(** ** C78 *)
Lemma flat3_length vs : List.length (flat3 vs) = List.length vs * 3.
Proof. unfold flat3. induction vs as [|v vs IH]; [reflexivity|]. cbn [flat_map app List.length]. rewrite IH. lia. Qed.
Lemma row_concat k (rows : list (list num)) n r : Forall (fun r => List.length r = k) rows -> nth_error rows n = Some r -> row k n (concat rows) = r.
Proof.
  revert n. induction rows as [|r0 rows IH]; intros n F H; [destruct n; discriminate|]. inversion F as [|? ? Hr0 F']; subst. unfold row. cbn [concat]. destruct n.
  - injection H as ->. cbn [Nat.mul skipn]. rewrite firstn_app, Nat.sub_diag, firstn_all. cbn. apply app_nil_r.
  - cbn [Nat.mul]. rewrite skipn_app. replace (List.length r0 + n * List.length r0 - List.length r0) with (n * List.length r0) by lia.
    rewrite skipn_all2 by lia. cbn [app]. apply IH; assumption.
Qed.
Lemma row_map {A} (f : num -> A) k n l : map f (row k n l) = firstn k (skipn (n * k) (map f l)).
Proof. unfold row. rewrite <- firstn_map, <- skipn_map. reflexivity. Qed.
Definition well_shaped (d : dataset) (numbers : list Z) (n : nat) : Prop :=
  na_shape (ds_positions d) = [n; List.length numbers; 3] /\ na_shape (ds_scaled d) = [n; 6] /\ List.length (na_data (ds_scaled d)) = n * 6.
Lemma flatten_shape {A} cast (f : A -> list num) l : (forall a, List.length (f a) = 9) ->
  na_shape (flatten cast (samples f l)) = [List.length l; 6] /\ List.length (na_data (flatten cast (samples f l))) = List.length l * 6.
Proof.
  intros H. unfold flatten, samples. cbn [na_shape na_data hd]. rewrite split_rows_flat by exact H. split; [reflexivity|].
  clear H. induction l as [|u us IH]; [reflexivity|]. cbn in IH |- *. rewrite IH. reflexivity.
Qed.
Lemma scaled_shape cast ts : na_shape (flatten cast (standard ts)) = [List.length ts; 6] /\ List.length (na_data (flatten cast (standard ts))) = List.length ts * 6.
Proof.
  assert (E : standard ts = samples (fun x => zip_with num_quot (zip_with num_sub (rowof x) (means (tensors ts))) (stds (tensors ts))) ts).
  { unfold standard. rewrite tensors_samples at 1. rewrite each_samples by apply rowof_length. rewrite each_samples by (intros t; rewrite zip_length; reflexivity). reflexivity. }
  rewrite E. apply flatten_shape. intros t. rewrite !zip_length; reflexivity.
Qed.
Lemma f_C78_item cast lattice numbers fs ts d h d' : dataset_new cast lattice numbers (frames (List.length numbers) fs) (tensors ts) = Ok d ->
  Forall (fun vs => List.length vs = List.length numbers) fs ->
  scalings d h d' -> Forall (fun c => narr_wf (fst c) /\ narr_wf (snd c)) h ->
  forall n i vs, nth_error fs n = Some vs -> i = Z.of_nat n \/ i = (Z.of_nat n - Z.of_nat (List.length fs))%Z ->
  exists target, getitem d' i = Ok (cast_all cast lattice, numbers, cast_all cast (frame vs), mkNarr [6] target) /\
    List.length target = 6 /\ forall k x, k < 6 -> nth_error target k = Some x <-> entry (ds_scaled d') [n; k] x.
Proof.
  intros H Hf Hh Hw n i vs Hn Hi. assert (Hlen : List.length ts = List.length fs).
  { unfold dataset_new in H. do 4 (apply bind_ok in H; let E := fresh "E" in destruct H as ([] & E & H)). unfold verify_ndarray_shape in E2. cbn in E2.
    destruct (Nat.eqb_spec (List.length ts) (List.length fs)); [assumption|discriminate]. }
  pose proof (new_ok _ _ _ _ _ _ H) as E. pose proof (history_raw _ _ _ Hh) as (R1 & R2 & R3 & R4). subst d. cbn [ds_raw ds_lattice ds_numbers ds_positions] in R1, R2, R3, R4.
  assert (W : na_shape (ds_scaled d') = [List.length fs; 6] /\ List.length (na_data (ds_scaled d')) = List.length fs * 6).
  { clear Hn Hi i vs n. assert (G : forall d h d', scalings d h d' -> Forall (fun c => narr_wf (fst c) /\ narr_wf (snd c)) h -> ds_raw d = tensors ts ->
      na_shape (ds_scaled d) = [List.length fs; 6] /\ List.length (na_data (ds_scaled d)) = List.length fs * 6 ->
      na_shape (ds_scaled d') = [List.length fs; 6] /\ List.length (na_data (ds_scaled d')) = List.length fs * 6).
    { intros d h0 d0 S. induction S as [d|d m s h0 d1 d2 Hs _ IH|d m s h0 e d2 Hs _ IH]; intros F Hr I.
      - exact I.
      - inversion F as [|? ? [Wm Ws] F']; subst. cbn [fst snd] in Wm, Ws. apply scale_ok in Hs. destruct Hs as ([Vm Vs] & v & Hv & ->). cbn [fst snd] in Vm, Vs.
        unfold narr_wf in Wm, Ws. rewrite Vm in Wm. rewrite Vs in Ws.
        destruct (rescaled_tensors ts m s) as (v' & Hv' & Sv & Wv & _); [rewrite Wm; reflexivity|rewrite Ws; reflexivity|].
        rewrite Hr in Hv. rewrite Hv' in Hv. injection Hv as <-. apply IH; [exact F'|exact Hr|]. cbn [ds_scaled]. rewrite Sv, Hlen. split; [reflexivity|].
        unfold narr_wf in Wv. rewrite Sv in Wv. rewrite Wv. unfold prod_list. cbn. lia.
      - inversion F; subst. apply IH; assumption. }
    apply (G _ _ _ Hh Hw eq_refl). cbn [ds_scaled]. fold (standard ts). unfold cast_all. cbn [na_shape na_data]. rewrite map_length.
    destruct (scaled_shape cast ts) as [S1 S2]. rewrite S1, S2, Hlen. auto. }
  destruct W as [W1 W2]. assert (Hlt : n < List.length fs) by (apply nth_error_Some; congruence).
  destruct (rows_exist 6 (List.length fs) _ W2) as (rows & L1 & L2 & L3).
  destruct (nth_error rows n) as [r|] eqn:Er; [|apply nth_error_None in Er; lia].
  exists r. split; [|split].
  - unfold getitem, num_samples, num_atoms. rewrite R4. cbn [cast_all na_shape na_data frames nth].
    replace (if (i <? 0)%Z then (i + Z.of_nat (List.length fs))%Z else i) with (Z.of_nat n) by (destruct (Z.ltb_spec i 0); lia).
    destruct (Z.ltb_spec (Z.of_nat n) 0); [lia|]. destruct (Z.leb_spec (Z.of_nat (List.length fs)) (Z.of_nat n)); [lia|]. cbn [orb].
    rewrite R2, R3, Nat2Z.id, L3, (row_concat _ _ _ _ L2 Er). f_equal. f_equal. f_equal. unfold cast_all, frame. cbn [na_shape na_data].
    assert (Hv : List.length vs = List.length numbers) by (rewrite Forall_forall in Hf; apply Hf; eapply nth_error_In; exact Hn).
    rewrite Hv. f_equal. unfold row. rewrite skipn_map, firstn_map. f_equal. rewrite flat_map_concat_map.
    apply row_concat; [|rewrite nth_error_map, Hn; reflexivity]. apply Forall_forall. intros x Hx. apply in_map_iff in Hx. destruct Hx as (w & <- & Hw').
    rewrite flat3_length. rewrite Forall_forall in Hf. rewrite (Hf w Hw'). reflexivity.
  - rewrite Forall_forall in L2. apply L2. eapply nth_error_In; exact Er.
  - intros k x Hk. destruct (ds_scaled d') as [sh da]. cbn [na_shape na_data] in *. subst sh da. rewrite (entry2 _ _ _ _ _ _ L1 L2). split.
    + intros Hx. eauto.
    + intros (r' & Hr' & Hx). congruence.
Qed.
Lemma f_C78_range d i : (exists e, getitem d i = Err e) <-> (i < - Z.of_nat (num_samples d) \/ Z.of_nat (num_samples d) <= i)%Z.
Proof.
  unfold getitem. destruct (Z.ltb_spec i 0).
  - destruct (Z.ltb_spec (i + Z.of_nat (num_samples d)) 0); cbn [orb]; [split; [intros _; lia|eauto]|].
    destruct (Z.leb_spec (Z.of_nat (num_samples d)) (i + Z.of_nat (num_samples d))); [lia|]. split; [intros [e He]; discriminate|lia].
  - destruct (Z.ltb_spec i 0); [lia|]. cbn [orb]. destruct (Z.leb_spec (Z.of_nat (num_samples d)) i); [split; [intros _; lia|eauto]|]. split; [intros [e He]; discriminate|lia].
Qed.
Lemma f_C78_error d i e : getitem d i = Err e -> e = IndexError.
Proof. unfold getitem. repeat match goal with |- context [if ?c then _ else _] => destruct c end; congruence. Qed.
Lemma f_C78_length cast lattice numbers fs ts d h d' : dataset_new cast lattice numbers (frames (List.length numbers) fs) (tensors ts) = Ok d ->
  scalings d h d' -> num_samples d' = List.length fs /\ num_atoms d' = List.length numbers /\ List.length ts = List.length fs.
Proof.
  intros H Hh. pose proof (history_raw _ _ _ Hh) as (_ & _ & _ & R4). pose proof (new_ok _ _ _ _ _ _ H) as ->. unfold num_samples, num_atoms. rewrite R4. cbn.
  split; [reflexivity|]. split; [reflexivity|]. unfold dataset_new in H. do 4 (apply bind_ok in H; let E := fresh "E" in destruct H as ([] & E & H)).
  unfold verify_ndarray_shape in E2. cbn in E2. destruct (Nat.eqb_spec (List.length ts) (List.length fs)); [assumption|discriminate].
Qed.
(** Construction succeeds exactly when the shapes agree *)
Lemma f_C78_new cast lattice numbers positions pol :
  (exists d, dataset_new cast lattice numbers positions pol = Ok d) <->
  na_shape lattice = [3; 3] /\ exists n, na_shape positions = [n; List.length numbers; 3] /\ na_shape pol = [n; 3; 3].
Proof.
  unfold dataset_new. split.
  - intros (d & H). do 4 (apply bind_ok in H; let E := fresh "E" in destruct H as ([] & E & H)). apply shape33 in E. split; [exact E|].
    exists (hd 0 (na_shape positions)). revert E1 E2. unfold verify_ndarray_shape. clear.
    destruct (na_shape positions) as [|a [|b [|c [|]]]]; cbn; try discriminate. destruct (Nat.eqb_spec b (List.length numbers)); [|discriminate].
    destruct (Nat.eqb_spec c 3); [|discriminate]. intros _. destruct (na_shape pol) as [|x [|y [|z [|]]]]; cbn; try discriminate.
    destruct (Nat.eqb_spec x a); [|discriminate]. destruct (Nat.eqb_spec y 3); [|discriminate]. destruct (Nat.eqb_spec z 3); [|discriminate]. subst. auto.
  - intros (H1 & n & H2 & H3). rewrite H1, H2, H3. cbn -[Nat.eqb scale_and_flatten]. unfold verify_ndarray_shape. cbn [List.length Nat.eqb negb dims_match hd]. rewrite !Nat.eqb_refl. cbn. eauto.
Qed.

(** ** C64 *)
Lemma Rleb_iff a b : Rleb a b = true <-> (a <= b)%R.
Proof. unfold Rleb. destruct (Rle_dec a b); split; congruence || (intros; assumption) || (intros; contradiction) || reflexivity. Qed.
Lemma allclose_tensor a b : exists c, np_allclose (tensor a) (tensor b) = Ok c /\ (c = true <-> lattice_close a b).
Proof.
  eexists. split; [unfold np_allclose; cbn -[num_close entry_at]; reflexivity|].
  unfold entry_at, tensor. cbn -[num_close pow Rdiv]. unfold num_close. rewrite !andb_true_iff, !Rleb_iff. unfold lattice_close. split.
  - intros H i j Hi Hj. destruct i as [|[|[|i]]]; [| | |lia]; (destruct j as [|[|[|j]]]; [| | |lia]); cbn [ment vent]; tauto.
  - intros H. pose proof (fun i j => H i j) as G.
    pose proof (H 0 0 ltac:(lia) ltac:(lia)). pose proof (H 0 1 ltac:(lia) ltac:(lia)). pose proof (H 0 2 ltac:(lia) ltac:(lia)).
    pose proof (H 1 0 ltac:(lia) ltac:(lia)). pose proof (H 1 1 ltac:(lia) ltac:(lia)). pose proof (H 1 2 ltac:(lia) ltac:(lia)).
    pose proof (H 2 0 ltac:(lia) ltac:(lia)). pose proof (H 2 1 ltac:(lia) ltac:(lia)). pose proof (H 2 2 ltac:(lia) ltac:(lia)).
    cbn [ment vent] in *. tauto.
Qed.
Fixpoint chain (l : M3) (z : list Z) (rs : list reading) : Prop :=
  match rs with
  | [] => True
  | r :: rs' => lattice_close l (rd_lattice r) /\ z = rd_numbers r /\ chain (rd_lattice r) z rs'
  end.
Lemma chain_iff r rs : chain (rd_lattice r) (rd_numbers r) rs <-> consecutive_close (r :: rs) /\ same_atoms (r :: rs).
Proof.
  split.
  - intros H. assert (G : forall l z, chain l z rs -> (forall i a b, nth_error rs i = Some a -> nth_error rs (S i) = Some b -> lattice_close (rd_lattice a) (rd_lattice b)) /\ Forall (fun a => rd_numbers a = z) rs).
    { clear H. induction rs as [|b rs IH]; intros l z H; [split; [intros [|i] ? ? E; discriminate|constructor]|]. cbn in H. destruct H as (H1 & H2 & H3).
      destruct (IH _ _ H3) as [I1 I2]. split; [|constructor; [congruence|exact I2]]. intros [|i] x y Hx Hy; [|exact (I1 i x y Hx Hy)]. injection Hx as <-.
      cbn in Hy. destruct rs as [|c rs]; [discriminate|]. injection Hy as <-. cbn in H3. tauto. }
    destruct (G _ _ H) as [G1 G2]. split.
    + intros [|i] x y Hx Hy; [|exact (G1 i x y Hx Hy)]. injection Hx as <-. destruct rs as [|c rs]; [discriminate|]. injection Hy as <-. cbn in H. tauto.
    + assert (A : forall x, In x (r :: rs) -> rd_numbers x = rd_numbers r) by (intros x [<-|Hx]; [reflexivity|]; rewrite Forall_forall in G2; auto).
      intros x y Hx Hy. rewrite (A x Hx), (A y Hy). reflexivity.
  - intros [C S]. assert (A : Forall (fun a => rd_numbers r = rd_numbers a) rs) by (apply Forall_forall; intros a Ha; apply S; [left; reflexivity|right; exact Ha]).
    clear S. revert A. generalize (rd_numbers r) as z. intros z A. revert r C. induction rs as [|b rs IH]; intros r C; [exact I|]. inversion A; subst. cbn. split; [|split].
    + apply (C 0 r b); reflexivity.
    + reflexivity.
    + apply IH; [assumption|]. intros i x y Hx Hy. apply (C (Datatypes.S i) x y Hx Hy).
Qed.
Section Reading.
Context {Path : Type} (read_fn : Path -> res (narr * list Z * narr * narr)).
Lemma znumbers_iff a b : znumbers_eqb a b = true <-> a = b.
Proof. unfold znumbers_eqb. destruct (list_eq_dec Z.eq_dec a b); split; congruence. Qed.
Lemma shape_refl a : shape_eqb a a = true.
Proof. unfold shape_eqb. destruct (list_eq_dec Nat.eq_dec a a); congruence. Qed.
Lemma loop_step idx l z v0 ps pol p rest r : reads read_fn p r -> List.length v0 = List.length z -> well_formed r ->
  let go := dataset_loop read_fn (S idx) (tensor l) z (frame v0 :: ps) pol (p :: rest) in
  (lattice_close l (rd_lattice r) /\ z = rd_numbers r ->
     go = dataset_loop read_fn (S (S idx)) (tensor (rd_lattice r)) z (frame v0 :: (ps ++ [frame (rd_positions r)])) (pol ++ [tensor (rd_polarizability r)]) rest) /\
  (~ (lattice_close l (rd_lattice r) /\ z = rd_numbers r) -> go = Err IncompatibleStructureException).
Proof.
  intros Hr Hv Hw go. unfold go. cbn [dataset_loop]. unfold reads in Hr. rewrite Hr. cbn [rbind Nat.eqb].
  destruct (allclose_tensor l (rd_lattice r)) as (c & Hc & Hi). rewrite Hc. cbn [rbind].
  destruct c; cbn [negb].
  - assert (Hl : lattice_close l (rd_lattice r)) by (apply Hi; reflexivity). destruct (znumbers_eqb z (rd_numbers r)) eqn:E; cbn [negb].
    + apply znumbers_iff in E. split; [|tauto]. intros _. destruct Hw as [Hw _]. cbn [frame na_shape]. rewrite Hv, Hw, E, shape_refl. cbn [negb rbind app]. reflexivity.
    + split; [|reflexivity]. intros [_ E']. apply znumbers_iff in E'. congruence.
  - split; [|reflexivity]. intros [Hl _]. apply Hi in Hl. discriminate.
Qed.
Definition lastlat (l : M3) (rs : list reading) : M3 := last (map rd_lattice rs) l.
Lemma last_cons {A} (a b : A) l : last (a :: l) b = last l a.
Proof. revert a b. induction l as [|c l IH]; intros a b; [reflexivity|]. change (last (c :: l) b = last (c :: l) a). rewrite (IH c b), (IH c a). reflexivity. Qed.
Lemma loop_run : forall paths rs tail, Forall2 (reads read_fn) paths rs -> Forall well_formed rs -> forall idx l z v0 ps pol, List.length v0 = List.length z ->
  let go := dataset_loop read_fn (S idx) (tensor l) z (frame v0 :: ps) pol (paths ++ tail) in
  (chain l z rs -> go = dataset_loop read_fn (S idx + List.length rs) (tensor (lastlat l rs)) z (frame v0 :: (ps ++ map (fun r => frame (rd_positions r)) rs))
     (pol ++ map (fun r => tensor (rd_polarizability r)) rs) tail) /\
  (~ chain l z rs -> go = Err IncompatibleStructureException).
Proof.
  intros paths rs tail H. induction H as [|p r paths rs Hp _ IH]; intros Hw idx l z v0 ps pol Hv go; unfold go.
  - split; [|cbn; tauto]. intros _. cbn [app List.length map]. rewrite !app_nil_r, Nat.add_0_r. reflexivity.
  - inversion Hw as [|? ? Hr Hw']; subst. cbn [app chain]. destruct (loop_step idx l z v0 ps pol p (paths ++ tail) r Hp Hv Hr) as [S1 S2].
    destruct (IH Hw' (S idx) (rd_lattice r) z v0 (ps ++ [frame (rd_positions r)]) (pol ++ [tensor (rd_polarizability r)]) Hv) as [I1 I2]. split.
    + intros (H1 & H2 & H3). rewrite S1 by auto. rewrite I1 by exact H3. unfold lastlat. cbn [List.length map]. rewrite last_cons, <- !app_assoc. cbn [app].
      replace (S (S idx) + List.length rs) with (S idx + S (List.length rs)) by lia. reflexivity.
    + intros N. destruct (allclose_tensor l (rd_lattice r)) as (c & _ & Hc). destruct (znumbers_eqb z (rd_numbers r)) eqn:E.
      * apply znumbers_iff in E. destruct c.
        -- assert (lattice_close l (rd_lattice r)) by (apply Hc; reflexivity). rewrite S1 by auto. apply I2. tauto.
        -- apply S2. intros [X _]. apply Hc in X. discriminate.
      * apply S2. intros [_ X]. apply znumbers_iff in X. congruence.
Qed.
Lemma first_step l0 z0 p r rest : reads read_fn p r ->
  dataset_loop read_fn 0 l0 z0 [] [] (p :: rest) = dataset_loop read_fn 1 (tensor (rd_lattice r)) (rd_numbers r) [frame (rd_positions r)] [tensor (rd_polarizability r)] rest.
Proof. intros Hr. cbn [dataset_loop]. unfold reads in Hr. rewrite Hr. reflexivity. Qed.
Lemma stack_same (l : list narr) sh : l <> [] -> Forall (fun a => na_shape a = sh) l -> np_stack l = Ok (mkNarr (List.length l :: sh) (concat (map na_data l))).
Proof.
  intros Hne F. destruct l as [|b l]; [congruence|]. inversion F as [|? ? Hb F']; subst. unfold np_stack.
  replace (forallb _ l) with true; [reflexivity|]. symmetry. apply forallb_forall. intros x Hx. rewrite Forall_forall in F'.
  destruct (list_eq_dec Nat.eq_dec (na_shape x) (na_shape b)) as [|N]; [reflexivity|]. exfalso. apply N, F', Hx.
Qed.
Lemma stack_tensors ts : ts <> [] -> np_stack (map tensor ts) = Ok (tensors ts).
Proof.
  intros H. rewrite (stack_same _ [3; 3]).
  - rewrite map_length, map_map. unfold tensors. rewrite flat_map_concat_map. reflexivity.
  - destruct ts; [congruence|discriminate].
  - apply Forall_forall. intros a Ha. apply in_map_iff in Ha. destruct Ha as (t & <- & _). reflexivity.
Qed.
Lemma stack_frames n fs : fs <> [] -> Forall (fun f => List.length f = n) fs -> np_stack (map frame fs) = Ok (frames n fs).
Proof.
  intros H F. rewrite (stack_same _ [n; 3]).
  - rewrite map_length, map_map. unfold frames. rewrite flat_map_concat_map. reflexivity.
  - destruct fs; [congruence|discriminate].
  - apply Forall_forall. intros a Ha. apply in_map_iff in Ha. destruct Ha as (t & <- & Ht). cbn [frame na_shape]. rewrite Forall_forall in F. rewrite (F t Ht). reflexivity.
Qed.
Lemma positions_length rs z : Forall well_formed rs -> Forall (fun r => rd_numbers r = z) rs -> Forall (fun f => List.length f = List.length z) (map rd_positions rs).
Proof.
  intros W Z. apply Forall_forall. intros f Hf. apply in_map_iff in Hf. destruct Hf as (r & <- & Hr). rewrite Forall_forall in W, Z. rewrite <- (Z r Hr). apply W, Hr.
Qed.
Lemma f_C64_reads cast paths r rs : Forall2 (reads read_fn) paths (r :: rs) -> Forall well_formed (r :: rs) ->
  (consecutive_close (r :: rs) /\ same_atoms (r :: rs) ->
     exists d, read_dataset read_fn true cast paths = Ok d /\
       ds_lattice d = cast_all cast (tensor (rd_lattice (last rs r))) /\ ds_numbers d = rd_numbers r /\
       ds_positions d = cast_all cast (frames (List.length (rd_numbers r)) (map rd_positions (r :: rs))) /\
       ds_raw d = tensors (map rd_polarizability (r :: rs))) /\
  (~ (consecutive_close (r :: rs) /\ same_atoms (r :: rs)) -> read_dataset read_fn true cast paths = Err IncompatibleStructureException).
Proof.
  intros H W. inversion H as [|p ? paths' ? Hp H']; subst. inversion W as [|? ? Wr W']; subst.
  unfold read_dataset. cbn [negb]. rewrite (first_step _ _ _ _ _ Hp).
  destruct (loop_run paths' rs [] H' W' 0 (rd_lattice r) (rd_numbers r) (rd_positions r) [] [tensor (rd_polarizability r)] (proj1 Wr)) as [L1 L2].
  rewrite app_nil_r in L1, L2. rewrite <- chain_iff. split.
  - intros C. rewrite (L1 C). cbn [dataset_loop rbind app].
    replace (frame (rd_positions r) :: map (fun r => frame (rd_positions r)) rs) with (map frame (map rd_positions (r :: rs))) by (cbn [map]; rewrite map_map; reflexivity).
    replace (tensor (rd_polarizability r) :: map (fun r => tensor (rd_polarizability r)) rs) with (map tensor (map rd_polarizability (r :: rs))) by (cbn [map]; rewrite map_map; reflexivity).
    rewrite (stack_frames (List.length (rd_numbers r))); [|discriminate|].
    + cbn [rbind]. rewrite stack_tensors by discriminate. cbn [rbind].
      destruct (proj2 (f_C78_new cast (tensor (lastlat (rd_lattice r) rs)) (rd_numbers r) (frames (List.length (rd_numbers r)) (map rd_positions (r :: rs))) (tensors (map rd_polarizability (r :: rs))))) as [d Hd].
      { split; [reflexivity|]. exists (List.length (r :: rs)). unfold frames, tensors. cbn [na_shape]. rewrite !map_length. auto. }
      exists d. split; [exact Hd|]. apply new_ok in Hd. subst d. cbn [ds_lattice ds_numbers ds_positions ds_raw]. split; [|auto].
      f_equal. f_equal. unfold lastlat. clear. revert r. induction rs as [|b rs IH]; intros r; [reflexivity|]. cbn [map]. rewrite !last_cons. apply IH.
    + apply positions_length; [exact W|]. apply chain_iff in C. destruct C as [_ S]. apply Forall_forall. intros a Ha. apply S; [exact Ha|left; reflexivity].
  - intros C. rewrite (L2 C). reflexivity.
Qed.
Lemma f_C64_read_error cast before p after rs e : Forall2 (reads read_fn) before rs -> Forall well_formed rs -> consecutive_close rs -> same_atoms rs ->
  read_fn p = Err e -> read_dataset read_fn true cast (before ++ p :: after) = Err e.
Proof.
  intros H W C S He. unfold read_dataset. cbn [negb]. destruct before as [|p0 before]; inversion H as [|? r ? rs' Hp H']; subst.
  - cbn [app dataset_loop]. rewrite He. reflexivity.
  - inversion W as [|? ? Wr W']; subst. cbn [app]. rewrite (first_step _ _ _ _ _ Hp).
    destruct (loop_run before rs' (p :: after) H' W' 0 (rd_lattice r) (rd_numbers r) (rd_positions r) [] [tensor (rd_polarizability r)] (proj1 Wr)) as [L1 _].
    rewrite L1 by (apply chain_iff; auto). cbn [dataset_loop]. rewrite He. reflexivity.
Qed.
Lemma f_C64_no_torch cast paths : read_dataset read_fn false cast paths = Err UserError.
Proof. reflexivity. Qed.
Lemma f_C64_empty cast : read_dataset read_fn true cast [] = Err ValueError.
Proof. reflexivity. Qed.
(** Without assumptions on the shapes read *)
Lemma loop_general : forall paths idx l z pos pol out, dataset_loop read_fn (S idx) l z pos pol paths = Ok out ->
  exists outs, Forall2 (fun p o => read_fn p = Ok o) paths outs /\
    Forall (fun o => snd (fst (fst o)) = z /\ na_shape (snd (fst o)) = na_shape (hd (mkNarr [] []) pos)) outs /\
    snd (fst (fst out)) = z.
Proof.
  induction paths as [|p paths IH]; intros idx l z pos pol out H; cbn [dataset_loop] in H.
  - injection H as <-. exists []. auto.
  - apply bind_ok in H. destruct H as ([[[l1 z1] x1] a1] & Hp & H). cbn [Nat.eqb] in H. apply bind_ok in H. destruct H as ([] & Hc & H).
    apply bind_ok in Hc. destruct Hc as (c & _ & Hc). destruct c; [|discriminate]. cbn [negb] in Hc. destruct (znumbers_eqb z z1) eqn:Ez; [|discriminate]. apply znumbers_iff in Ez. subst z1.
    cbn [negb] in Hc. destruct pos as [|x0 pos]; [discriminate|]. destruct (shape_eqb (na_shape x0) (na_shape x1)) eqn:Es; [|discriminate].
    apply IH in H. destruct H as (outs & H1 & H2 & H3). exists ((l1, z, x1, a1) :: outs). split; [constructor; assumption|]. split; [|exact H3]. constructor; [|exact H2].
    cbn. split; [reflexivity|]. unfold shape_eqb in Es. destruct (list_eq_dec Nat.eq_dec (na_shape x0) (na_shape x1)); [congruence|discriminate].
Qed.
Lemma f_C64_sound torch cast paths d : read_dataset read_fn torch cast paths = Ok d ->
  torch = true /\ exists outs, Forall2 (fun p o => read_fn p = Ok o) paths outs /\
    Forall (fun o => snd (fst (fst o)) = ds_numbers d) outs /\
    forall o o', In o outs -> In o' outs -> na_shape (snd (fst o)) = na_shape (snd (fst o')).
Proof.
  unfold read_dataset. destruct torch; [|discriminate]. cbn [negb]. intros H. split; [reflexivity|]. destruct paths as [|p paths]; [discriminate|].
  apply bind_ok in H. destruct H as ([[[l z] pos] pol] & Hl & H). apply bind_ok in H. destruct H as (ps & _ & H). apply bind_ok in H. destruct H as (pls & _ & H). apply new_ok in H. subst d.
  cbn [ds_numbers]. cbn [dataset_loop] in Hl. apply bind_ok in Hl. destruct Hl as ([[[l1 z1] x1] a1] & Hp & Hl). cbn [Nat.eqb rbind] in Hl.
  apply loop_general in Hl. destruct Hl as (outs & H1 & H2 & H3). cbn in H3. subst z1. exists ((l1, z, x1, a1) :: outs). split; [constructor; assumption|].
  cbn [app hd] in H2. rewrite Forall_forall in H2. split.
  - constructor; [reflexivity|]. apply Forall_forall. intros o Ho. apply H2, Ho.
  - assert (A : forall o, In o ((l1, z, x1, a1) :: outs) -> na_shape (snd (fst o)) = na_shape x1) by (intros o [<-|Ho]; [reflexivity|apply H2, Ho]).
    intros o o' Ho Ho'. rewrite (A o Ho), (A o' Ho'). reflexivity.
Qed.
End Reading.

(** Drift: accepted lists whose first and last lattices are arbitrarily far apart *)
Definition drifted (k : nat) : reading :=
  mkReading (mkM (mkV (1 + INR k / 10 ^ 5) 0 0) (mkV 0 1 0) (mkV 0 0 1))%R [1%Z] [mkV 0 0 0] mI.
Lemma close_refl x : (Rabs (x - x) <= 1 / 10 ^ 5 + 1 / 10 ^ 5 * Rabs x)%R.
Proof.
  rewrite Rminus_diag_eq by reflexivity. rewrite Rabs_R0 at 1. pose proof (Rabs_pos x).
  assert (0 < 1 / 10 ^ 5)%R by (unfold Rdiv; rewrite Rmult_1_l; apply Rinv_0_lt_compat; lra). nra.
Qed.
Lemma drifted_close k : lattice_close (rd_lattice (drifted k)) (rd_lattice (drifted (S k))).
Proof.
  intros i j Hi Hj. destruct i as [|[|[|i]]]; [| | |lia]; (destruct j as [|[|[|j]]]; [| | |lia]); cbn [drifted rd_lattice ment vent r0 r1 r2 vx vy vz];
    try apply close_refl.
  rewrite S_INR. replace (1 + INR k / 10 ^ 5 - (1 + (INR k + 1) / 10 ^ 5))%R with (- (1 / 10 ^ 5))%R by (field; lra).
  rewrite Rabs_Ropp, Rabs_pos_eq by (unfold Rdiv; rewrite Rmult_1_l; left; apply Rinv_0_lt_compat; lra).
  pose proof (Rabs_pos (1 + (INR k + 1) / 10 ^ 5)). assert (0 < 1 / 10 ^ 5)%R by (unfold Rdiv; rewrite Rmult_1_l; apply Rinv_0_lt_compat; lra). nra.
Qed.
Lemma above (x : R) : exists n, (x < INR n)%R.
Proof.
  exists (Z.to_nat (Rdefinitions.up (Rabs x))). destruct (archimed (Rabs x)) as [H _]. pose proof (Rabs_pos x). pose proof (Rle_abs x).
  rewrite INR_IZR_INZ, Z2Nat.id; [lra|]. apply le_IZR.  lra.
Qed.
Lemma f_C64_drift_refuted : forall cast distance, exists (files : list reading) d,
  Forall well_formed files /\ read_dataset read_back true cast files = Ok d /\
  exists first final, nth_error files 0 = Some first /\ nth_error files (List.length files - 1) = Some final /\
    (distance < Rabs (ment (rd_lattice final) 0 0 - ment (rd_lattice first) 0 0))%R.
Proof.
  intros cast D. destruct (above (Rabs D * 10 ^ 5)) as [n Hn]. set (rs := map drifted (seq 1 n)).
  assert (W : Forall well_formed (drifted 0 :: rs)).
  { change (drifted 0 :: rs) with (map drifted (seq 0 (S n))). apply Forall_forall. intros r Hr. apply in_map_iff in Hr. destruct Hr as (k & <- & _). split; [reflexivity|discriminate]. }
  assert (N : forall i r, nth_error (drifted 0 :: rs) i = Some r -> r = drifted i).
  { intros i r. change (drifted 0 :: rs) with (map drifted (seq 0 (S n))). rewrite nth_error_map. destruct (nth_error (seq 0 (S n)) i) as [k|] eqn:E; [|discriminate]. intros H. injection H as <-.
    f_equal. assert (i < S n) by (rewrite <- (seq_length (S n) 0); apply nth_error_Some; congruence). apply nth_error_nth with (d := 0) in E. rewrite seq_nth in E by assumption. lia. }
  assert (F : Forall2 (reads read_back) (drifted 0 :: rs) (drifted 0 :: rs)).
  { generalize (drifted 0 :: rs). intros l. induction l; constructor; [reflexivity|assumption]. }
  destruct (f_C64_reads read_back cast _ _ _ F W) as [H _]. destruct H as (d & Hd & _).
  { split.
    - intros i a b Ha Hb. rewrite (N _ _ Ha), (N _ _ Hb). apply drifted_close.
    - assert (A : forall r, In r (drifted 0 :: rs) -> rd_numbers r = [1%Z]) by (intros r Hr; apply In_nth_error in Hr; destruct Hr as [k Hk]; rewrite (N _ _ Hk); reflexivity).
      intros a b Ha Hb. rewrite (A a Ha), (A b Hb). reflexivity. }
  exists (drifted 0 :: rs), d. split; [exact W|]. split; [exact Hd|]. exists (drifted 0), (drifted n). split; [reflexivity|]. split.
  - replace (List.length (drifted 0 :: rs) - 1) with n by (cbn; unfold rs; rewrite map_length, seq_length; lia).
    destruct (nth_error (drifted 0 :: rs) n) as [r|] eqn:E; [rewrite (N _ _ E); reflexivity|]. apply nth_error_None in E. cbn in E. unfold rs in E. rewrite map_length, seq_length in E. lia.
  - cbn [drifted rd_lattice ment vent r0 vx]. cbn [INR]. replace (1 + INR n / 10 ^ 5 - (1 + 0 / 10 ^ 5))%R with (INR n / 10 ^ 5)%R by (field; lra).
    assert (P : (0 < 10 ^ 5)%R) by lra. assert (G : (Rabs D < INR n / 10 ^ 5)%R).
    { apply (Rmult_lt_reg_r (10 ^ 5) _ _ P). unfold Rdiv. rewrite Rmult_assoc, Rinv_l by lra. lra. }
    pose proof (Rle_abs D). pose proof (Rle_abs (INR n / 10 ^ 5)). lra.
Qed.

(** ** pymatgen *)
Lemma narr_m3_tensor m : narr_m3 m = tensor m. Proof. reflexivity. Qed.
Lemma pm_loop_spec l0 z l : Forall pm_formed l ->
  (Forall (fun s => lattice_close (pm_lattice s) l0 /\ pm_numbers s = z) l -> pm_loop l0 z l = Ok (map pm_positions l)) /\
  (~ Forall (fun s => lattice_close (pm_lattice s) l0 /\ pm_numbers s = z) l -> pm_loop l0 z l = Err IncompatibleStructureException).
Proof.
  unfold pm_loop. induction 1 as [|s l Hs Hl IH]; [split; [reflexivity|intros N; exfalso; apply N; constructor]|]. cbn [mapM].
  destruct (allclose_tensor (pm_lattice s) l0) as (c & Hc & Hi).
  change (np_allclose (narr_m3 (pm_lattice s)) (narr_m3 l0) = Ok c) in Hc. rewrite Hc. cbn [rbind]. destruct c; cbn [negb].
  - assert (C : lattice_close (pm_lattice s) l0) by (apply Hi; reflexivity). destruct (znumbers_eqb (pm_numbers s) z) eqn:E; cbn [negb].
    + apply znumbers_iff in E. assert (Er : pm_row (List.length z) (pm_positions s) = Ok (pm_positions s)) by (unfold pm_row; rewrite Hs, E, Nat.eqb_refl; reflexivity).
      rewrite Er. cbn [rbind]. destruct IH as [I1 I2]. split.
      * intros F. rewrite I1 by (exact (Forall_inv_tail F)). reflexivity.
      * intros N. rewrite I2; [reflexivity|]. intros F. apply N. constructor; auto.
    + split; [|reflexivity]. intros F. inversion F as [|? ? [_ X] _]; subst. assert (znumbers_eqb (pm_numbers s) (pm_numbers s) = true) by (apply znumbers_iff; reflexivity). congruence.
  - split; [|reflexivity]. intros F. inversion F as [|? ? [X _] _]; subst. apply Hi in X. discriminate.
Qed.
Lemma f_C64_pymatgen cast s l ts : Forall pm_formed (s :: l) -> List.length ts = List.length (s :: l) ->
  (Forall (fun s' => lattice_close (pm_lattice s') (pm_lattice s) /\ pm_numbers s' = pm_numbers s) (s :: l) ->
     exists d, construct_dataset cast (s :: l) (tensors ts) = Ok d /\
       ds_lattice d = cast_all cast (tensor (pm_lattice s)) /\ ds_numbers d = pm_numbers s /\
       ds_positions d = cast_all cast (frames (List.length (pm_numbers s)) (map pm_positions (s :: l))) /\ ds_raw d = tensors ts) /\
  (~ Forall (fun s' => lattice_close (pm_lattice s') (pm_lattice s) /\ pm_numbers s' = pm_numbers s) (s :: l) ->
     construct_dataset cast (s :: l) (tensors ts) = Err IncompatibleStructureException).
Proof.
  intros W Hn. unfold construct_dataset. assert (E0 : verify_list_len (List.length (s :: l)) None = Ok tt) by reflexivity. rewrite E0. cbn [rbind].
  assert (E1 : verify_ndarray_shape (na_shape (tensors ts)) [Some (List.length (s :: l)); Some 3; Some 3] = Ok tt).
  { unfold verify_ndarray_shape, tensors. cbn [na_shape]. rewrite Hn. cbn [List.length Nat.eqb negb dims_match]. rewrite Nat.eqb_refl. reflexivity. }
  rewrite E1. cbn [rbind]. destruct (pm_loop_spec (pm_lattice s) (pm_numbers s) (s :: l) W) as [P1 P2]. split.
  - intros F. rewrite (P1 F). cbn [rbind].
    replace (mkNarr [List.length (s :: l); List.length (pm_numbers s); 3] (flat_map (fun v => [Fin (vx v); Fin (vy v); Fin (vz v)]) (concat (map pm_positions (s :: l)))))
      with (frames (List.length (pm_numbers s)) (map pm_positions (s :: l))).
    + destruct (proj2 (f_C78_new cast (narr_m3 (pm_lattice s)) (pm_numbers s) (frames (List.length (pm_numbers s)) (map pm_positions (s :: l))) (tensors ts))) as [d Hd].
      { split; [reflexivity|]. exists (List.length (s :: l)). unfold frames, tensors. cbn [na_shape]. rewrite map_length, Hn. auto. }
      exists d. split; [exact Hd|]. apply new_ok in Hd. subst d. cbn [ds_lattice ds_numbers ds_positions ds_raw]. auto.
    + unfold frames. rewrite map_length. f_equal. generalize (map pm_positions (s :: l)). intros fs. induction fs as [|f fs IH]; [reflexivity|].
      cbn [flat_map concat]. rewrite flat_map_app, IH. reflexivity.
  - intros F. rewrite (P2 F). reflexivity.
Qed.
Lemma f_C64_pymatgen_empty cast pols : exists e, construct_dataset cast [] pols = Err e /\ (na_shape pols = [0; 3; 3] -> e = IndexError).
Proof.
  unfold construct_dataset. cbn [List.length verify_list_len rbind]. destruct (verify_ndarray_shape (na_shape pols) [Some 0; Some 3; Some 3]) as [[]|e] eqn:E.
  - exists IndexError. cbn. auto.
  - exists e. cbn. split; [reflexivity|]. intros H. rewrite H in E. discriminate.
Qed.

Lemma f_C65_accepts a : ((exists t, vectors_to_tensors a = Ok t) <-> exists s, na_shape a = [s; 6]) /\ ((exists v, tensors_to_vectors a = Ok v) <-> exists s, na_shape a = [s; 3; 3]).
Proof.
  unfold vectors_to_tensors, tensors_to_vectors. rewrite <- size2, <- size3. split.
  - destruct (size_err (na_shape a) [None; Some 6]) as [H | H]; rewrite H; cbn; split; [reflexivity|intros _; eauto|intros [t Ht]; discriminate|discriminate].
  - destruct (size_err (na_shape a) [None; Some 3; Some 3]) as [H | H]; rewrite H; cbn; split; [reflexivity|intros _; eauto|intros [t Ht]; discriminate|discriminate].
Qed.
