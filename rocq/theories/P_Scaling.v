(** Proofs about scaling arbitrary numbers and about labels. *)
From Coq Require Import String ZArith NArith Reals Bool Arith List Lia Lra.
From Verif Require Import Base LinAlg M_Validate M_Text M_Poscar M_Outcar M_Vasprun M_Dataset S_Dataset S_Text S_Scaling P_Text P_Poscar P_Poscar4 P_Outcar P_Dataset P_Dataset2.
Import ListNotations.
Local Open Scope nat_scope.

(** ** Scaling *)
Lemma Rltb_t a b : (a < b)%R -> Rltb a b = true. Proof. unfold Rltb. destruct (Rlt_dec a b); [reflexivity|contradiction]. Qed.
Lemma Rltb_f a b : ~ (a < b)%R -> Rltb a b = false. Proof. unfold Rltb. destruct (Rlt_dec a b); [contradiction|reflexivity]. Qed.
Lemma standardised_ok x a b : standardised x a b (num_quot (num_sub x a) b).
Proof.
  destruct x as [x|u|]; destruct a as [a|v|]; destruct b as [b|w|]; cbn; try reflexivity; try (destruct u, v; reflexivity).
  - split; intros Hb.
    + destruct (Req_EM_T b 0); [contradiction|reflexivity].
    + destruct (Req_EM_T b 0); [|contradiction]. split; [|split]; intros H.
      * destruct (Req_EM_T (x + - a) 0); [reflexivity|lra].
      * destruct (Req_EM_T (x + - a) 0); [lra|]. rewrite Rltb_f by lra. reflexivity.
      * destruct (Req_EM_T (x + - a) 0); [lra|]. rewrite Rltb_t by lra. reflexivity.
  - split; intros H; [rewrite Rltb_f by lra|rewrite Rltb_t by lra]; destruct v; reflexivity.
  - split; intros H; [rewrite Rltb_f by lra|rewrite Rltb_t by lra]; destruct u; reflexivity.
  - split; [intros ->; destruct v; reflexivity|]. intros Huv.
    destruct u, v; try congruence; cbn; (split; intros H; [rewrite Rltb_f by lra|rewrite Rltb_t by lra]); reflexivity.
Qed.
Lemma pol_rows pol n : narr_wf pol -> na_shape pol = [n; 3; 3] -> exists rows,
  List.length rows = n /\ Forall (fun r => List.length r = 9) rows /\ pol = mkNarr [List.length rows; 3; 3] (concat rows).
Proof.
  intros W S. unfold narr_wf in W. rewrite S in W. destruct (rows_exist 9 n (na_data pol)) as (rows & L & F & C); [rewrite W; cbn; lia|].
  exists rows. split; [exact L|]. split; [exact F|]. destruct pol. cbn in *. congruence.
Qed.
Lemma nth_error_ext_q {A} : forall l l' : list A, (forall k, nth_error l k = nth_error l' k) -> l = l'.
Proof.
  induction l as [|x l IH]; intros [|y m] H; [reflexivity|specialize (H 0); discriminate|specialize (H 0); discriminate|].
  f_equal; [specialize (H 0); cbn in H; congruence|]. apply IH. intros k. apply (H (S k)).
Qed.
Lemma each_rows op rows t : Forall (fun r => List.length r = 9) rows ->
  each op (mkNarr [List.length rows; 3; 3] (concat rows)) t = mkNarr [List.length rows; 3; 3] (concat (map (fun r => zip_with op r t) rows)).
Proof. intros F. unfold each. cbn [na_shape na_data hd]. rewrite split_rows_concat by exact F. rewrite flat_map_concat_map. reflexivity. Qed.
Lemma zip_rows (op : num -> num -> num) rows (t : list num) : List.length t = 9 -> Forall (fun r : list num => List.length r = 9) rows ->
  Forall (fun r => List.length r = 9) (map (fun r => zip_with op r t) rows).
Proof. intros T. induction 1 as [|r rows R _ IH]; cbn [map]; constructor; [rewrite zip_length; congruence|exact IH]. Qed.
Lemma entry33_nth m i j a : narr_wf m -> na_shape m = [3; 3] -> entry m [i; j] a -> i < 3 /\ j < 3 /\ nth (3 * i + j) (na_data m) NaN = a.
Proof.
  intros W S [H1 H2]. rewrite S in H1, H2. rewrite off2 in H2. apply f2_inv2 in H1. destruct H1. repeat split; auto. replace (3 * i + j) with (i * 3 + j) by lia. apply nth_error_nth. exact H2.
Qed.
Lemma comp_nth (g : list num) k i j : nth_error components k = Some (i, j) -> nth_error (down g) k = Some (nth (3 * i + j) g NaN).
Proof. intros H. do 6 (destruct k as [|k]; [injection H as <- <-; reflexivity|]). destruct k; discriminate. Qed.
Lemma f_C66_any_scaling d h1 h2 m s d' n :
  narr_wf (ds_raw d) -> na_shape (ds_raw d) = [n; 3; 3] -> narr_wf m -> narr_wf s ->
  na_shape m = [3; 3] -> na_shape s = [3; 3] ->
  scalings d (h1 ++ (m, s) :: h2) d' -> Forall (fun c => ~ valid_scaling c) h2 ->
  na_shape (ds_scaled d') = [n; 6] /\
  forall p k i j x a b, nth_error components k = Some (i, j) ->
    entry (ds_raw d) [p; i; j] x -> entry m [i; j] a -> entry s [i; j] b ->
    exists y, entry (ds_scaled d') [p; k] y /\ standardised x a b y.
Proof.
  intros W S Wm Ws Sm Ss H Hi. apply scalings_app in H. destruct H as (d1 & H1 & H2). apply history_raw in H1. destruct H1 as (R1 & _).
  destruct (pol_rows _ _ W S) as (rows & L & F & E). 
  assert (Lm : List.length (na_data m) = 9) by (unfold narr_wf in Wm; rewrite Sm in Wm; exact Wm).
  assert (Ls : List.length (na_data s) = 9) by (unfold narr_wf in Ws; rewrite Ss in Ws; exact Ws).
  set (rows' := map (fun r => zip_with num_quot r (na_data s)) (map (fun r => zip_with num_sub r (na_data m)) rows)).
  assert (F1 := zip_rows num_sub rows (na_data m) Lm F). assert (F2 := zip_rows num_quot _ (na_data s) Ls F1). fold rows' in F2.
  assert (LR : List.length rows' = List.length rows) by (unfold rows'; rewrite !map_length; reflexivity).
  assert (V : rescaled (ds_raw d) m s = Ok (mkNarr [List.length rows'; 6] (concat (map down rows')))).
  { unfold rescaled. rewrite E. rewrite each_rows by exact F. rewrite <- (map_length (fun r => zip_with num_sub r (na_data m)) rows) at 1. rewrite each_rows by exact F1.
    fold rows'. rewrite map_length, <- LR. apply to_vectors_ok; [apply rows_wf3; exact F2|]. exists rows'. auto. }
  assert (Hd : scale_polarizabilities d1 m s = Ok (mkDataset (ds_lattice d1) (ds_numbers d1) (ds_positions d1) (ds_raw d1) (mkNarr [List.length rows'; 6] (concat (map down rows'))))).
  { apply scale_ok. split; [split; assumption|]. eexists. split; [rewrite R1; exact V|reflexivity]. }
  inversion H2 as [|? ? ? ? dx ? Hs Hrest|? ? ? ? ? ? Hs Hrest]; subst; [|congruence].
  rewrite Hd in Hs. injection Hs as <-. rewrite (history_invalid _ _ _ Hrest Hi). cbn [ds_scaled na_shape]. split; [congruence|].
  intros p k i j x a b Hk Hx Ha Hb. destruct (entry33_nth _ _ _ _ Wm Sm Ha) as (I & J & <-). destruct (entry33_nth _ _ _ _ Ws Ss Hb) as (_ & _ & <-).
  rewrite E in Hx. apply entry3 in Hx; [|reflexivity|exact F]. destruct Hx as (_ & _ & r & Hr & Hx).
  assert (Lr : List.length r = 9) by (rewrite Forall_forall in F; apply F; eapply nth_error_In; exact Hr).
  eexists. split.
  - apply entry2; [apply map_length|apply map_rows_length, down_length|]. eexists. split.
    + unfold rows'. rewrite !nth_error_map, Hr. reflexivity.
    + apply comp_nth. exact Hk.
  - cbv beta. pose proof (index9 i j I J) as Q. rewrite (zip_nth _ NaN NaN NaN) by (rewrite ?zip_length; lia). rewrite (zip_nth _ NaN NaN NaN) by lia.
    rewrite (nth_error_nth _ _ _ Hx). apply standardised_ok.
Qed.

(** A dataset made of arbitrary numbers *)
Lemma new_shape cast lattice numbers positions pol d : dataset_new cast lattice numbers positions pol = Ok d -> exists n, na_shape pol = [n; 3; 3].
Proof.
  unfold dataset_new. intros H. do 3 (apply bind_ok in H; destruct H as ([] & _ & H)). apply bind_ok in H. destruct H as ([] & H & _).
  unfold verify_ndarray_shape in H. destruct (na_shape pol) as [|a [|b [|c [|e l]]]]; try discriminate. exists a. cbn in H.
  destruct (Nat.eqb_spec a (hd 0 (na_shape positions))); [|discriminate]. destruct (Nat.eqb_spec b 3); [|discriminate]. destruct (Nat.eqb_spec c 3); [|discriminate]. congruence.
Qed.
Lemma scaled_rows cast rows k i j : Forall (fun r => List.length r = 9) rows -> nth_error components k = Some (i, j) ->
  let pol := mkNarr [List.length rows; 3; 3] (concat rows) in
  let col := map (fun r => nth (3 * i + j) r NaN) rows in
  forall s y, entry (flatten cast (each num_quot (each num_sub pol (means pol)) (stds pol))) [s; k] y <->
    exists x, nth_error col s = Some x /\ y = cast (num_quot (num_sub x (col_mean col)) (col_std col)).
Proof.
  intros F Hk pol col s y. destruct (components_lt _ _ _ Hk) as (_ & I & J & _). pose proof (index9 i j I J) as Q.
  unfold pol at 1. rewrite each_rows by exact F. pose proof (zip_rows num_sub rows (means pol) eq_refl F) as F1.
  rewrite <- (map_length (fun r => zip_with num_sub r (means pol)) rows) at 1. rewrite each_rows by exact F1.
  pose proof (zip_rows num_quot _ (stds pol) eq_refl F1) as F2. rewrite map_length, map_map.
  rewrite map_map in F2. unfold flatten. cbn [na_shape na_data hd].
  replace (List.length rows) with (List.length (map (fun x => zip_with num_quot (zip_with num_sub x (means pol)) (stds pol)) rows)) by apply map_length.
  rewrite split_rows_concat by exact F2.
  change (fun r => map cast [nth 0 r NaN; nth 4 r NaN; nth 8 r NaN; nth 1 r NaN; nth 2 r NaN; nth 5 r NaN]) with (six cast).
  rewrite flat_map_concat_map, map_map. rewrite entry2; [|rewrite !map_length; reflexivity|apply map_rows_length; reflexivity].
  assert (M : nth (3 * i + j) (means pol) NaN = col_mean col /\ nth (3 * i + j) (stds pol) NaN = col_std col).
  { unfold means, stds. rewrite !nth_map_seq by exact Q. unfold column, pol. cbn [na_shape na_data hd]. rewrite split_rows_concat by exact F. auto. }
  assert (G : forall r, List.length r = 9 -> nth (3 * i + j) (zip_with num_quot (zip_with num_sub r (means pol)) (stds pol)) NaN =
     num_quot (num_sub (nth (3 * i + j) r NaN) (col_mean col)) (col_std col)).
  { intros r Lr. rewrite (zip_nth _ NaN NaN NaN); [|rewrite zip_length by exact Lr; lia|exact Q]. rewrite (zip_nth _ NaN NaN NaN) by (lia || exact Q).
    rewrite (proj1 M), (proj2 M). reflexivity. }
  split.
  - intros (r & Hr & Hy). rewrite nth_error_map in Hr. destruct (nth_error rows s) as [q|] eqn:Hq; [|discriminate]. injection Hr as <-.
    rewrite (six_nth _ _ _ _ _ Hk) in Hy. injection Hy as <-. exists (nth (3 * i + j) q NaN). unfold col. rewrite nth_error_map, Hq. split; [reflexivity|].
    rewrite G; [reflexivity|]. rewrite Forall_forall in F. apply F. eapply nth_error_In. exact Hq.
  - intros (x & Hx & ->). unfold col in Hx. rewrite nth_error_map in Hx. destruct (nth_error rows s) as [q|] eqn:Hq; [|discriminate]. injection Hx as <-.
    eexists. rewrite nth_error_map, Hq. split; [reflexivity|]. rewrite (six_nth _ _ _ _ _ Hk). rewrite G; [reflexivity|]. rewrite Forall_forall in F. apply F. eapply nth_error_In. exact Hq.
Qed.
Lemma sum_nan l : forall a, (a = NaN \/ In NaN l) -> fold_left num_add l a = NaN.
Proof.
  induction l as [|x l IH]; intros a H; cbn [fold_left]; [destruct H as [->|[]]; reflexivity|]. apply IH. destruct H as [->|[->|H]]; [left; reflexivity|left; destruct a; reflexivity|right; exact H].
Qed.
Definition nonfin (x : num) : Prop := match x with Fin _ => False | _ => True end.
Lemma sum_nonfin l : forall a, (nonfin a \/ exists x, In x l /\ nonfin x) -> nonfin (fold_left num_add l a).
Proof.
  induction l as [|x l IH]; intros a H; cbn [fold_left]; [destruct H as [H|(y & [] & _)]; exact H|]. apply IH.
  destruct H as [H|(y & [->|Hy] & N)]; [left; destruct a as [|u|], x as [|v|]; cbn in *; try contradiction; try exact I; destruct (Bool.eqb u v); exact I| |right; eauto].
  left. destruct a as [|u|], y as [|v|]; cbn in *; try contradiction; try exact I. destruct (Bool.eqb u v); exact I.
Qed.
Lemma col_std_nan l x : In x l -> nonfin x -> col_std l = NaN.
Proof.
  intros Hx Nx. unfold col_std. cbv zeta. set (m := col_mean l).
  assert (L : (INR (List.length l) <> 0)%R) by (apply not_0_INR; destruct l; [destruct Hx|discriminate]).
  assert (Nm : nonfin m).
  { unfold m, col_mean, num_sum. assert (N := sum_nonfin l (Fin 0) (or_intror (ex_intro _ x (conj Hx Nx)))).
    destruct (fold_left num_add l (Fin 0)); cbn in *; try contradiction; exact I. }
  assert (S : num_sum (map (fun x => num_mul (num_sub x m) (num_sub x m)) l) = NaN \/ num_sum (map (fun x => num_mul (num_sub x m) (num_sub x m)) l) = NaN).
  { left. destruct m as [|u|] eqn:M; [destruct Nm| |].
    - unfold m in *. assert (IN : exists y, In y l /\ num_mul (num_sub y (Inf u)) (num_sub y (Inf u)) = NaN).
      { destruct x as [|v|]; [destruct Nx| |exists NaN; split; [exact Hx|reflexivity]]. destruct (Bool.bool_dec v u) as [->|D].
        - exists (Inf u). split; [exact Hx|]. destruct u; reflexivity.
        - exfalso. unfold col_mean in M. cbn in M.
          assert (K : forall l a, (a = Inf v \/ a = NaN \/ (In (Inf v) l)) -> fold_left num_add l a = Inf v \/ fold_left num_add l a = NaN).
          { clear. induction l as [|y l IH]; intros a H; cbn [fold_left]; [destruct H as [H|[H|[]]]; auto|]. apply IH.
            destruct H as [->|[->|[->|H]]]; [| | |auto].
            - destruct y as [|w|]; cbn; auto. destruct (Bool.eqb v w); auto.
            - auto.
            - destruct a as [|w|]; cbn; auto. destruct (Bool.eqb w v) eqn:E; auto. apply Bool.eqb_prop in E. subst. auto. }
          destruct (K l (Fin 0) (or_intror (or_intror Hx))) as [E|E]; unfold num_sum in M; rewrite E in M; cbn in M; [|discriminate].
          injection M as M. rewrite Rltb_f in M by (pose proof (pos_INR (List.length l)); lra). destruct v, u; cbn in M; congruence. }
      destruct IN as (y & Hy & Ey). apply sum_nan. right. apply in_map_iff. exists y. auto.
    - apply sum_nan. right. apply in_map_iff. exists x. split; [|exact Hx]. destruct x; reflexivity. }
  destruct S as [S|S]; cbn beta in S; rewrite S; reflexivity.
Qed.
Lemma f_C66_not_finite cast lattice numbers positions pol d : (forall x, cast (cast x) = cast x) -> narr_wf pol ->
  dataset_new cast lattice numbers positions pol = Ok d ->
  forall k i j s0 x0, nth_error components k = Some (i, j) -> entry pol [s0; i; j] x0 -> ~ is_finite x0 ->
  forall s x, entry pol [s; i; j] x -> entry (ds_scaled d) [s; k] (cast NaN).
Proof.
  intros Hc W H k i j s0 x0 Hk H0 N0 s x Hx. destruct (new_shape _ _ _ _ _ _ H) as (n & S). destruct (pol_rows _ _ W S) as (rows & L & F & E).
  apply new_ok in H. subst d. cbn [ds_scaled]. rewrite E in H0, Hx |- *. apply entry3 in H0; [|reflexivity|exact F]. apply entry3 in Hx; [|reflexivity|exact F].
  destruct H0 as (I & J & r0 & R0 & X0). destruct Hx as (_ & _ & r & R & X). apply cast_all_entry. exists (cast NaN). split; [|symmetry; apply Hc].
  apply (scaled_rows cast rows k i j F Hk). set (col := map (fun r => nth (3 * i + j) r NaN) rows).
  exists x. split; [unfold col; rewrite nth_error_map, R; cbn; f_equal; apply nth_error_nth; exact X|]. f_equal.
  rewrite (col_std_nan col x0).
  - destruct (num_sub x (col_mean col)); reflexivity.
  - unfold col. apply in_map_iff. exists r0. split; [apply nth_error_nth; exact X0|eapply nth_error_In; exact R0].
  - destruct x0; [apply N0; eexists; reflexivity|exact Logic.I|exact Logic.I].
Qed.
Lemma f_C66_one_component cast lattice numbers positions pol d : (forall x, cast (cast x) = cast x) -> narr_wf pol ->
  dataset_new cast lattice numbers positions pol = Ok d ->
  forall k i j xs, nth_error components k = Some (i, j) -> component_is pol i j xs ->
  forall s x, nth_error xs s = Some x ->
    (~ constant xs -> entry (ds_scaled d) [s; k] (cast (Fin ((x - mean xs) / stddev xs)%R))) /\
    (constant xs -> entry (ds_scaled d) [s; k] (cast NaN)).
Proof.
  intros Hc W H k i j xs Hk HC s x Hx. destruct (new_shape _ _ _ _ _ _ H) as (n & S). destruct (pol_rows _ _ W S) as (rows & L & F & E).
  apply new_ok in H. subst d. cbn [ds_scaled]. rewrite E in HC |- *. destruct (components_lt _ _ _ Hk) as (_ & I & J & _). pose proof (index9 i j I J) as Q.
  set (col := map (fun r => nth (3 * i + j) r NaN) rows).
  assert (C : col = map Fin xs).
  { apply nth_error_ext_q. intros p. unfold col. rewrite !nth_error_map. destruct (nth_error rows p) as [r|] eqn:R.
    - assert (Lr : List.length r = 9) by (rewrite Forall_forall in F; apply F; eapply nth_error_In; exact R).
      unfold option_map at 1. destruct (proj1 (HC p (nth (3 * i + j) r NaN))) as (q & Hq & ->).
      { apply entry3; [reflexivity|exact F|]. split; [exact I|]. split; [exact J|]. exists r. split; [exact R|]. apply nth_error_nth'. lia. }
      rewrite Hq. reflexivity.
    - destruct (nth_error xs p) as [q|] eqn:Hq; [|reflexivity]. exfalso. destruct (proj2 (HC p (Fin q))) as [K1 K2]; [eauto|].
      cbn in K1. inversion K1 as [|? ? ? ? K3 K4]; subst. apply nth_error_None in R. lia. }
  assert (G : forall y, cast (num_quot (num_sub (Fin x) (col_mean col)) (col_std col)) = cast y ->
     entry (cast_all cast (flatten cast (each num_quot (each num_sub (mkNarr [List.length rows; 3; 3] (concat rows)) (means (mkNarr [List.length rows; 3; 3] (concat rows)))) (stds (mkNarr [List.length rows; 3; 3] (concat rows)))))) [s; k] (cast y)).
  { intros y Hy. apply cast_all_entry. exists (cast y). split; [|symmetry; apply Hc]. apply (scaled_rows cast rows k i j F Hk). exists (Fin x). split; [|symmetry; exact Hy].
    fold col. rewrite C, nth_error_map, Hx. reflexivity. }
  assert (Hne : xs <> []) by (intros ->; destruct s; discriminate).
  split; intros K; apply G; rewrite C, col_mean_fin, col_std_fin by exact Hne; cbn [num_sub num_opp num_add num_quot]; f_equal.
  - destruct (zscores_stats xs K) as (_ & _ & D). destruct (Req_EM_T (stddev xs) 0); [lra|reflexivity].
  - pose proof (proj2 (variance_zero xs Hne) K) as V. unfold stddev. rewrite V, sqrt_0. destruct (Req_EM_T 0 0); [|congruence].
    assert (M : mean xs = x).
    { assert (Ha : Forall (fun y => y = x) xs) by (apply Forall_forall; intros y Hy; apply K; [exact Hy|eapply nth_error_In; exact Hx]).
      unfold mean. assert (R : rsum xs = (INR (List.length xs) * x)%R).
      { clear - Ha. induction Ha as [|y l E _ IH]; [cbn; ring|]. cbn [rsum fold_right]. fold (rsum l). rewrite IH, E. cbn [List.length]. rewrite S_INR. ring. }
      rewrite R. field. pose proof (len_pos xs Hne). lra. }
    rewrite M. destruct (Req_EM_T (x + - x) 0); [reflexivity|lra].
Qed.

(** ** Labels *)
Lemma hex_digit_char d : (d < 16)%N -> hex_digit (hex_char d) d.
Proof. intros H. unfold hex_digit, hex_char. destruct (N.ltb_spec d 10); lia. Qed.
Lemma hex_length w : forall n, List.length (hex w n) = w.
Proof. induction w as [|w IH]; intros n; [reflexivity|]. cbn [hex]. rewrite app_length, IH. cbn. lia. Qed.
Lemma hex_denotes w : forall n, (n < 16 ^ N.of_nat w)%N -> hex_value (hex w n) n.
Proof.
  induction w as [|w IH]; intros n H; cbn [hex].
  - cbn in H. assert (n = 0%N) by lia. subst. constructor.
  - rewrite Nat2N.inj_succ, N.pow_succ_r' in H.
    assert (D : (n = 16 * (n / 16) + n mod 16)%N) by (apply N.div_mod'). rewrite D at 3.
    constructor; [apply IH; apply N.div_lt_upper_bound; lia|]. apply hex_digit_char. apply N.mod_lt. lia.
Qed.
Lemma char_literal pr q c s l : (c < 1114112)%N -> In q [39; 34]%N -> literal s l -> literal (repr_char pr q c ++ s) (c :: l).
Proof.
  intros U Q H. unfold repr_char.
  destruct (N.eqb_spec c 92) as [->|N1]; [cbn [orb app]; apply literal_same; [cbn; auto|exact H]|].
  destruct (N.eqb_spec c q) as [->|N2]; [cbn [orb app]; apply literal_same; [destruct Q as [<-|[<-|[]]]; cbn; auto|exact H]|]. cbn [orb].
  destruct (N.eqb_spec c 9) as [->|N3]; [apply literal_tab; exact H|].
  destruct (N.eqb_spec c 10) as [->|N4]; [apply literal_newline; exact H|].
  destruct (N.eqb_spec c 13) as [->|N5]; [apply literal_return; exact H|].
  destruct (N.ltb_spec c 32) as [L1|L1]; cbn [orb].
  { rewrite <- app_assoc. apply literal_hex2; [apply hex_length|apply hex_denotes; cbn; lia|exact H]. }
  destruct (N.eqb_spec c 127) as [->|N6].
  { rewrite <- app_assoc. apply literal_hex2; [apply hex_length|apply hex_denotes; cbn; lia|exact H]. }
  destruct (c <? 127)%N; [apply literal_plain; auto|]. destruct (pr c); [apply literal_plain; auto|].
  destruct (N.ltb_spec c 256); [rewrite <- app_assoc; apply literal_hex2; [apply hex_length|apply hex_denotes; cbn; lia|exact H]|].
  destruct (N.ltb_spec c 65536); [rewrite <- app_assoc; apply literal_hex4; [apply hex_length|apply hex_denotes; cbn; lia|exact H]|].
  rewrite <- app_assoc. apply literal_hex8; [apply hex_length|apply hex_denotes; cbn; lia|exact H].
Qed.
Lemma repr_literal pr l : unicode l -> literal (repr_body pr l) l.
Proof.
  unfold repr_body. assert (Q : In (repr_quote l) [39; 34]%N) by (unfold repr_quote; destruct (_ && _); cbn; auto). revert Q. generalize (repr_quote l). intros q Q.
  induction 1 as [|c l Hc _ IH]; [constructor|]. cbn [flat_map]. apply char_literal; auto.
Qed.
Lemma hex_digit_unique c d d' : hex_digit c d -> hex_digit c d' -> d = d'.
Proof. unfold hex_digit. lia. Qed.
Lemma hex_value_unique h v : hex_value h v -> forall v', hex_value h v' -> v = v'.
Proof.
  induction 1 as [|ds v c d Hv IH Hd]; intros v' H; inversion H as [E1 E2|ds' w c' d' Hw Hd' E1 E2]; subst.
  - reflexivity.
  - destruct ds'; discriminate.
  - destruct ds; discriminate.
  - apply app_inj_tail in E1. destruct E1 as [-> ->]. rewrite (IH _ Hw), (hex_digit_unique _ _ _ Hd Hd'). reflexivity.
Qed.
Lemma app_len_inj {A} (a b c d : list A) : List.length a = List.length b -> a ++ c = b ++ d -> a = b /\ c = d.
Proof.
  revert b. induction a as [|x a IH]; intros [|y b] L E; try discriminate; [auto|]. injection E as -> E. injection L as L. destruct (IH b L E) as [-> ->]. auto.
Qed.
Lemma literal_unique s l : literal s l -> forall l', literal s l' -> l = l'.
Proof.
  induction 1 as [|c s l N H IH|c s l Hc H IH|s l H IH|s l H IH|s l H IH|h v s l L V H IH|h v s l L V H IH|h v s l L V H IH]; intros l' H'.
  - inversion H'; reflexivity.
  - inversion H'; subst; try congruence. f_equal. auto.
  - cbn in Hc. inversion H'; subst; try congruence; [f_equal; auto|..]; exfalso; (repeat destruct Hc as [Hc|Hc]; try discriminate Hc; destruct Hc).
  - change (literal (92 :: 116 :: s)%N l') in H'. inversion H' as [|? ? ? N|? ? ? I| | | | | |]; subst; try congruence; [cbn in I; exfalso; repeat destruct I as [I|I]; try discriminate I; destruct I|f_equal; auto].
  - change (literal (92 :: 110 :: s)%N l') in H'. inversion H' as [|? ? ? N|? ? ? I| | | | | |]; subst; try congruence; [cbn in I; exfalso; repeat destruct I as [I|I]; try discriminate I; destruct I|f_equal; auto].
  - change (literal (92 :: 114 :: s)%N l') in H'. inversion H' as [|? ? ? N|? ? ? I| | | | | |]; subst; try congruence; [cbn in I; exfalso; repeat destruct I as [I|I]; try discriminate I; destruct I|f_equal; auto].
  - change (literal (92 :: 120 :: h ++ s)%N l') in H'. inversion H' as [|? ? ? N|? ? ? I| | | |h' v' s' l'' L' V' H'' E| |]; subst; try congruence; [cbn in I; exfalso; repeat destruct I as [I|I]; try discriminate I; destruct I|].
    apply app_len_inj in E; [|congruence]. destruct E as [-> ->]. f_equal; [eapply hex_value_unique; eassumption|auto].
  - change (literal (92 :: 117 :: h ++ s)%N l') in H'. inversion H' as [|? ? ? N|? ? ? I| | | | |h' v' s' l'' L' V' H'' E|]; subst; try congruence; [cbn in I; exfalso; repeat destruct I as [I|I]; try discriminate I; destruct I|].
    apply app_len_inj in E; [|congruence]. destruct E as [-> ->]. f_equal; [eapply hex_value_unique; eassumption|auto].
  - change (literal (92 :: 85 :: h ++ s)%N l') in H'. inversion H' as [|? ? ? N|? ? ? I| | | | | |h' v' s' l'' L' V' H'' E]; subst; try congruence; [cbn in I; exfalso; repeat destruct I as [I|I]; try discriminate I; destruct I|].
    apply app_len_inj in E; [|congruence]. destruct E as [-> ->]. f_equal; [eapply hex_value_unique; eassumption|auto].
Qed.
Lemma f_C48_told E lattice numbers label : unicode label ->
  (forall positions pieces, structure_pieces E lattice numbers positions label = Ok pieces -> literal (first_line (concat pieces)) label) /\
  (forall pts pieces, trajectory_pieces E lattice numbers pts label = Ok pieces -> literal (first_line (concat pieces)) label).
Proof.
  intros U. split.
  - intros positions pieces. unfold structure_pieces. destruct (verify_structure _ _ _); cbn [rbind]; [|discriminate].
    destruct (get_symbols_str numbers) as [sym|]; cbn [rbind]; [|discriminate]. intros H.
    apply (f_equal (fun r => match r with Ok x => x | Err _ => [] end)) in H. rewrite <- H.
    unfold header. cbn [app concat]. unfold NL. rewrite <- !(app_assoc (repr_body _ _)). cbn [app].
    rewrite first_line_app by apply repr_single. apply repr_literal. exact U.
  - intros pts pieces. unfold trajectory_pieces. destruct (verify_trajectory _ _ _); cbn [rbind]; [|discriminate].
    destruct (get_symbols_str numbers) as [sym|]; cbn [rbind]; [|discriminate]. intros H.
    apply (f_equal (fun r => match r with Ok x => x | Err _ => [] end)) in H. rewrite <- H.
    unfold header. cbn [app concat]. unfold NL. rewrite <- !(app_assoc (repr_body _ _)). cbn [app].
    rewrite first_line_app by apply repr_single. apply repr_literal. exact U.
Qed.
