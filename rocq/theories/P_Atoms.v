(** Row computations commute with reordering of the rows *)
From Coq Require Import String ZArith Reals Bool Arith List Permutation Lia Lra.
From Verif Require Import Base LinAlg M_Validate M_StructUtils M_Symmetry M_Reference S_Vec P_Interp P_Response S_Relabel P_Relabel P_Relabel2 P_Relabel3 S_Atoms.
Import ListNotations.
Local Open Scope R_scope.

(** Results of two computations that fail alike *)
Definition RS {A B} (Q : A -> B -> Prop) (x : res A) (y : res B) : Prop :=
  match x, y with Ok a, Ok b => Q a b | Err e, Err e' => e = e' | _, _ => False end.
Lemma RS_bind {A B C D} (Q : A -> B -> Prop) (Q' : C -> D -> Prop) x y f g :
  RS Q x y -> (forall a b, Q a b -> RS Q' (f a) (g b)) -> RS Q' (rbind x f) (rbind y g).
Proof. destruct x, y; cbn; intros H K; try contradiction; auto. Qed.
Lemma RS_mapM {A B C D} (Q : A -> B -> Prop) (Q' : C -> D -> Prop) f g l l' :
  Forall2 Q l l' -> (forall a b, In a l -> Q a b -> RS Q' (f a) (g b)) -> RS (Forall2 Q') (mapM f l) (mapM g l').
Proof.
  induction 1 as [|a b l l' H HF IH]; intros K; [constructor|]. cbn [mapM].
  apply (RS_bind Q'); [apply K; [left; reflexivity|exact H]|]. intros c d Hc.
  apply (RS_bind (Forall2 Q')); [apply IH; intros; apply K; [right|]; assumption|]. intros cs ds Hcs. constructor; assumption.
Qed.
Lemma RS_eq {A} (x y : res A) : RS eq x y <-> x = y.
Proof. destruct x, y; cbn; split; intros H; try contradiction; try discriminate; congruence. Qed.
Lemma RS_impl {A B} (Q Q' : A -> B -> Prop) x y : RS Q x y -> (forall a b, Q a b -> Q' a b) -> RS Q' x y.
Proof. destruct x, y; cbn; intros H K; auto. Qed.

Section Order.
Context (n : nat) (u : nat -> nat) (HU : reordering n u).

Definition like {A} (l l' : list A) : Prop := List.length l = n /\ moved u l l'.
Lemma like_len {A} (l l' : list A) : like l l' -> List.length l = n /\ List.length l' = n.
Proof. intros (H & (E & _)). split; congruence. Qed.
Lemma same_like (l l' : list V3) : same_rows n u l l' -> like l l'.
Proof. intros (H & R). split; [exact H|]. apply reordered_moved; [rewrite H; exact HU|exact R]. Qed.
Lemma like_same (l l' : list V3) : like l l' -> same_rows n u l l'.
Proof.
  intros (H & (L & _ & M)). split; [exact H|]. split; [exact L|]. intros i Hi. destruct (lt_some _ _ Hi) as [x E]. rewrite E. apply M, E.
Qed.
Lemma like_make {A} (l l' : list A) : List.length l = n -> List.length l' = n -> (forall k x, nth_error l k = Some x -> nth_error l' (u k) = Some x) -> like l l'.
Proof. intros H1 H2 H3. split; [exact H1|]. split; [congruence|]. split; [rewrite H1; exact HU|exact H3]. Qed.
Lemma like_map {A B} (f : A -> B) l l' : like l l' -> like (map f l) (map f l').
Proof. intros (H & M). split; [rewrite map_length; exact H|apply moved_map, M]. Qed.
Lemma like_map2 {A B C} (f : A -> B -> C) a a' b b' : like a a' -> like b b' -> like (map2 f a b) (map2 f a' b').
Proof. intros (H1 & M1) (H2 & M2). split; [rewrite map2_length'; congruence|]. apply moved_map2; congruence || assumption. Qed.
Lemma like_combine {A B} (a a' : list A) (b b' : list B) : like a a' -> like b b' -> like (combine a b) (combine a' b').
Proof. intros (H1 & M1) (H2 & M2). split; [rewrite combine_length; lia|]. apply moved_combine; congruence || assumption. Qed.
Lemma like_perm {A} (l l' : list A) : like l l' -> Permutation l l'.
Proof. intros (_ & M). eapply moved_perm, M. Qed.
Lemma like_nth {A} (l l' : list A) d k : like l l' -> (k < n)%nat -> nth (u k) l' d = nth k l d.
Proof.
  intros (H & (_ & _ & M)) Hk. destruct (lt_some l k) as [x E]; [lia|]. rewrite (nth_error_nth _ _ d E). apply nth_error_nth, M, E.
Qed.
Lemma u_onto j : (j < n)%nat -> exists k, (k < n)%nat /\ u k = j.
Proof.
  intros Hj. destruct HU as (H1 & H2).
  assert (P : NoDup (map u (seq 0 n))).
  { apply map_nodup_in; [|apply seq_NoDup]. intros x y Hx Hy. apply in_seq in Hx. apply in_seq in Hy. apply H2; lia. }
  assert (I : incl (map u (seq 0 n)) (seq 0 n)).
  { intros x Hx. apply in_map_iff in Hx as (y & <- & Hy). apply in_seq in Hy. apply in_seq. specialize (H1 y). lia. }
  assert (J : incl (seq 0 n) (map u (seq 0 n))) by (apply NoDup_length_incl; [exact P|rewrite map_length; lia|exact I]).
  specialize (J j). rewrite in_seq in J. specialize (J ltac:(lia)). apply in_map_iff in J as (k & E & Hk). apply in_seq in Hk. exists k. split; [lia|exact E].
Qed.

(** ** Sums *)
Lemma vsum_perm l m : Permutation l m -> vsum l = vsum m.
Proof. unfold vsum. induction 1; cbn; [reflexivity|congruence| |congruence]. rewrite !vadd_assoc, (vadd_comm y x). reflexivity. Qed.
Lemma vsum_like l l' : like l l' -> vsum l = vsum l'.
Proof. intros H. apply vsum_perm, like_perm, H. Qed.
Lemma dot_like a a' b b' : like a a' -> like b b' -> rows_dot a b = rows_dot a' b'.
Proof. intros H1 H2. unfold rows_dot. apply (rsum_perm (map2 vdot a b) (map2 vdot a' b')). apply like_perm, like_map2; assumption. Qed.
Lemma norm_like a a' : like a a' -> rows_norm a = rows_norm a'.
Proof. intros H. unfold rows_norm, rows_norm2. f_equal. apply dot_like; exact H. Qed.
Lemma forallb_perm {A} (f : A -> bool) l m : Permutation l m -> forallb f l = forallb f m.
Proof.
  induction 1; cbn; [reflexivity|congruence| |congruence]. destruct (f x), (f y); reflexivity.
Qed.
Lemma forallb_like {A} (f : A -> bool) l l' : like l l' -> forallb f l = forallb f l'.
Proof. intros H. apply forallb_perm, like_perm, H. Qed.

(** ** Positions *)
Lemma pbc_like l l' : like l l' -> like (apply_pbc l) (apply_pbc l').
Proof. apply like_map. Qed.
Lemma pbcd_like l l' : like l l' -> like (apply_pbc_displacement l) (apply_pbc_displacement l').
Proof. apply like_map. Qed.
Lemma mul_like m l l' : like l l' -> like (rows_mul l m) (rows_mul l' m).
Proof. apply like_map. Qed.
Lemma scale_like c l l' : like l l' -> like (rows_scale c l) (rows_scale c l').
Proof. apply like_map. Qed.
Lemma bcast_like {A B C} (f : A -> B -> C) a a' b b' : like a a' -> like b b' -> RS like (bcast2 f a b) (bcast2 f a' b').
Proof.
  intros H1 H2. destruct (like_len _ _ H1), (like_len _ _ H2). rewrite !bcast2_eq by congruence. apply like_map2; assumption.
Qed.
Lemma bcast_one {A B C} (f : A -> B -> C) a a' x : like a a' -> RS like (bcast2 f a [x]) (bcast2 f a' [x]).
Proof. intros H. rewrite !bcast2_one_r. apply like_map, H. Qed.
Lemma displace_like p p' d d' : like p p' -> like d d' -> RS like (displace_positions p d) (displace_positions p' d').
Proof. intros H1 H2. unfold displace_positions. eapply RS_bind; [apply bcast_like; [apply pbc_like, H1|apply pbcd_like, H2]|]. intros a b H. apply pbc_like, H. Qed.
Lemma displace_one p p' t : like p p' -> RS like (displace_positions p [t]) (displace_positions p' [t]).
Proof. intros H1. unfold displace_positions. eapply RS_bind; [apply bcast_one, pbc_like, H1|]. intros a b H. apply pbc_like, H. Qed.
Lemma transform_like p p' R t : like p p' -> RS like (transform_positions p R t) (transform_positions p' R t).
Proof.
  intros H. unfold transform_positions, M_StructUtils.positions_ok. rewrite (forallb_like _ _ _ H). destruct (forallb _ p'); [|reflexivity].
  apply displace_one, pbc_like, mul_like, pbc_like, H.
Qed.
Lemma calc_like p p' q q' : like p p' -> like q q' -> RS like (calc_displacement p q) (calc_displacement p' q').
Proof. intros H1 H2. unfold calc_displacement. eapply RS_bind; [apply bcast_like; apply pbc_like; [exact H2|exact H1]|]. intros a b H. apply pbcd_like, H. Qed.

(** ** Permutation matrices *)
Definition RB (P P' : bmat) : Prop :=
  List.length P = n /\ List.length P' = n /\
  (forall k row, nth_error P k = Some row -> exists row', nth_error P' (u k) = Some row' /\ like row row') /\
  Forall (fun row => List.length row = n) P /\ Forall (fun row => List.length row = n) P'.
Lemma perm_like p p' op : like p p' -> RS RB (permutation_matrix_of p op) (permutation_matrix_of p' op).
Proof.
  intros H. unfold permutation_matrix_of. assert (E : com_shift p' = com_shift p).
  { unfold com_shift, mean_rows. rewrite (vsum_like _ _ H). destruct (like_len _ _ H) as [-> ->]. reflexivity. }
  rewrite E. eapply RS_bind; [apply displace_one, H|]. intros a b Ha. eapply RS_bind; [apply transform_like, H|]. intros c d Hc.
  cbn. unfold get_positions_permutation_matrix. destruct (like_len _ _ Ha), (like_len _ _ Hc). repeat split; try (rewrite map_length; assumption).
  - intros k row Ek. rewrite nth_error_map in Ek. destruct (nth_error a k) as [x|] eqn:Ex; [|discriminate]. injection Ek as <-.
    destruct Ha as (_ & (_ & _ & M)). rewrite nth_error_map, (M _ _ Ex). eexists. split; [reflexivity|]. apply like_map, Hc.
  - apply Forall_forall. intros row Hr. apply in_map_iff in Hr as (x & <- & _). rewrite map_length. assumption.
  - apply Forall_forall. intros row Hr. apply in_map_iff in Hr as (x & <- & _). rewrite map_length. assumption.
Qed.
Lemma brow_like row row' c c' : like row row' -> like c c' -> brow_mul row c = brow_mul row' c'.
Proof. intros H1 H2. unfold brow_mul. apply vsum_like, like_map2; assumption. Qed.
Lemma bmul_like P P' c c' : RB P P' -> like c c' -> RS like (bmat_mul P c) (bmat_mul P' c').
Proof.
  intros (L1 & L2 & H & F1 & F2) Hc. unfold bmat_mul. destruct (like_len _ _ Hc) as [Lc Lc'].
  assert (T : forall Q (z : list V3), List.length z = n -> Forall (fun row => List.length row = n) Q -> forallb (fun row : list bool => Nat.eqb (List.length row) (List.length z)) Q = true).
  { intros Q z Lz F. apply forallb_forall. intros x Hx. rewrite Forall_forall in F. apply Nat.eqb_eq. rewrite (F x Hx). congruence. }
  rewrite (T P c Lc F1), (T P' c' Lc' F2). cbn. apply like_make; try (rewrite map_length; assumption).
  intros k x E. rewrite nth_error_map in E. destruct (nth_error P k) as [row|] eqn:Er; [|discriminate]. injection E as <-.
  destruct (H _ _ Er) as (row' & Er' & Hr). rewrite nth_error_map, Er'. cbn. f_equal. symmetry. apply brow_like; assumption.
Qed.

(** ** Arrays that may be NaN *)
Definition RA (a b : arr V3) : Prop :=
  match a, b with Fin l, Fin m => like l m | Nan k, Nan k' => k = k' | _, _ => False end.
Lemma RA_len a b : RA a b -> arr_len a = arr_len b.
Proof. destruct a, b; cbn; intros H; try contradiction; [|exact H]. destruct (like_len _ _ H). congruence. Qed.

Lemma flat_scale k l : flatten_rows (rows_scale k l) = map (fun x => k * x) (flatten_rows l).
Proof. induction l as [|v l IH]; [reflexivity|]. cbn. unfold flatten_rows, rows_scale in IH. rewrite IH. reflexivity. Qed.
Lemma lnorm_rows l : lnorm (flatten_rows l) = rows_norm l.
Proof. unfold lnorm, lnorm2. rewrite ldot_rows. reflexivity. Qed.
Definition normal_rows (a : arr V3) : arr V3 :=
  match a with
  | Fin [] => Fin []
  | Fin l => if Reqb (rows_norm l) 0 then Nan (List.length l) else Fin (rows_scale (/ rows_norm l) l)
  | Nan k => Nan k
  end.
Lemma flat_len l : List.length (flatten_rows l) = (3 * List.length l)%nat.
Proof. induction l; cbn [flatten_rows flat_map List.length app] in *; [reflexivity|]. unfold flatten_rows in IHl. rewrite IHl. lia. Qed.
Lemma normalise_rows a : normalise (flatten a) = flatten (normal_rows a).
Proof.
  destruct a as [[|v l]|k]; [reflexivity| |reflexivity]. unfold normal_rows, flatten at 1. unfold normalise. 
  change (flatten_rows (v :: l)) with (vx v :: vy v :: vz v :: flatten_rows l) at 1. cbv iota.
  change (vx v :: vy v :: vz v :: flatten_rows l) with (flatten_rows (v :: l)). rewrite lnorm_rows.
  destruct (Reqb (rows_norm (v :: l)) 0); cbn [flatten]; [rewrite flat_len; reflexivity|]. f_equal. rewrite flat_scale. apply map_ext. intros x. unfold Rdiv. ring.
Qed.
Lemma normal_like a b : RA a b -> RA (normal_rows a) (normal_rows b).
Proof.
  destruct a as [[|v l]|k], b as [[|w m]|k']; cbn [RA]; intros H; try contradiction; cbn [normal_rows]; try exact H.
  - destruct (like_len _ _ H) as [H1 H2]. cbn in H1, H2. lia.
  - destruct (like_len _ _ H) as [H1 H2]. cbn in H1, H2. lia.
  - rewrite (norm_like _ _ H). destruct (Reqb _ 0).
    + destruct (like_len _ _ H). cbn [RA]. congruence.
    + cbn [RA]. apply scale_like, H.
Qed.
Lemma npdot_rows a a' b b' : RA a a' -> RA b b' -> npdot (flatten a) (flatten b) = npdot (flatten a') (flatten b').
Proof.
  intros H1 H2. unfold npdot. pose proof (RA_len _ _ H1) as L1. pose proof (RA_len _ _ H2) as L2.
  assert (T : forall z, arr_len (flatten z) = (3 * arr_len z)%nat) by (intros [l|k]; cbn [flatten arr_len]; [apply flat_len|reflexivity]).
  rewrite !T, L1, L2. destruct (Nat.eqb _ _); [|reflexivity].
  destruct a, a', b, b'; cbn [RA] in H1, H2; try contradiction; cbn [flatten]; try reflexivity.
  rewrite !ldot_rows. rewrite (dot_like _ _ _ _ H1 H2). reflexivity.
Qed.
Lemma npdot_normal a a' b b' : RA a a' -> RA b b' -> npdot (normalise (flatten a)) (normalise (flatten b)) = npdot (normalise (flatten a')) (normalise (flatten b')).
Proof. intros H1 H2. rewrite !normalise_rows. apply npdot_rows; apply normal_like; assumption. Qed.

Lemma scan_like {A B} (Q : A -> B -> Prop) f g l l' : Forall2 Q l l' -> (forall a b, Q a b -> f a = g b) -> forall k, scan_from f k l = scan_from g k l'.
Proof.
  induction 1 as [|a b l l' H HF IH]; intros K k; cbn [scan_from]; [reflexivity|]. rewrite (K _ _ H). destruct (g b) as [[|]|]; cbn [rbind]; try reflexivity. apply IH, K.
Qed.
Lemma Forall2_flat l l' : Forall2 RA l l' -> Forall2 (fun x y => exists a b, x = flatten a /\ y = flatten b /\ RA a b) (map flatten l) (map flatten l').
Proof. induction 1; cbn; constructor; eauto. Qed.
Lemma orth_like a b l l' : RA a b -> Forall2 RA l l' -> is_orthogonal_to_all (flatten a) (map flatten l) = is_orthogonal_to_all (flatten b) (map flatten l').
Proof.
  intros H HF. unfold is_orthogonal_to_all. eapply scan_like; [apply Forall2_flat, HF|]. cbv beta. intros x y (c & d & -> & -> & Hc).
  unfold non_orthogonal. rewrite (npdot_normal _ _ _ _ H Hc). reflexivity.
Qed.
Lemma coll_like a b l l' : RA a b -> Forall2 RA l l' -> is_non_collinear_with_all (flatten a) (map flatten l) = is_non_collinear_with_all (flatten b) (map flatten l').
Proof.
  intros H HF. unfold is_non_collinear_with_all. eapply scan_like; [apply Forall2_flat, HF|]. cbv beta. intros x y (c & d & -> & -> & Hc).
  unfold are_collinear. rewrite (npdot_normal _ _ _ _ H Hc). reflexivity.
Qed.
Lemma all_coll_like a b l l' : RA a b -> Forall2 RA l l' -> is_collinear_with_all (flatten a) (map flatten l) = is_collinear_with_all (flatten b) (map flatten l').
Proof.
  intros H HF. unfold is_collinear_with_all. eapply scan_like; [apply Forall2_flat, HF|]. cbv beta. intros x y (c & d & -> & -> & Hc).
  unfold are_collinear. rewrite (npdot_normal _ _ _ _ H Hc). reflexivity.
Qed.
Lemma close_like a a' b b' : RA a a' -> RA b b' -> arr_close a b = arr_close a' b'.
Proof.
  destruct a, a', b, b'; cbn [RA]; intros H1 H2; try contradiction; try reflexivity. cbn [arr_close]. apply forallb_like, like_combine; assumption.
Qed.

(** ** Equivalent displacements *)
Definition RG (g g' : group) : Prop := Forall2 RA (g_disp g) (g_disp g') /\ g_trans g = g_trans g'.
Definition RR (r r' : refstruct) : Prop :=
  rs_lattice r = rs_lattice r' /\ like (rs_positions r) (rs_positions r') /\ rs_ops r = rs_ops r' /\ Forall2 RB (rs_perms r) (rs_perms r').

Context (r r' : refstruct) (HRR : RR r r').

Lemma candidate_like d d' op P P' : RA d d' -> (arr_len d = n) -> RB P P' -> RS RA (candidate r d op P) (candidate r' d' op P').
Proof.
  destruct HRR as (_ & HP & _). intros Hd Ld HB. destruct d as [l|k], d' as [l'|k']; cbn [RA] in Hd; try contradiction; cbn [candidate].
  - eapply RS_bind; [apply displace_like; [exact HP|exact Hd]|]. intros a b Ha. eapply RS_bind; [apply transform_like, Ha|]. intros c e Hc.
    eapply RS_bind; [apply bmul_like; [exact HB|exact Hc]|]. intros f g Hf. eapply RS_bind; [apply calc_like; [exact HP|exact Hf]|]. intros x y H. exact H.
  - subst k'. cbn in Ld. subst k. assert (HZ : like (repeat v0 n) (repeat v0 n)).
    { apply like_make; try apply repeat_length. intros k x E. pose proof (some_lt _ _ _ E) as Hk. rewrite repeat_length in Hk. apply nth_error_In, repeat_spec in E. subst x.
      destruct (lt_some (repeat v0 n) (u k)) as [y Ey]; [rewrite repeat_length; apply HU, Hk|]. rewrite Ey. apply nth_error_In, repeat_spec in Ey. congruence. }
    eapply RS_bind; [apply displace_like; [exact HP|exact HZ]|]. intros a b Ha. eapply RS_bind; [apply bmul_like; [exact HB|exact Ha]|]. intros f g Hf. cbn. destruct (like_len _ _ Hf). congruence.
Qed.
Lemma F2_app {A B} (Q : A -> B -> Prop) a b x y : Forall2 Q a b -> Q x y -> Forall2 Q (a ++ [x]) (b ++ [y]).
Proof. intros H1 H2. apply Forall2_app; [exact H1|constructor; [exact H2|constructor]]. Qed.
Lemma add_like gs gs' c c' op : Forall2 RG gs gs' -> RA c c' -> forall k, Forall2 RG (add_to_group k c op gs) (add_to_group k c' op gs').
Proof.
  intros H Hc. induction H as [|g g' gs gs' (H1 & H2) HF IH]; intros k; [destruct k; constructor|]. destruct k; cbn.
  - constructor; [|exact HF]. split; cbn; [apply F2_app; assumption|congruence].
  - constructor; [split; assumption|apply IH].
Qed.
Lemma F2_nth {A B} (Q : A -> B -> Prop) l l' : Forall2 Q l l' -> forall k, match nth_error l k, nth_error l' k with Some a, Some b => Q a b | None, None => True | _, _ => False end.
Proof. induction 1; intros [|k]; cbn; auto. apply IHForall2. Qed.
Lemma existsb_like c c' l l' : RA c c' -> Forall2 RA l l' -> existsb (fun e => arr_close c e) l = existsb (fun e => arr_close c' e) l'.
Proof. intros Hc. induction 1; cbn; [reflexivity|]. rewrite (close_like _ _ _ _ Hc H), IHForall2. reflexivity. Qed.
Definition RC (st st' : list group * list (arr V3)) : Prop := Forall2 RG (fst st) (fst st') /\ Forall2 RA (snd st) (snd st').
Lemma classify_like st st' c c' op : RC st st' -> RA c c' -> RS RC (classify st c op) (classify st' c' op).
Proof.
  destruct st as [gs os], st' as [gs' os']. intros (HG & HO) Hc. cbn [fst snd] in *. unfold classify. rewrite (orth_like _ _ _ _ Hc HO).
  destruct (is_orthogonal_to_all (flatten c') (map flatten os')) as [o|e]; cbn [rbind]; [|reflexivity].
  destruct (o =? -1)%Z.
  - split; cbn; apply F2_app; try assumption. split; cbn; [constructor; [exact Hc|constructor]|reflexivity].
  - rewrite (coll_like _ _ _ _ Hc HO). destruct (is_non_collinear_with_all _ _) as [z|e]; cbn [rbind]; [|reflexivity].
    destruct (negb (z =? -1)%Z); [|split; assumption].
    pose proof (F2_nth _ _ _ HG (Z.to_nat z)) as K. destruct (nth_error gs (Z.to_nat z)) as [g|], (nth_error gs' (Z.to_nat z)) as [g'|]; try contradiction; [|reflexivity].
    destruct K as (K1 & K2). rewrite (existsb_like _ _ _ _ Hc K1). destruct (existsb _ (g_disp g')); [split; assumption|].
    split; cbn [fst snd]; [apply add_like; assumption|exact HO].
Qed.
Lemma loop_like d d' ops ops' : RA d d' -> arr_len d = n -> Forall2 (fun x y => fst x = fst y /\ RB (snd x) (snd y)) ops ops' ->
  forall st st', RC st st' -> RS RC (equivalent_loop r d ops st) (equivalent_loop r' d' ops' st').
Proof.
  intros Hd Ld. induction 1 as [|[op P] [op' P'] ops ops' (E & HB) HF IH]; intros st st' HC; cbn [equivalent_loop]; [exact HC|]. cbn [fst snd] in *. subst op'.
  eapply RS_bind; [apply candidate_like; eassumption|]. intros c c' Hc. eapply RS_bind; [apply classify_like; eassumption|]. intros st1 st1' H1. apply IH, H1.
Qed.
Lemma scaled_like d d' : RA d d' -> arr_len d = n -> RA (scale_displacement d) (scale_displacement d') /\ arr_len (scale_displacement d) = n.
Proof.
  destruct d as [l|k], d' as [l'|k']; cbn [RA]; intros H Ld; try contradiction; cbn [scale_displacement]; [|split; assumption].
  pose proof (pbcd_like _ _ H) as Hw. rewrite <- (norm_like _ _ Hw). destruct (like_len _ _ Hw) as [L1 L2]. destruct (Reqb _ 0).
  - destruct (apply_pbc_displacement l) as [|v w], (apply_pbc_displacement l') as [|v' w']; cbn in L1, L2; try (exfalso; lia).
    + split; [exact Hw|exact L1].
    + split; [cbn; congruence|exact L1].
  - split; [apply scale_like, Hw|]. cbn. unfold rows_scale. rewrite map_length. exact L1.
Qed.
Lemma groups_like d d' : RA d d' -> arr_len d = n -> RS (Forall2 RG) (get_equivalent_displacements r d) (get_equivalent_displacements r' d').
Proof.
  intros Hd Ld. destruct (scaled_like _ _ Hd Ld) as (Hs & Ls). unfold get_equivalent_displacements. pose proof HRR as (_ & HP & HO & HB).
  eapply RS_bind.
  - apply displace_like; [exact HP|].
    destruct (scale_displacement d) as [l|k], (scale_displacement d') as [l'|k']; cbn [RA] in Hs; try contradiction; [exact Hs|]. subst k'. cbn in Ls. subst k.
    apply like_make; try apply repeat_length. intros k x E. pose proof (some_lt _ _ _ E) as Hk. rewrite repeat_length in Hk. apply nth_error_In, repeat_spec in E. subst x.
    destruct (lt_some (repeat v0 n) (u k)) as [y Ey]; [rewrite repeat_length; apply HU, Hk|]. rewrite Ey. apply nth_error_In, repeat_spec in Ey. congruence.
  - intros _ _ _. assert (K : RS RC (equivalent_loop r (scale_displacement d) (combine (rs_ops r) (rs_perms r)) ([], [])) (equivalent_loop r' (scale_displacement d') (combine (rs_ops r') (rs_perms r')) ([], []))).
    { apply loop_like; [exact Hs|exact Ls| |split; constructor]. rewrite HO. generalize (rs_ops r'). clear - HB. induction HB as [|P P' ps ps' H HF IH]; intros [|op ops]; cbn; constructor; [split; [reflexivity|exact H]|apply IH]. }
    destruct (equivalent_loop r _ _ _), (equivalent_loop r' _ _ _); cbn in K |- *; try contradiction; [apply K|exact K].
Qed.
Lemma cart_like l l' : like l l' -> like (get_cart_displacement r l) (get_cart_displacement r' l').
Proof. intros H. unfold get_cart_displacement. destruct HRR as (-> & _). apply mul_like, pbcd_like, H. Qed.
Lemma cart_arr_like a a' : RA a a' -> RA (get_cart_displacement_arr r a) (get_cart_displacement_arr r' a').
Proof. destruct a, a'; cbn; intros H; try contradiction; [apply cart_like, H|exact H]. Qed.
Lemma frac_like l l' : like l l' -> RS like (get_frac_displacement r l) (get_frac_displacement r' l').
Proof.
  intros H. unfold get_frac_displacement. destruct HRR as (-> & _). destruct (minv _) as [li|e]; cbn [rbind]; [|reflexivity]. apply pbcd_like, mul_like, H.
Qed.
End Order.
