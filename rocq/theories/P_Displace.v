(** Proofs about displaced structures. *)
From Coq Require Import String Ascii ZArith NArith Reals Bool Arith List Lia Lra.
From Verif Require Import Base LinAlg M_Validate M_StructUtils M_Symmetry M_Reference M_Text M_Poscar M_Files M_Displace
  S_Lattice S_Vec S_Interp S_Text S_Files S_Displace P_StructUtils P_Reference P_Interp6 P_Poscar P_Poscar4 P_Files.
Import ListNotations.
Local Open Scope R_scope.

Lemma F2_length {A B} (P : A -> B -> Prop) l m : Forall2 P l m -> List.length l = List.length m.
Proof. induction 1; cbn; congruence. Qed.
Lemma Reqb_spec x y : reflect (x = y) (Reqb x y).
Proof. destruct (Reqb x y) eqn:E; constructor; [now apply Reqb_true|now apply Reqb_false]. Qed.
Notation AFin := M_Symmetry.Fin.

Lemma mapM_Forall2 {A B} (f : A -> res B) (P : A -> B -> Prop) l :
  (forall a, In a l -> exists b, f a = Ok b /\ P a b) -> exists bs, mapM f l = Ok bs /\ Forall2 P l bs.
Proof.
  induction l as [|a l IH]; intros H; cbn [mapM]; [exists []; auto|].
  destruct (H a (or_introl eq_refl)) as (b & Hb & Pb). destruct IH as (bs & Hbs & Pbs); [intros; apply H; now right|].
  rewrite Hb. cbn [rbind]. rewrite Hbs. cbn [rbind]. eauto.
Qed.
Lemma mapM_fail {A B} (f : A -> res B) e l : l <> [] -> (forall a, f a = Err e) -> mapM f l = Err e.
Proof. destruct l as [|a l]; [congruence|]. intros _ H. cbn [mapM]. now rewrite H. Qed.

Lemma nonzero_norm d : (exists v, In v d /\ v <> v0) -> rows_norm d <> 0.
Proof.
  intros (v & Hi & Hn) H. apply rows_norm_eq_0, rows_norm2_0 in H.
  rewrite Forall_forall in H. now apply Hn, H.
Qed.
Lemma unit_rows_nz d : rows_norm d <> 0 -> unit_rows (AFin d) = AFin (direction_of d).
Proof.
  intros H. unfold unit_rows. destruct (Reqb_spec (rows_norm d) 0); [contradiction|].
  unfold direction_of. now rewrite magnitude_rows.
Qed.

Lemma step_ok r u a : mdet (rs_lattice r) <> 0 -> List.length u = List.length (rs_positions r) ->
  exists q,
    rbind (match frac_displacement r (Rows (AFin u)) a with
          | Ok d => Ok d | Err e => if is_value_error e then Err ValueError else Err e end)
         (displace_arr (rs_positions r)) = Ok (AFin q) /\
    moved (rs_lattice r) (rs_positions r) (rows_scale a u) q.
Proof.
  intros Hd Hl. destruct (minv_exists _ Hd) as [li Hi].
  unfold frac_displacement, get_frac_displacement. rewrite Hi. cbn [rbind rmap displace_arr].
  rewrite displace_positions_eq.
  2:{ unfold rows_mul, rows_scale. rewrite apply_pbc_displacement_length, !map_length. auto. }
  cbn [rmap]. eexists. split; [reflexivity|].
  exists (rows_mul (rows_scale a u) li). split.
  - rewrite <- rows_mul_mmul. apply minv_Ok in Hi as (_ & Hi & _). rewrite Hi. apply rows_mul_mI.
  - apply apply_pbc_spec. apply apply_pbc_proper. unfold rows_add.
    apply same_map2; [apply vcongr_vadd|apply same_refl|].
    apply same_sym, same_apply_pbc_displacement.
Qed.

Lemma f_C55_positions r d amps :
  mdet (rs_lattice r) <> 0 -> List.length d = List.length (rs_positions r) -> (exists v, In v d /\ v <> v0) ->
  exists qs, get_displaced_positions r (Rows (AFin d)) (Some amps) = Ok (map AFin qs) /\
    Forall2 (fun a q => moved (rs_lattice r) (rs_positions r) (rows_scale a (direction_of d)) q) amps qs.
Proof.
  intros Hd Hl Hn. unfold get_displaced_positions, darr_map. rewrite unit_rows_nz by now apply nonzero_norm.
  match goal with |- context [mapM ?F amps] =>
    destruct (mapM_Forall2 F (fun a b => exists q, b = AFin q /\
      moved (rs_lattice r) (rs_positions r) (rows_scale a (direction_of d)) q) amps) as (bs & Hb & HF) end.
  - intros a _. destruct (step_ok r (direction_of d) a Hd) as (q & Hq & Hm).
    + unfold direction_of, rows_scale. now rewrite map_length.
    + eauto.
  - rewrite Hb. clear Hb. assert (H: exists qs, bs = map AFin qs /\
      Forall2 (fun a q => moved (rs_lattice r) (rs_positions r) (rows_scale a (direction_of d)) q) amps qs).
    { induction HF as [|a b amps bs (q & -> & Hq) HF (qs & -> & HF')]; [exists []; auto|].
      exists (q :: qs). auto. }
    destruct H as (qs & -> & H). eauto.
Qed.

Lemma f_C55_scale r d c amps : 0 < c ->
  get_displaced_positions r (Rows (AFin (rows_scale c d))) amps = get_displaced_positions r (Rows (AFin d)) amps.
Proof.
  intros Hc. unfold get_displaced_positions, darr_map.
  replace (unit_rows (AFin (rows_scale c d))) with (unit_rows (AFin d)); [reflexivity|].
  unfold unit_rows. rewrite rows_norm_scale, Rabs_right by lra.
  destruct (Reqb_spec (rows_norm d) 0) as [H|H].
  - rewrite H, Rmult_0_r. destruct (Reqb_spec 0 0); [|congruence]. destruct d; [reflexivity|].
    cbn [rows_scale map]. cbn [List.length]. now rewrite map_length.
  - destruct (Reqb_spec (c * rows_norm d) 0) as [H'|H'].
    + exfalso. apply Rmult_integral in H'. lra.
    + rewrite rows_scale_scale. do 2 f_equal. field. lra.
Qed.

(** * single atoms *)
Lemma set_nth_length {A} k (x : A) l : List.length (set_nth k x l) = List.length l.
Proof. revert k. induction l as [|a l IH]; intros [|k]; cbn; auto. Qed.
Lemma nth_error_set_nth {A} k (x : A) l j : (k < List.length l)%nat ->
  nth_error (set_nth k x l) j = if Nat.eqb j k then Some x else nth_error l j.
Proof.
  revert k j. induction l as [|a l IH]; intros [|k] [|j] H; cbn in *; try lia; auto.
  apply IH. lia.
Qed.
Lemma vnorm_nz v : v <> v0 -> vnorm v <> 0.
Proof.
  intros H E. apply H. apply vnorm2_0. unfold vnorm in E. apply sqrt_eq_0; auto. apply vnorm2_nonneg.
Qed.
Lemma rows_norm2_single n k v : (k < n)%nat -> rows_norm2 (set_nth k v (repeat v0 n)) = vnorm2 v.
Proof.
  revert k. induction n as [|n IH]; intros [|k] H; [lia|lia| |]; cbn [repeat set_nth]; rewrite rows_norm2_cons.
  - assert (Z : rows_norm2 (repeat v0 n) = 0).
    { clear. induction n as [|n IH]; [reflexivity|]. cbn [repeat]. rewrite rows_norm2_cons, IH. vunf. lra. }
    rewrite Z. lra.
  - rewrite IH by lia. vunf. lra.
Qed.
Lemma vnorm2_unit v : v <> v0 -> vnorm2 (vscale (/ vnorm v) v) = 1.
Proof.
  intros H. apply vnorm_nz in H.
  assert (E : vnorm v * vnorm v = vnorm2 v) by (apply sqrt_sqrt, vnorm2_nonneg).
  replace (vnorm2 (vscale (/ vnorm v) v)) with (/ vnorm v * / vnorm v * vnorm2 v).
  - rewrite <- E. field. exact H.
  - vunf. ring.
Qed.

Lemma f_C55_ast r i k v amps :
  mdet (rs_lattice r) <> 0 -> v <> v0 -> (k < List.length (rs_positions r))%nat ->
  (i = Z.of_nat k \/ i = (Z.of_nat k - Z.of_nat (List.length (rs_positions r)))%Z) ->
  exists qs, get_ast_displaced_positions r i v (Some amps) = Ok (map AFin qs) /\
    Forall2 (fun a q => moved_atom (rs_lattice r) (rs_positions r) k (vscale (a / vnorm v) v) q) amps qs.
Proof.
  intros Hd Hv Hk Hi. unfold get_ast_displaced_positions.
  rewrite (proj2 (py_index_Some _ i k) (conj Hk Hi)).
  destruct (Reqb_spec (vnorm v) 0) as [E|E]; [now apply vnorm_nz in Hv|].
  set (n := List.length (rs_positions r)) in *. set (u := vscale (/ vnorm v) v).
  destruct (f_C55_positions r (set_nth k u (repeat v0 n)) amps Hd) as (qs & Hq & HF).
  - now rewrite set_nth_length, repeat_length.
  - exists u. split.
    + apply (nth_error_In _ k). rewrite nth_error_set_nth by now rewrite repeat_length. now rewrite Nat.eqb_refl.
    + intros U. pose proof (vnorm2_unit v Hv) as H1. fold u in H1. rewrite U in H1. revert H1. vunf. lra.
  - exists qs. split; [exact Hq|].
    assert (D : direction_of (set_nth k u (repeat v0 n)) = set_nth k u (repeat v0 n)).
    { unfold direction_of. rewrite magnitude_rows. unfold rows_norm. rewrite rows_norm2_single by exact Hk.
      unfold u. rewrite (vnorm2_unit v Hv), sqrt_1, Rinv_1. apply rows_scale_1. }
    rewrite D in HF. clear -HF Hk Hd E. fold n. induction HF as [|a q amps qs (x & Hx & Hc) HF IH]; constructor; auto.
    assert (Lx : List.length x = n).
    { apply (f_equal (@List.length _)) in Hx. unfold rows_mul, rows_scale in Hx.
      rewrite !map_length, set_nth_length, repeat_length in Hx. exact Hx. }
    assert (Hxj : forall j y, nth_error x j = Some y -> vmul y (rs_lattice r) = vscale a (if Nat.eqb j k then u else v0)).
    { intros j y Hy. pose proof (f_equal (fun l => nth_error l j) Hx) as G. cbn beta in G.
      unfold rows_mul, rows_scale in G. rewrite !nth_error_map, Hy, nth_error_set_nth in G by now rewrite repeat_length.
      cbn [option_map] in G. destruct (Nat.eqb j k).
      - cbn in G. congruence.
      - destruct (nth_error (repeat v0 n) j) as [z|] eqn:Ez; cbn in G; [|discriminate].
        apply nth_error_In, repeat_spec in Ez. subst z. congruence. }
    split.
    + unfold cell_images in Hc. apply F2_length in Hc. rewrite <- Hc. unfold rows_add.
      rewrite map2_length_eq; [reflexivity|]. now rewrite Lx.
    + destruct (nth_error x k) as [xk|] eqn:Exk.
      2:{ apply nth_error_None in Exk. lia. }
      exists xk. split.
      * rewrite (Hxj k xk Exk), Nat.eqb_refl. unfold u, Rdiv. now rewrite vscale_vscale.
      * intros j p b Hp Hb.
        assert (Hj : (j < n)%nat) by (apply nth_error_Some; congruence).
        destruct (nth_error x j) as [xj|] eqn:Exj.
        2:{ apply nth_error_None in Exj. lia. }
        assert (Hs : nth_error (rows_add (rs_positions r) x) j = Some (vadd p xj)).
        { unfold rows_add. rewrite map2_nth_error, Hp, Exj. reflexivity. }
        assert (Hcj : vall2 cell_image (vadd p xj) b).
        { clear -Hc Hs Hb. revert j Hs Hb. unfold cell_images in Hc.
          induction Hc as [|s t l m Hst Hlm IH]; intros [|j] Hs Hb; cbn in *; try discriminate.
          - congruence.
          - eauto. }
        destruct (Nat.eqb_spec j k) as [-> | Hjk].
        -- congruence.
        -- specialize (Hxj j xj Exj). rewrite (proj2 (Nat.eqb_neq j k) Hjk) in Hxj.
           assert (Zj : xj = v0).
           { destruct (minv_exists _ Hd) as [li Hi]. apply minv_Ok in Hi as (Hi & _).
             rewrite <- (vmul_mI xj), <- Hi, vmul_mmul, Hxj.
             apply V3_eq; vunf; ring. }
           rewrite Zj in Hcj. replace p with (vadd p v0); [exact Hcj|]. apply V3_eq; vunf; ring.
Qed.

(** * errors *)
Lemma f_C55_index r i v amps :
  (i < - Z.of_nat (List.length (rs_positions r)) \/ Z.of_nat (List.length (rs_positions r)) <= i)%Z ->
  get_ast_displaced_positions r i v amps = Err IndexError.
Proof. intros H. unfold get_ast_displaced_positions. now rewrite (proj2 (py_index_None _ _) H). Qed.
Lemma f_C55_shape r amps : amps <> [] -> get_displaced_positions r OtherShape (Some amps) = Err ValueError.
Proof. intros H. apply mapM_fail; auto. Qed.
Lemma f_C55_amplitudes r d : get_displaced_positions r d None = Err ValueError.
Proof. reflexivity. Qed.
Lemma f_C55_rows r d amps : amps <> [] ->
  List.length d <> List.length (rs_positions r) -> List.length d <> 1%nat -> List.length (rs_positions r) <> 1%nat ->
  get_displaced_positions r (Rows (AFin d)) (Some amps) = Err ValueError.
Proof.
  intros Ha H1 H2 H3. apply mapM_fail; [exact Ha|]. intros a.
  assert (B : forall (p q : list V3), List.length q = List.length d -> List.length p = List.length (rs_positions r) ->
    displace_positions p q = Err ValueError).
  { intros p q Hq Hp. unfold displace_positions, bcast2.
    rewrite apply_pbc_length, apply_pbc_displacement_length, Hp, Hq.
    destruct (Nat.eqb_spec (List.length (rs_positions r)) (List.length d)); [congruence|].
    assert (Lp := apply_pbc_length p). assert (Lq := apply_pbc_displacement_length q).
    destruct (apply_pbc p) as [|x1 [|x2 xs]]; destruct (apply_pbc_displacement q) as [|y1 [|y2 ys]]; cbn in *;
      try reflexivity; exfalso; lia. }
  unfold darr_map, unit_rows. destruct (Reqb (rows_norm d) 0).
  - destruct d as [|x d]; cbn [frac_displacement].
    + unfold get_frac_displacement. destruct (minv (rs_lattice r)) as [li|e] eqn:Ei; cbn [rbind rmap].
      * cbn [displace_arr]. rewrite B; auto.
      * unfold minv in Ei. destruct (Req_EM_T _ _); [injection Ei as <-; reflexivity|discriminate].
    + destruct (minv (rs_lattice r)) as [li|e] eqn:Ei; cbn [rbind].
      * cbn [displace_arr]. rewrite B; auto. now rewrite repeat_length.
      * unfold minv in Ei. destruct (Req_EM_T _ _); [injection Ei as <-; reflexivity|discriminate].
  - cbn [frac_displacement]. unfold get_frac_displacement. destruct (minv (rs_lattice r)) as [li|e] eqn:Ei; cbn [rbind rmap].
    + cbn [displace_arr]. rewrite B; auto.
      unfold rows_mul, rows_scale. now rewrite apply_pbc_displacement_length, !map_length.
    + unfold minv in Ei. destruct (Req_EM_T _ _); [injection Ei as <-; reflexivity|discriminate].
Qed.

(** * C56 *)
Lemma zero_norm d : Forall (fun v => v = v0) d -> rows_norm d = 0.
Proof.
  intros H. apply rows_norm_eq_0. induction H as [|v d -> H IH]; [reflexivity|].
  rewrite rows_norm2_cons, IH. vunf. lra.
Qed.
Lemma displace_repeat p n : List.length p = n ->
  displace_arr p (Nan n) = Ok (Nan n).
Proof.
  intros H. cbn [displace_arr]. rewrite displace_positions_eq by now rewrite repeat_length.
  cbn [rmap]. do 2 f_equal. rewrite apply_pbc_length. unfold rows_add.
  rewrite map2_length_eq; [exact H|]. now rewrite repeat_length.
Qed.
Lemma nan_positions r amps : mdet (rs_lattice r) <> 0 ->
  get_displaced_positions r (Rows (Nan (List.length (rs_positions r)))) (Some amps) =
  Ok (map (fun _ => Nan (List.length (rs_positions r))) amps).
Proof.
  intros Hd. destruct (minv_exists _ Hd) as [li Hi]. unfold get_displaced_positions. cbn [darr_map unit_rows].
  induction amps as [|a amps IH]; [reflexivity|]. cbn [mapM].
  cbn [frac_displacement] in *. rewrite Hi in *. cbn [rbind] in *. rewrite displace_repeat in * by reflexivity.
  cbn [rbind] in *. rewrite IH. reflexivity.
Qed.
Lemma f_C56 r d amps : mdet (rs_lattice r) <> 0 -> List.length d = List.length (rs_positions r) -> d <> [] ->
  Forall (fun v => v = v0) d ->
  get_displaced_positions r (Rows (AFin d)) (Some amps) = Ok (map (fun _ => Nan (List.length (rs_positions r))) amps).
Proof.
  intros Hd Hl Hn Hz. rewrite <- nan_positions by exact Hd.
  unfold get_displaced_positions. cbn [darr_map].
  replace (unit_rows (AFin d)) with (unit_rows (Nan (A:=V3) (List.length (rs_positions r)))); [reflexivity|].
  cbn [unit_rows]. destruct (Reqb_spec (rows_norm d) 0) as [H|H]; [|now apply zero_norm in Hz].
  destruct d; [congruence|]. now rewrite <- Hl.
Qed.
Lemma f_C56_ast r i amps : mdet (rs_lattice r) <> 0 ->
  (- Z.of_nat (List.length (rs_positions r)) <= i < Z.of_nat (List.length (rs_positions r)))%Z ->
  get_ast_displaced_positions r i v0 (Some amps) = Ok (map (fun _ => Nan (List.length (rs_positions r))) amps).
Proof.
  intros Hd Hi. unfold get_ast_displaced_positions.
  destruct (py_index _ i) as [k|] eqn:Ek; [|apply py_index_None in Ek; lia].
  destruct (Reqb_spec (vnorm v0) 0) as [H|H]; [now apply nan_positions|].
  exfalso. apply H. unfold vnorm. replace (vnorm2 v0) with 0 by (vunf; ring). apply sqrt_0.
Qed.
