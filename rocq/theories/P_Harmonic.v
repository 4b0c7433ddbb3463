(** Orthogonality of sampled vibrations. *)
From Coq Require Import ZArith Reals Lra Lia Psatz Bool Arith List.
From Verif Require Import Base LinAlg S_Spectrum.
Import ListNotations.
Local Open Scope R_scope.

Lemma sum_n_ext f g n : (forall j, (j < n)%nat -> f j = g j) -> sum_n f n = sum_n g n.
Proof. induction n; intros H; simpl; auto. rewrite IHn, H; auto; intros; apply H; lia. Qed.
Lemma sum_n_plus f g n : sum_n (fun j => f j + g j) n = sum_n f n + sum_n g n.
Proof. induction n; simpl; [ring|rewrite IHn; ring]. Qed.
Lemma sum_n_scal c f n : sum_n (fun j => c * f j) n = c * sum_n f n.
Proof. induction n; simpl; [ring|rewrite IHn; ring]. Qed.
Lemma sum_n_const c n : sum_n (fun _ => c) n = INR n * c.
Proof. induction n; [simpl; ring|]. cbn [sum_n]. rewrite IHn, S_INR. ring. Qed.

Lemma telescope x ph n : 2 * sin (x / 2) * sum_n (fun j => cos (x * INR j + ph)) n = sin (x * INR n - x / 2 + ph) - sin (ph - x / 2).
Proof.
  induction n.
  - simpl. replace (x * 0 - x / 2 + ph) with (ph - x / 2) by ring. ring.
  - cbn [sum_n]. rewrite Rmult_plus_distr_l, IHn, S_INR.
    replace (x * (INR n + 1) - x / 2 + ph) with ((x * INR n + ph) + x / 2) by field.
    replace (x * INR n - x / 2 + ph) with ((x * INR n + ph) - x / 2) by ring.
    rewrite sin_plus, sin_minus. ring.
Qed.

Lemma csum n a ph : (0 < a < n)%nat -> sum_n (fun j => cos (2 * PI * INR a / INR n * INR j + ph)) n = 0.
Proof.
  intros H. assert (N : 0 < INR n) by (apply lt_0_INR; lia). assert (A : 0 < INR a) by (apply lt_0_INR; lia).
  assert (AN : INR a < INR n) by (apply lt_INR; lia). pose proof PI_RGT_0 as PP.
  pose proof (telescope (2 * PI * INR a / INR n) ph n) as T.
  replace (2 * PI * INR a / INR n * INR n - 2 * PI * INR a / INR n / 2 + ph) with ((ph - 2 * PI * INR a / INR n / 2) + 2 * INR a * PI) in T by (field; lra).
  rewrite sin_period in T. assert (S : 0 < sin (2 * PI * INR a / INR n / 2)).
  { replace (2 * PI * INR a / INR n / 2) with (PI * (INR a / INR n)) by (field; lra).
    assert (Q : 0 < INR a / INR n) by (apply Rdiv_lt_0_compat; auto).
    assert (Q1 : INR a / INR n < 1) by (apply Rmult_lt_reg_r with (INR n); auto; unfold Rdiv; rewrite Rmult_assoc, Rinv_l by lra; lra).
    apply sin_gt_0; nra. }
  nra.
Qed.

Lemma csum_neg n a ph : (0 < a < n)%nat -> sum_n (fun j => cos (- (2 * PI * INR a / INR n) * INR j + ph)) n = 0.
Proof.
  intros H. rewrite <- (csum n a (- ph) H). apply sum_n_ext. intros j _. rewrite <- cos_neg. f_equal. ring.
Qed.

(** Products of resolved vibrations *)
Lemma prod_sum n p q al be : (0 < p)%nat -> (0 < q)%nat -> (2 * p < n)%nat -> (2 * q < n)%nat ->
  sum_n (fun j => sin (2 * PI * INR p / INR n * INR j + al) * sin (2 * PI * INR q / INR n * INR j + be)) n
  = if Nat.eqb p q then INR n / 2 * cos (al - be) else 0.
Proof.
  intros P Q P2 Q2. assert (N : 0 < INR n) by (apply lt_0_INR; lia).
  rewrite (sum_n_ext _ (fun j => / 2 * cos ((2 * PI * INR p / INR n - 2 * PI * INR q / INR n) * INR j + (al - be))
    + - / 2 * cos (2 * PI * INR (p + q) / INR n * INR j + (al + be)))).
  2: { intros j _. rewrite plus_INR.
    replace ((2 * PI * INR p / INR n - 2 * PI * INR q / INR n) * INR j + (al - be))
      with ((2 * PI * INR p / INR n * INR j + al) - (2 * PI * INR q / INR n * INR j + be)) by ring.
    replace (2 * PI * (INR p + INR q) / INR n * INR j + (al + be))
      with ((2 * PI * INR p / INR n * INR j + al) + (2 * PI * INR q / INR n * INR j + be)) by (field; lra).
    generalize (2 * PI * INR p / INR n * INR j + al). generalize (2 * PI * INR q / INR n * INR j + be). intros y x.
    rewrite cos_minus, cos_plus. lra. }
  rewrite sum_n_plus, !sum_n_scal, csum by lia.
  destruct (Nat.eqb_spec p q) as [<-|D].
  - rewrite (sum_n_ext _ (fun _ => cos (al - be))); [rewrite sum_n_const; lra|].
    intros j _. f_equal. ring.
  - destruct (Nat.lt_ge_cases q p).
    + rewrite (sum_n_ext _ (fun j => cos (2 * PI * INR (p - q) / INR n * INR j + (al - be)))).
      * rewrite csum by lia. ring.
      * intros j _. rewrite minus_INR by lia. f_equal. field. lra.
    + rewrite (sum_n_ext _ (fun j => cos (- (2 * PI * INR (q - p) / INR n) * INR j + (al - be)))).
      * rewrite csum_neg by lia. ring.
      * intros j _. rewrite minus_INR by lia. f_equal. field. lra.
Qed.

(** * A superposition of vibrations, one coordinate *)
(** Change of a vibration during step [j] *)
Definition tone (n : nat) (v : nat * R) (j : nat) : R :=
  cos (2 * PI * INR (fst v) * INR (S j) / INR n + snd v) - cos (2 * PI * INR (fst v) * INR j / INR n + snd v).
Definition gain (n p : nat) : R := -2 * sin (PI * INR p / INR n).
Lemma tone_sin n v j : (0 < n)%nat ->
  tone n v j = gain n (fst v) * sin (2 * PI * INR (fst v) / INR n * INR j + (PI * INR (fst v) / INR n + snd v)).
Proof.
  intros Hn. assert (N : 0 < INR n) by (apply lt_0_INR; lia). unfold tone, gain. rewrite S_INR.
  replace (2 * PI * INR (fst v) * (INR j + 1) / INR n + snd v)
    with ((2 * PI * INR (fst v) / INR n * INR j + (PI * INR (fst v) / INR n + snd v)) + PI * INR (fst v) / INR n) by (field; lra).
  replace (2 * PI * INR (fst v) * INR j / INR n + snd v)
    with ((2 * PI * INR (fst v) / INR n * INR j + (PI * INR (fst v) / INR n + snd v)) - PI * INR (fst v) / INR n) by (field; lra).
  rewrite cos_plus, cos_minus. ring.
Qed.

Section superposition.
Variable n : nat.
Definition ok (v : nat * R) : Prop := (0 < fst v /\ 2 * fst v < n)%nat.
Definition mix (bs : list (R * (nat * R))) (j : nat) : R := rsum (map (fun bv => fst bv * tone n (snd bv) j) bs).

Lemma tone_tone v w : ok v -> ok w ->
  sum_n (fun j => tone n v j * tone n w j) n =
  if Nat.eqb (fst v) (fst w) then gain n (fst v) ^ 2 * (INR n / 2) * cos (snd v - snd w) else 0.
Proof.
  intros [A B] [C D]. rewrite (sum_n_ext _ (fun j => (gain n (fst v) * gain n (fst w)) *
     (sin (2 * PI * INR (fst v) / INR n * INR j + (PI * INR (fst v) / INR n + snd v)) *
      sin (2 * PI * INR (fst w) / INR n * INR j + (PI * INR (fst w) / INR n + snd w))))).
  2: { intros j _. rewrite !tone_sin by lia. ring. }
  rewrite sum_n_scal, prod_sum by lia.
  destruct (Nat.eqb_spec (fst v) (fst w)) as [<-|E]; [|ring].
  replace (PI * INR (fst v) / INR n + snd v - (PI * INR (fst v) / INR n + snd w)) with (snd v - snd w) by ring. ring.
Qed.

Lemma tone_cos v k : ok v -> (0 < k)%nat -> (2 * k < n)%nat ->
  sum_n (fun j => tone n v j * cos (2 * PI * INR k / INR n * INR j)) n =
  if Nat.eqb (fst v) k then gain n k * (INR n / 2) * sin (PI * INR k / INR n + snd v) else 0.
Proof.
  intros [A B] C D. rewrite (sum_n_ext _ (fun j => gain n (fst v) *
     (sin (2 * PI * INR (fst v) / INR n * INR j + (PI * INR (fst v) / INR n + snd v)) *
      sin (2 * PI * INR k / INR n * INR j + PI / 2)))).
  2: { intros j _. rewrite tone_sin by lia. rewrite (Rplus_comm _ (PI / 2)), <- cos_sin. ring. }
  rewrite sum_n_scal, prod_sum by lia. destruct (Nat.eqb_spec (fst v) k) as [<-|E]; [|ring].
  rewrite cos_minus, sin_PI2, cos_PI2. ring.
Qed.

Lemma tone_sine v k : ok v -> (0 < k)%nat -> (2 * k < n)%nat ->
  sum_n (fun j => tone n v j * sin (2 * PI * INR k / INR n * INR j)) n =
  if Nat.eqb (fst v) k then gain n k * (INR n / 2) * cos (PI * INR k / INR n + snd v) else 0.
Proof.
  intros [A B] C D. rewrite (sum_n_ext _ (fun j => gain n (fst v) *
     (sin (2 * PI * INR (fst v) / INR n * INR j + (PI * INR (fst v) / INR n + snd v)) *
      sin (2 * PI * INR k / INR n * INR j + 0)))).
  2: { intros j _. rewrite tone_sin by lia. rewrite Rplus_0_r. ring. }
  rewrite sum_n_scal, prod_sum by lia. destruct (Nat.eqb_spec (fst v) k) as [<-|E]; [|ring].
  rewrite Rminus_0_r. ring.
Qed.

Lemma mix_with bs g : sum_n (fun j => mix bs j * g j) n = rsum (map (fun bv => fst bv * sum_n (fun j => tone n (snd bv) j * g j) n) bs).
Proof.
  induction bs as [|bv bs IH]; unfold mix; cbn [map rsum fold_right].
  - rewrite (sum_n_ext _ (fun _ => 0)) by (intros; ring). rewrite sum_n_const. ring.
  - change (rsum (map (fun bv => fst bv * sum_n (fun j => tone n (snd bv) j * g j) n) bs)) with
      (rsum (map (fun bv => fst bv * sum_n (fun j => tone n (snd bv) j * g j) n) bs)).
    unfold mix in IH. rewrite (sum_n_ext _ (fun j => fst bv * (tone n (snd bv) j * g j) + rsum (map (fun bv => fst bv * tone n (snd bv) j) bs) * g j)).
    + rewrite sum_n_plus, sum_n_scal, IH. reflexivity.
    + intros j _. unfold rsum. ring.
Qed.

Lemma pick_none (h : R * (nat * R) -> R) bs p : Forall (fun bv => fst (snd bv) <> p) bs ->
  rsum (map (fun bv => fst bv * (if Nat.eqb (fst (snd bv)) p then h bv else 0)) bs) = 0.
Proof.
  induction 1 as [|bv bs Hp Hbs IH]; cbn [map]; auto. unfold rsum in *. cbn [fold_right].
  destruct (Nat.eqb_spec (fst (snd bv)) p); [congruence|]. rewrite IH. ring.
Qed.

Lemma mix_energy bs : Forall (fun bv => ok (snd bv)) bs -> NoDup (map (fun bv => fst (snd bv)) bs) ->
  sum_n (fun j => mix bs j ^ 2) n = rsum (map (fun bv => fst bv ^ 2 * (gain n (fst (snd bv)) ^ 2 * (INR n / 2))) bs).
Proof.
  induction 1 as [|bv bs Hp Hbs IH]; intros ND.
  - unfold mix, rsum. cbn [map fold_right]. rewrite (sum_n_ext _ (fun _ => 0)) by (intros; ring). rewrite sum_n_const. ring.
  - cbn [map] in ND. inversion ND as [|? ? NI ND']; subst. specialize (IH ND').
    rewrite (sum_n_ext _ (fun j => (fst bv ^ 2 * (tone n (snd bv) j * tone n (snd bv) j) + 2 * fst bv * (mix bs j * tone n (snd bv) j)) + mix bs j ^ 2)).
    2: { intros j _. unfold mix, rsum. cbn [map fold_right]. ring. }
    rewrite !sum_n_plus, !sum_n_scal, IH, mix_with, tone_tone, Nat.eqb_refl by auto.
    replace (rsum (map (fun bv0 => fst bv0 * sum_n (fun j => tone n (snd bv0) j * tone n (snd bv) j) n) bs)) with 0.
    + replace (snd (snd bv) - snd (snd bv)) with 0 by ring. rewrite cos_0. unfold rsum. cbn [map fold_right]. ring.
    + symmetry. rewrite (map_ext_in _ (fun bv0 => fst bv0 * (if Nat.eqb (fst (snd bv0)) (fst (snd bv))
         then gain n (fst (snd bv0)) ^ 2 * (INR n / 2) * cos (snd (snd bv0) - snd (snd bv)) else 0))).
      * apply (pick_none (fun bv0 => gain n (fst (snd bv0)) ^ 2 * (INR n / 2) * cos (snd (snd bv0) - snd (snd bv)))).
        apply Forall_forall. intros x Hx E. apply NI. rewrite <- E. apply (in_map (fun bv => fst (snd bv))). auto.
      * intros x Hx. rewrite Forall_forall in Hbs. rewrite tone_tone; auto.
Qed.

Lemma pick_square bs k (c s : R * (nat * R) -> R) : NoDup (map (fun bv => fst (snd bv)) bs) ->
  (forall bv, In bv bs -> fst (snd bv) = k -> c bv ^ 2 + s bv ^ 2 = 1) ->
  rsum (map (fun bv => fst bv * (if Nat.eqb (fst (snd bv)) k then c bv else 0)) bs) ^ 2 +
  rsum (map (fun bv => fst bv * (if Nat.eqb (fst (snd bv)) k then s bv else 0)) bs) ^ 2 =
  rsum (map (fun bv => fst bv ^ 2 * (if Nat.eqb (fst (snd bv)) k then 1 else 0)) bs).
Proof.
  induction bs as [|bv bs IH]; intros ND H.
  - unfold rsum. cbn [map fold_right]. ring.
  - cbn [map] in *. inversion ND as [|? ? NI ND']; subst.
    assert (IH' := IH ND' (fun x Hx => H x (or_intror Hx))). clear IH.
    change (fold_right Rplus 0) with rsum in *.
    unfold rsum. cbn [fold_right]. fold (rsum (map (fun bv0 => fst bv0 * (if Nat.eqb (fst (snd bv0)) k then c bv0 else 0)) bs))
      (rsum (map (fun bv0 => fst bv0 * (if Nat.eqb (fst (snd bv0)) k then s bv0 else 0)) bs))
      (rsum (map (fun bv0 => fst bv0 ^ 2 * (if Nat.eqb (fst (snd bv0)) k then 1 else 0)) bs)).
    destruct (Nat.eqb_spec (fst (snd bv)) k) as [E|E].
    + assert (F : Forall (fun bv0 : R * (nat * R) => fst (snd bv0) <> k) bs).
      { apply Forall_forall. intros x Hx Ex. apply NI. rewrite E, <- Ex. apply (in_map (fun bv => fst (snd bv))). auto. }
      rewrite (pick_none c), (pick_none s) in * by auto. rewrite <- IH'. rewrite <- (H bv (or_introl eq_refl) E). ring.
    + rewrite <- IH'. ring.
Qed.

Lemma mix_power bs k : Forall (fun bv => ok (snd bv)) bs -> NoDup (map (fun bv => fst (snd bv)) bs) ->
  (0 < k)%nat -> (2 * k < n)%nat ->
  (sum_n (fun j => mix bs j ^ 2) n + sum_n (fun j => mix bs j * cos (2 * PI * INR k / INR n * INR j)) n ^ 2
    + sum_n (fun j => mix bs j * sin (2 * PI * INR k / INR n * INR j)) n ^ 2) / 2
  = rsum (map (fun bv => fst bv ^ 2 * (2 * sin (PI * INR (fst (snd bv)) / INR n) ^ 2 *
       (INR n / 2 + if Nat.eqb (fst (snd bv)) k then INR n ^ 2 / 4 else 0))) bs).
Proof.
  intros F ND K1 K2. rewrite mix_energy by auto. rewrite !mix_with.
  rewrite (map_ext_in (fun bv => fst bv * sum_n (fun j => tone n (snd bv) j * cos (2 * PI * INR k / INR n * INR j)) n)
    (fun bv => fst bv * (if Nat.eqb (fst (snd bv)) k then gain n k * (INR n / 2) * sin (PI * INR k / INR n + snd (snd bv)) else 0))).
  2: { intros x Hx. rewrite Forall_forall in F. rewrite tone_cos; auto. }
  rewrite (map_ext_in (fun bv => fst bv * sum_n (fun j => tone n (snd bv) j * sin (2 * PI * INR k / INR n * INR j)) n)
    (fun bv => fst bv * (if Nat.eqb (fst (snd bv)) k then gain n k * (INR n / 2) * cos (PI * INR k / INR n + snd (snd bv)) else 0))).
  2: { intros x Hx. rewrite Forall_forall in F. rewrite tone_sine; auto. }
  assert (SC : forall (g : R * (nat * R) -> R) l, rsum (map (fun bv => fst bv * (if Nat.eqb (fst (snd bv)) k then gain n k * (INR n / 2) * g bv else 0)) l)
     = gain n k * (INR n / 2) * rsum (map (fun bv => fst bv * (if Nat.eqb (fst (snd bv)) k then g bv else 0)) l)).
  { intros g l. unfold rsum. induction l as [|x l IH]; cbn [map fold_right]; [ring|]. rewrite IH. destruct (Nat.eqb _ _); ring. }
  rewrite (SC (fun bv => sin (PI * INR k / INR n + snd (snd bv)))), (SC (fun bv => cos (PI * INR k / INR n + snd (snd bv)))).
  rewrite !Rpow_mult_distr. 
  set (G := gain n k ^ 2 * (INR n / 2) ^ 2).
  assert (PS := pick_square bs k (fun bv => sin (PI * INR k / INR n + snd (snd bv))) (fun bv => cos (PI * INR k / INR n + snd (snd bv))) ND).
  match type of PS with (?X -> _) => assert (Q : X) end.
  { intros bv _ _. pose proof (sin2_cos2 (PI * INR k / INR n + snd (snd bv))) as T. unfold Rsqr in T. lra. }
  specialize (PS Q). 
  match goal with |- (?E + G * ?A + G * ?B) / 2 = _ => replace ((E + G * A + G * B) / 2) with ((E + G * (A + B)) / 2) by field end.
  rewrite PS. unfold G. clear. unfold rsum.
  induction bs as [|x l IH]; cbn [map fold_right]; [field|].
  match goal with |- (?a + ?E + ?g * (?b + ?P)) / 2 = ?c + ?X => replace ((a + E + g * (b + P)) / 2) with ((a + g * b) / 2 + (E + g * P) / 2) by field end.
  rewrite IH. f_equal. unfold gain. destruct (Nat.eqb_spec (fst (snd x)) k) as [->|]; field.
Qed.
End superposition.
