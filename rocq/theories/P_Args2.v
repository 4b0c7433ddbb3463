(** Proofs about the checking of arguments, continued: C98 *)
From Coq Require Import String ZArith NArith Reals Lra Lia Bool Arith List.
From Verif Require Import Base LinAlg Constants M_Validate M_Text M_Poscar M_Outcar M_Repr M_Args S_Args P_Text P_Repr P_Args.
Import ListNotations.
Local Open Scope nat_scope.

(** *** What the texts tell *)
Definition word_char (c : N) : bool := isdig c || (c =? 95)%N.
Lemma dim_chars mt d : d <> SMethod -> Forall (fun c => word_char c = true) (dim_text mt d) /\ dim_text mt d <> [].
Proof.
  destruct d; intros H; cbn [dim_text]; [|split|congruence].
  - split; [repeat constructor|discriminate].
  - eapply Forall_impl; [|apply str_nat_digits]. cbn. intros c E. unfold word_char. now rewrite E.
  - apply str_int_nonnil.
Qed.
Lemma dim_inj mt d d' : d <> SMethod -> d' <> SMethod -> dim_text mt d = dim_text mt d' -> d = d'.
Proof.
  destruct d, d'; intros H H' E; try congruence; cbn [dim_text] in E.
  - exfalso. pose proof (str_nat_digits n) as F. rewrite <- E in F. inversion F as [|? ? K]. discriminate K.
  - exfalso. pose proof (str_nat_digits n) as F. rewrite E in F. inversion F as [|? ? K]. discriminate K.
  - f_equal. now apply str_nat_inj.
Qed.
Lemma stop_split (P : N -> bool) d1 : forall d2 c1 c2 r1 r2, Forall (fun c => P c = true) d1 -> Forall (fun c => P c = true) d2 -> P c1 = false -> P c2 = false ->
  (d1 ++ c1 :: r1 = d2 ++ c2 :: r2)%list -> d1 = d2 /\ c1 = c2 /\ r1 = r2.
Proof.
  induction d1 as [|x d1 IH]; intros [|y d2] c1 c2 r1 r2 H1 H2 K1 K2 E; cbn [app] in E.
  - injection E as -> ->. auto.
  - injection E as -> E. inversion H2; congruence.
  - injection E as -> E. inversion H1; congruence.
  - injection E as -> E. inversion H1; inversion H2; subst. destruct (IH d2 c1 c2 r1 r2) as (-> & -> & ->); auto.
Qed.
(** a shape after its opening bracket *)
Definition body (mt : text) (l : list sdim) (rest : text) : text :=
  match l with [x] => dim_text mt x ++ 44%N :: 41%N :: rest | _ => commas (map (dim_text mt) l) ++ 41%N :: rest end.
Lemma commas_inj mt r r' l : forall l', plain l -> plain l' -> l <> [] -> l' <> [] ->
  (commas (map (dim_text mt) l) ++ 41%N :: r = commas (map (dim_text mt) l') ++ 41%N :: r')%list -> l = l' /\ r = r'.
Proof.
  induction l as [|x l IH]; intros [|y l'] P P' N N' E; try congruence.
  assert (X : x <> SMethod) by (intros ->; apply P; now left). assert (Y : y <> SMethod) by (intros ->; apply P'; now left).
  assert (PL : plain l) by (intros K; apply P; now right). assert (PL' : plain l') by (intros K; apply P'; now right).
  destruct (dim_chars mt x X) as (FX & _), (dim_chars mt y Y) as (FY & _).
  destruct l as [|x2 l], l' as [|y2 l'].
  - cbn [map commas] in E. apply (stop_split word_char) in E as (E & _ & ->); auto. apply dim_inj in E; auto. subst. auto.
  - cbn [map commas] in E. rewrite <- app_assoc in E. change (txt "," ++ ?t)%list with (44%N :: t) in E. apply (stop_split word_char) in E as (_ & E & _); auto. discriminate.
  - cbn [map commas] in E. rewrite <- app_assoc in E. change (txt "," ++ ?t)%list with (44%N :: t) in E. apply (stop_split word_char) in E as (_ & E & _); auto. discriminate.
  - change (commas (map (dim_text mt) (x :: x2 :: l))) with (dim_text mt x ++ txt "," ++ commas (map (dim_text mt) (x2 :: l)))%list in E.
    change (commas (map (dim_text mt) (y :: y2 :: l'))) with (dim_text mt y ++ txt "," ++ commas (map (dim_text mt) (y2 :: l')))%list in E.
    rewrite <- !app_assoc in E. change (txt "," ++ ?t)%list with (44%N :: t) in E. apply (stop_split word_char) in E as (E & _ & E2); auto. apply dim_inj in E; auto. subst y.
    destruct (IH (y2 :: l')) as (E & ->); auto; try discriminate. rewrite E. auto.
Qed.
Lemma round_inj mt l l' r r' : plain l -> plain l' -> (round_text mt l ++ r = round_text mt l' ++ r')%list -> l = l' /\ r = r'.
Proof.
  intros P P'. unfold round_text, tuple_text. change (txt "(") with [40%N]. change (txt ")") with [41%N]. change (txt ",") with [44%N].
  destruct l as [|x [|x2 l]], l' as [|y [|y2 l']]; try (cbn [app]; intros E; discriminate E).
  - cbn [app]. intros E. injection E as ->. auto.
  - cbn [app]. intros E. injection E as E. rewrite <- !app_assoc in E. cbn [app] in E.
    assert (X : x <> SMethod) by (intros ->; apply P; now left). assert (Y : y <> SMethod) by (intros ->; apply P'; now left).
    destruct (dim_chars mt x X) as (FX & _), (dim_chars mt y Y) as (FY & _).
    apply (stop_split word_char) in E as (E & _ & E2); auto. injection E2 as ->. apply dim_inj in E; auto. subst. auto.
  - cbn [app]. intros E. injection E as E. rewrite <- !app_assoc in E. cbn [app] in E. exfalso.
    assert (X : x <> SMethod) by (intros ->; apply P; now left). assert (Y : y <> SMethod) by (intros ->; apply P'; now left).
    destruct (dim_chars mt x X) as (FX & _), (dim_chars mt y Y) as (FY & _).
    apply (stop_split word_char) in E as (E & _ & E2); auto.
    assert (Y2 : y2 <> SMethod) by (intros ->; apply P'; right; now left). destruct (dim_chars mt y2 Y2) as (FY2 & NY2).
    destruct (dim_text mt y2) as [|c t] eqn:D; [congruence|]. inversion FY2 as [|? ? K]; subst. destruct l'; cbn in E2; injection E2 as <- _; discriminate K.
  - cbn [app]. intros E. injection E as E. rewrite <- !app_assoc in E. cbn [app] in E. exfalso.
    assert (X : x <> SMethod) by (intros ->; apply P; now left). assert (Y : y <> SMethod) by (intros ->; apply P'; now left).
    destruct (dim_chars mt x X) as (FX & _), (dim_chars mt y Y) as (FY & _).
    apply (stop_split word_char) in E as (E & _ & E2); auto.
    assert (X2 : x2 <> SMethod) by (intros ->; apply P; right; now left). destruct (dim_chars mt x2 X2) as (FX2 & NX2).
    destruct (dim_text mt x2) as [|c t] eqn:D; [congruence|]. inversion FX2 as [|? ? K]; subst. destruct l; cbn in E2; injection E2 as -> _; discriminate K.
  - intros E. rewrite <- !app_assoc in E. apply app_inv_head in E. cbn [app] in E. apply commas_inj in E; auto; discriminate.
Qed.
Lemma words_split n n' r r' : one_word n -> one_word n' -> (n ++ 32%N :: r = n' ++ 32%N :: r')%list -> n = n' /\ r = r'.
Proof.
  intros W W' E. assert (K : forall t, one_word t -> Forall (fun c => negb (c =? 32)%N = true) t).
  { intros t H. apply Forall_forall. intros c I. apply negb_true_iff, N.eqb_neq. intros ->. now apply H. }
  apply (stop_split (fun c => negb (c =? 32)%N)) in E as (-> & _ & ->); auto.
Qed.
Lemma plain_dims l : plain (map SDim l).
Proof. intros H. apply in_map_iff in H as (x & H & _). discriminate. Qed.
Lemma map_sdim_inj l : forall l', map SDim l = map SDim l' -> l = l'.
Proof. induction l as [|x l IH]; intros [|y l'] E; try discriminate; auto. cbn in E. injection E as -> E. f_equal. auto. Qed.
Lemma f_C98_shape_told mt n n' f f' s s' : one_word n -> one_word n' -> plain s -> plain s' ->
  about_shape mt n f s = about_shape mt n' f' s' -> n = n' /\ f = f' /\ s = s'.
Proof.
  intros W W' P P' E. unfold about_shape in E. change (txt " has wrong shape: ") with (32%N :: txt "has wrong shape: ") in E. cbn [app] in E.
  apply words_split in E as (-> & E); auto. apply app_inv_head in E. apply round_inj in E as (F & E); auto using plain_dims.
  apply map_sdim_inj in F as ->. apply app_inv_head in E. rewrite <- (app_nil_r (round_text mt s)), <- (app_nil_r (round_text mt s')) in E. apply round_inj in E as (-> & _); auto.
Qed.
Lemma f_C98_type_told n n' x x' v v' : one_word n -> one_word n' -> ~ In 44%N x -> ~ In 44%N x' ->
  about_type n x v = about_type n' x' v' -> n = n' /\ x = x' /\ type_name v = type_name v'.
Proof.
  intros W W' P P' E. unfold about_type in E. change (txt " should have type ") with (32%N :: txt "should have type ") in E. cbn [app] in E.
  apply words_split in E as (-> & E); auto. apply app_inv_head in E.
  assert (K : forall t, ~ In 44%N t -> Forall (fun c => negb (c =? 44)%N = true) t).
  { intros t H. apply Forall_forall. intros c I. apply negb_true_iff, N.eqb_neq. intros ->. now apply H. }
  change (txt ", not ") with (44%N :: txt " not ") in E. cbn [app] in E.
  apply (stop_split (fun c => negb (c =? 44)%N)) in E as (-> & _ & E); auto. apply app_inv_head in E. auto.
Qed.
Lemma f_C98_length_untold : exists name v n n', n <> n' /\
  exists m, verify_list name v (Some n) = Raise ValueError m /\ verify_list name v (Some n') = Raise ValueError m.
Proof. exists (txt "filepaths"), (VList []), 1, 2. split; [lia|]. eexists. split; reflexivity. Qed.
Lemma f_C98_scalar mt data : exists m, verify_shape mt (txt "lattice") (VArray [] data) [SDim 3; SDim 3] = Raise ValueError m /\
  m = txt "lattice has wrong shape: ) != (3,3)".
Proof. eexists. split; reflexivity. Qed.

(** *** Wrong names *)
Lemma raise_eq {A} e m e' m' : Raise (A := A) e m = Raise e' m' -> m = m'.
Proof. intros H. injection H. auto. Qed.
Definition mat33 : pyval := np_zeros [3; 3].
Definition none : pyval := VOther (txt "NoneType").
Lemma met33 name : met (Arg name mat33 (HasShape [SDim 3; SDim 3])).
Proof. exists [3; 3]. split; [eexists; left; reflexivity|repeat constructor]. Qed.
Lemma unmet_none name spec : ~ met (Arg name none (HasShape spec)).
Proof. intros (d & (x & [E|E]) & _); discriminate. Qed.
Lemma f_C98_scale_refuted mt : ~ (forall m s,
  reported mt [Arg (txt "mean") m (HasShape [SDim 3; SDim 3]); Arg (txt "stddev") s (HasShape [SDim 3; SDim 3])] (scale_checks mt m s)).
Proof.
  intros H. specialize (H mat33 none). pose proof (f_C98_unique mt _ (scale_checks mt mat33 none) (Raise TypeError (about_type (txt "stddev") (txt "ndarray") none)) H) as E.
  lapply E; [intros K; apply raise_eq in K; vm_compute in K; discriminate K|].
  apply (first_unmet mt [Arg (txt "mean") mat33 (HasShape [SDim 3; SDim 3])]); [repeat constructor; apply met33|apply unmet_none|].
  left. split; [|auto]. intros d (x & [E'|E']); discriminate.
Qed.

(** *** Trajectories *)
Lemma num_le0_spec x : num_le0 x = true <-> not_positive x.
Proof. destruct x as [r|[]|]; cbn; [|tauto|split; discriminate|split; [discriminate|tauto]]. unfold Rleb. destruct (Rle_dec r 0); split; intros; auto; try discriminate; contradiction. Qed.
Lemma to_float_spec bad fl v x : to_float bad fl v = Done x <-> stands_for fl v x.
Proof.
  split.
  - unfold stands_for. destruct v as [t y|s|l|d [|y [|]]|d [|y [|]]|t]; cbn [to_float]; intros H; try discriminate.
    + injection H as ->. eauto.
    + destruct (float_of fl s) eqn:E; [|discriminate]. injection H as ->. right. left. eauto.
    + injection H as ->. right. right. eauto.
    + injection H as ->. right. right. eauto.
  - intros [(t & ->)|[(s & -> & E)|(d & [-> | ->])]]; cbn [to_float]; [reflexivity|now rewrite E|reflexivity|reflexivity].
Qed.
Lemma f_C98_trajectory mt bad fl p t x : trajectory_checks mt bad fl p t = Done x <->
  meets p (HasShape [SAny; SAny; SDim 3]) /\ stands_for fl t x /\ ~ not_positive x.
Proof.
  unfold trajectory_checks. destruct (verify_shape_cases mt (txt "positions_ts") p [SAny; SAny; SDim 3]) as [(M & ->)|(N & e & m & C & ->)]; cbn [obind]; [|split; [discriminate|tauto]].
  rewrite <- (to_float_spec bad). destruct (to_float bad fl t) as [y|e m].
  - cbn [obind]. destruct (num_le0 y) eqn:E.
    + apply num_le0_spec in E. split; [discriminate|]. intros (_ & K & L). injection K as ->. contradiction.
    + split; [intros K; injection K as ->|intros (_ & K & _); injection K as ->; reflexivity]. split; [exact M|split; [reflexivity|]]. intros K. apply num_le0_spec in K. congruence.
  - split; [|intros (_ & K & _); discriminate]. destruct e; discriminate.
Qed.
Lemma f_C98_trajectory_errors mt bad fl p t :
  (forall e m, complaint mt (Arg (txt "positions_ts") p (HasShape [SAny; SAny; SDim 3])) e m -> ~ meets p (HasShape [SAny; SAny; SDim 3]) -> trajectory_checks mt bad fl p t = Raise e m) /\
  (meets p (HasShape [SAny; SAny; SDim 3]) -> (forall x, ~ stands_for fl t x) -> (forall s, t <> VStr s) ->
     trajectory_checks mt bad fl p t = Raise TypeError (about_type (txt "timestep") (txt "float") t)) /\
  (meets p (HasShape [SAny; SAny; SDim 3]) -> (exists x, stands_for fl t x /\ not_positive x) ->
     trajectory_checks mt bad fl p t = Raise ValueError (txt "timestep must be positive")).
Proof.
  unfold trajectory_checks. destruct (verify_shape_cases mt (txt "positions_ts") p [SAny; SAny; SDim 3]) as [(M & ->)|(N & e & m & C & ->)]; cbn [obind].
  - split; [tauto|]. split.
    + intros _ F S. assert (E : to_float bad fl t = Raise TypeError []).
      { destruct t as [ty y|s|l|d [|y [|]]|d [|y [|]]|ty]; cbn [to_float]; try reflexivity; exfalso.
        - apply (F y). left. eauto.
        - now apply (S s).
        - apply (F y). right. right. eauto.
        - apply (F y). right. right. eauto. }
      rewrite E. reflexivity.
    + intros _ (x & S & P). apply (to_float_spec bad) in S. rewrite S. cbn [obind]. apply num_le0_spec in P. now rewrite P.
  - split; [|split; tauto]. intros e' m' C' _. destruct (complaint_unique mt _ _ _ _ _ C C') as (-> & ->). reflexivity.
Qed.
