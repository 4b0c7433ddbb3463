(** The constructors of M_Alias accept exactly arrays of matching shapes (C74) *)
From Coq Require Import ZArith Reals Bool List Lia.
From Verif Require Import Base LinAlg M_Validate M_Alias S_Accept.
Import ListNotations.

Lemma vs_ok dims spec : verify_ndarray_shape dims spec = Ok tt <-> Forall2 (fun o d => match o with None => True | Some n => d = n end) spec dims.
Proof.
  unfold verify_ndarray_shape. revert dims. induction spec as [|o spec IH]; intros [|d dims]; cbn [length Nat.eqb negb].
  - cbn. split; [constructor|reflexivity].
  - split; [discriminate|intros H; inversion H].
  - split; [discriminate|intros H; inversion H].
  - specialize (IH dims). cbn [dims_match].
    destruct (Nat.eqb (length spec) (length dims)) eqn:E; cbn [negb] in *.
    + destruct o as [n|].
      * destruct (Nat.eqb_spec d n) as [->|N].
        -- rewrite IH. split; [intros H; now constructor|intros H; now inversion H].
        -- split; [discriminate|]. intros H. inversion H. now subst.
      * rewrite IH. split; [intros H; now constructor|intros H; now inversion H].
    + split; [discriminate|]. intros H. inversion H as [|? ? ? ? _ H']. subst. apply IH in H'. discriminate.
Qed.


Lemma arr_at_ok s i a : arr_at s i = Ok a <-> holds_arr s i a.
Proof.
  unfold arr_at, holds_arr. destruct (nth_error (st_held s) i) as [[[?|?] g]|]; split.
  1,3,5: intros H; try discriminate; injection H as ->; now exists g.
  all: intros [g' H]; try discriminate; now injection H as -> _.
Qed.
Lemma lst_at_ok s i b : lst_at s i = Ok b <-> holds_lst s i b.
Proof.
  unfold lst_at, holds_lst. destruct (nth_error (st_held s) i) as [[[?|?] g]|]; split.
  1,3,5: intros H; try discriminate; injection H as ->; now exists g.
  all: intros [g' H]; try discriminate; now injection H as -> _.
Qed.
Lemma makes_ok r : (exists e, makes r = Ok e) <-> exists x, r = Ok x.
Proof.
  unfold makes. destruct r as [x|e]; cbn [rbind]; split; intros [y H]; try discriminate; eauto.
Qed.
Lemma bind_ok {A B} (r : res A) (f : A -> res B) : (exists e, rbind r f = Ok e) <-> exists a, r = Ok a /\ exists e, f a = Ok e.
Proof.
  destruct r as [a|x]; cbn [rbind]; split.
  - intros H. now exists a.
  - intros (b & H & H'). now injection H as ->.
  - intros [? H]; discriminate.
  - intros (? & H & _); discriminate.
Qed.
Lemma unit_ok (r : res unit) (P : Prop) : (exists a, r = Ok a /\ P) <-> r = Ok tt /\ P.
Proof. split; [intros ([] & H); exact H|intros H; now exists tt]. Qed.

Ltac f2 := repeat match goal with H : Forall2 _ (_ :: _) ?x |- _ => inversion H; clear H; subst | H : Forall2 _ [] ?x |- _ => inversion H; clear H; subst end.

Lemma f_acceptable k s o : constructs o -> (exists e, perform k s o = Ok e) <-> acceptable k s o.
Proof.
  intros C. destruct o; try contradiction; cbn [perform acceptable].
  - (* MakeStruct *)
    rewrite bind_ok. setoid_rewrite bind_ok. setoid_rewrite bind_ok. setoid_rewrite makes_ok. unfold make_struct.
    cbn [verify_list_len rbind].
    setoid_rewrite bind_ok. setoid_rewrite unit_ok. setoid_rewrite bind_ok. setoid_rewrite unit_ok.
    setoid_rewrite vs_ok. setoid_rewrite lst_at_ok. setoid_rewrite arr_at_ok.
    split.
    + intros (n' & Hn & l' & Hl & p' & Hp & S1 & S2 & x & E). exists n', l', p'. repeat split; try assumption.
      * clear - S1. f2. congruence.
      * clear - S2. f2. congruence.
      * destruct (k_spglib k _ _ _) as [[[[c r] t] q]|]; [|discriminate].
        destruct (np_new (st_mem s) [c; 3; 3] r) as [m1 ?]. destruct (np_new m1 [c; 3] t) as [m2 ?].
        destruct (k_perms k r t (load (st_mem s) p')) as [ps|] eqn:EP; cbn [rbind] in E; [|discriminate].
        exists c, r, t, q, ps. now split.
    + intros (n' & l' & p' & Hn & Hl & Hp & S1 & S2 & c & r & t & q & ps & K1 & K2).
      exists n'. split; [assumption|]. exists l'. split; [assumption|]. exists p'. split; [assumption|].
      rewrite S1, S2. split; [repeat constructor|]. split; [repeat constructor|]. rewrite K1.
      destruct (np_new (st_mem s) [c; 3; 3] r) as [m1 ?]. destruct (np_new m1 [c; 3] t) as [m2 ?].
      rewrite K2. cbn [rbind]. eauto.
  - (* MakePhonons *)
    rewrite bind_ok. setoid_rewrite bind_ok. setoid_rewrite bind_ok. setoid_rewrite makes_ok. unfold make_phonons.
    setoid_rewrite bind_ok. setoid_rewrite unit_ok. setoid_rewrite bind_ok. setoid_rewrite unit_ok.
    setoid_rewrite bind_ok. setoid_rewrite unit_ok.
    setoid_rewrite vs_ok. setoid_rewrite arr_at_ok.
    split.
    + intros (r' & Hr & w' & Hw & d' & Hd & S1 & S2 & S3 & _).
      inversion S1 as [|? n ? ? _ S1' E1 E2]. inversion S1' as [|? ? ? ? E3 S1'' E4 E5]. inversion S1''. subst.
      inversion S2 as [|? m ? ? _ S2' E6 E7]. inversion S2'. subst.
      exists r', w', d', n, m. repeat split; try assumption; try congruence.
      cbn [hd] in S3. clear - S3. f2. unfold entries. congruence.
    + intros (r' & w' & d' & n & m & Hr & Hw & Hd & S1 & S2 & S3).
      exists r'. split; [assumption|]. exists w'. split; [assumption|]. exists d'. split; [assumption|].
      rewrite S1, S2, S3. repeat split; repeat constructor. eauto.
  - (* MakeTrajectory *)
    rewrite bind_ok. setoid_rewrite makes_ok. unfold make_trajectory.
    setoid_rewrite bind_ok. setoid_rewrite unit_ok. setoid_rewrite vs_ok. setoid_rewrite arr_at_ok.
    split.
    + intros (t' & Ht & S1 & x & E).
      inversion S1 as [|? n ? ? _ S1' E1 E2]. inversion S1' as [|? m ? ? _ S1'' E4 E5]. inversion S1'' as [|? ? ? ? E6 S1x E7 E8]. inversion S1x. subst.
      exists t', n, m. repeat split; try assumption; try congruence.
      unfold Rleb in E. destruct (Rle_dec timestep 0); [discriminate|]. now apply Rnot_le_lt.
    + intros (t' & n & m & Ht & S1 & P). exists t'. split; [assumption|]. rewrite S1. split; [repeat constructor|].
      unfold Rleb. destruct (Rle_dec timestep 0) as [L|_]; [exfalso; now apply (Rle_not_lt _ _ L)|].
      destruct (np_new _ _ _). eauto.
  - (* MakePhononSpectrum *)
    rewrite bind_ok. setoid_rewrite bind_ok. setoid_rewrite makes_ok. unfold make_phonon_spectrum.
    setoid_rewrite bind_ok. setoid_rewrite unit_ok. setoid_rewrite bind_ok. setoid_rewrite unit_ok.
    setoid_rewrite vs_ok. setoid_rewrite arr_at_ok.
    split.
    + intros (w' & Hw & t' & Ht & S1 & S2 & _).
      inversion S1 as [|? m ? ? _ S1' E1 E2]. inversion S1'. subst. try rewrite <- E2 in S2. cbn [hd] in S2.
      inversion S2 as [|? ? ? ? E3 S2' E4 E5]. inversion S2' as [|? ? ? ? E6 S2'' E7 E8]. inversion S2'' as [|? ? ? ? E9 S2x E10 E11].
      inversion S2x. subst. exists w', t', m. repeat split; try assumption; congruence.
    + intros (w' & t' & m & Hw & Ht & S1 & S2). exists w'. split; [assumption|]. exists t'. split; [assumption|].
      rewrite S1, S2. repeat split; repeat constructor. eauto.
  - (* MakeMDSpectrum *)
    rewrite bind_ok. setoid_rewrite makes_ok. unfold make_md_spectrum.
    setoid_rewrite bind_ok. setoid_rewrite unit_ok. setoid_rewrite vs_ok. setoid_rewrite arr_at_ok.
    split.
    + intros (t' & Ht & S1 & _).
      inversion S1 as [|? m ? ? _ S1' E1 E2]. inversion S1' as [|? ? ? ? E3 S1'' E4 E5]. inversion S1'' as [|? ? ? ? E6 S1x E7 E8].
      inversion S1x. subst. exists t', m. repeat split; try assumption; congruence.
    + intros (t' & m & Ht & S1). exists t'. split; [assumption|]. rewrite S1. repeat split; repeat constructor. eauto.
Qed.
