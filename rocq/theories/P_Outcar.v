(** Proofs about OUTCAR files: C57, C58, C60. *)
From Coq Require Import String Ascii ZArith NArith QArith Qreals Reals Bool Arith List Sorted Lia Lra.
From Verif Require Import Base LinAlg Constants M_Validate M_StructUtils M_Text M_Poscar M_Outcar S_Text S_Outcar
  P_Text P_Poscar.
Import ListNotations.
Local Open Scope nat_scope.

Lemma prefixb_spec p : forall s, prefixb p s = true <-> exists b, s = p ++ b.
Proof.
  induction p as [|a p IH]; intros s; cbn.
  - split; [exists s; reflexivity|reflexivity].
  - destruct s as [|b s]; [split; [discriminate|intros [? H]; discriminate]|].
    rewrite andb_true_iff, N.eqb_eq, IH. split.
    + intros [-> [r ->]]. exists r. reflexivity.
    + intros [r H]. injection H as -> ->. split; [reflexivity|exists r; reflexivity].
Qed.
Lemma contains_spec n : forall s, contains n s = true <-> occurs n s.
Proof.
  induction s as [|c s IH]; cbn [contains].
  - rewrite orb_false_r, prefixb_spec. split.
    + intros [b H]. exists [], b. exact H.
    + intros (a & b & H). destruct a as [|x a]; [|discriminate]. exists b. exact H.
  - rewrite orb_true_iff, prefixb_spec, IH. split.
    + intros [[b H] | (a & b & ->)]; [exists [], b; exact H|exists (c :: a), b; reflexivity].
    + intros (a & b & H). destruct a as [|x a]; [left; exists b; exact H|].
      injection H as <- ->. right. exists a, b. reflexivity.
Qed.
Lemma contains_false n s : contains n s = false <-> ~ occurs n s.
Proof. rewrite <- contains_spec. destruct (contains n s); split; congruence. Qed.

(** ** Cursor *)
Lemma skip_until_ok m : forall f l r, skip_until m f = Ok (l, r) <-> first_with m f l r.
Proof.
  induction f as [|x f IH]; intros l r; cbn [skip_until].
  - split; [discriminate|]. intros (pre & H & _). destruct pre; discriminate.
  - destruct (contains m x) eqn:Hc.
    + split.
      * intros H. injection H as -> ->. exists []. split; [reflexivity|]. split; [constructor|apply contains_spec; exact Hc].
      * intros (pre & H & Hp & Hl). destruct pre as [|y pre]; [injection H as -> ->; reflexivity|].
        injection H as <- _. inversion Hp; subst. apply contains_spec in Hc. contradiction.
    + rewrite IH. split.
      * intros (pre & -> & Hp & Hl). exists (x :: pre). split; [reflexivity|]. split; [|exact Hl].
        constructor; [apply contains_false; exact Hc|exact Hp].
      * intros (pre & H & Hp & Hl). destruct pre as [|y pre].
        { injection H as -> ->. apply contains_false in Hc. contradiction. }
        injection H as <- ->. inversion Hp; subst. exists pre. auto.
Qed.
Lemma skip_until_err m : forall f e, skip_until m f = Err e <-> e = NoMatchingLineFoundException /\ nowhere m f.
Proof.
  induction f as [|x f IH]; intros e; cbn [skip_until].
  - split; [intros H; injection H as <-; split; [reflexivity|constructor]|intros [-> _]; reflexivity].
  - destruct (contains m x) eqn:Hc.
    + split; [discriminate|]. intros [_ H]. inversion H; subst. apply contains_spec in Hc. contradiction.
    + rewrite IH. split; intros [-> H]; (split; [reflexivity|]).
      * constructor; [apply contains_false; exact Hc|exact H].
      * inversion H; assumption.
Qed.
Lemma or_invalid_ok {A} msg (r : res A) a : or_invalid msg r = Ok a <-> r = Ok a.
Proof. destruct r as [b|e]; cbn; [reflexivity|]. destruct e; cbn; split; congruence. Qed.
Lemma first_with_fun m f l r l' r' : first_with m f l r -> first_with m f l' r' -> l = l' /\ r = r'.
Proof. rewrite <- !skip_until_ok. intros H H'. rewrite H in H'. injection H' as -> ->. auto. Qed.

(** Reading by lines is reading by readline *)
Lemma readline_lines s : readline s = (fst (next_line (lines_of s)), concat (snd (next_line (lines_of s)))).
Proof.
  assert (Hc : forall s, concat (lines_of s) = s).
  { clear s. induction s as [|c s IH]; [reflexivity|]. cbn [lines_of]. destruct (N.eqb c NL).
    - cbn. rewrite IH. reflexivity.
    - destruct (lines_of s) as [|l ls]; cbn in *; [subst; reflexivity|rewrite <- IH; reflexivity]. }
  induction s as [|c s IH]; [reflexivity|]. cbn [readline lines_of]. destruct (N.eqb c NL).
  - cbn. rewrite Hc. reflexivity.
  - rewrite IH. destruct (lines_of s) as [|l ls] eqn:He; cbn; [|reflexivity]. reflexivity.
Qed.
Lemma lines_concat s : concat (lines_of s) = s.
Proof.
  induction s as [|c s IH]; [reflexivity|]. cbn [lines_of]. destruct (N.eqb c NL).
  - cbn. rewrite IH. reflexivity.
  - destruct (lines_of s) as [|l ls]; cbn in *; [subst; reflexivity|rewrite <- IH; reflexivity].
Qed.

(** ** Words and numbers *)
Lemma floats_spec E : forall ws xs, floats E ws = Some xs <-> Forall2 (fun w y => float_of (e_fl E) w = Some y) ws xs.
Proof.
  induction ws as [|w ws IH]; intros xs; cbn [floats].
  - split; [intros H; injection H as <-; constructor|intros H; inversion H; reflexivity].
  - destruct (float_of (e_fl E) w) eqn:Hf.
    + destruct (floats E ws) eqn:Hs; cbn.
      * split.
        { intros H. injection H as <-. constructor; [exact Hf|]. apply IH. reflexivity. }
        { intros H. inversion H; subst. rewrite Hf in H2. injection H2 as ->.
          apply IH in H4. injection H4 as ->. reflexivity. }
      * split; [discriminate|]. intros H. inversion H; subst. apply IH in H4. discriminate.
    + split; [discriminate|]. intros H. inversion H; subst. congruence.
Qed.
Lemma ints_spec : forall ws xs, ints ws = Some xs <-> Forall2 (fun w y => int_of w = Some y) ws xs.
Proof.
  induction ws as [|w ws IH]; intros xs; cbn [ints].
  - split; [intros H; injection H as <-; constructor|intros H; inversion H; reflexivity].
  - destruct (int_of w) eqn:Hf.
    + destruct (ints ws) eqn:Hs; cbn.
      * split.
        { intros H. injection H as <-. constructor; [exact Hf|]. apply IH. reflexivity. }
        { intros H. inversion H; subst. rewrite Hf in H2. injection H2 as ->.
          apply IH in H4. injection H4 as ->. reflexivity. }
      * split; [discriminate|]. intros H. inversion H; subst. apply IH in H4. discriminate.
    + split; [discriminate|]. intros H. inversion H; subst. congruence.
Qed.

(** ** Tables *)
Lemma next_line_nth f : next_line f = (nth 0 f [], tl f).
Proof. destruct f; reflexivity. Qed.
Lemma nth_tl {A} i (f : list A) d : nth i (tl f) d = nth (S i) f d.
Proof. destruct f; [destruct i; reflexivity|reflexivity]. Qed.
Lemma skipn_tl {A} n (f : list A) : skipn n (tl f) = skipn (S n) f.
Proof. destruct f; [destruct n; reflexivity|reflexivity]. Qed.
Lemma table_rows_ok E msg : forall n f rs r,
  table_rows E msg n f = Ok (rs, r) <-> rows_are E n f rs /\ r = skipn n f.
Proof.
  induction n as [|n IH]; intros f rs r; cbn [table_rows].
  - split.
    + intros H. injection H as <- <-. split; [split; [reflexivity|]|reflexivity]. intros i x Hx. destruct i; discriminate.
    + intros [[Hl _] ->]. destruct rs; [reflexivity|discriminate].
  - rewrite next_line_nth. destruct (floats E (firstn 3 (split (nth 0 f [])))) as [x|] eqn:Hx.
    + destruct (table_rows E msg n (tl f)) as [[rs' r']|e] eqn:Ht; cbn [rbind].
      * apply IH in Ht. destruct Ht as [[Hl Hr] ->]. rewrite skipn_tl. split.
        { intros H. injection H as <- <-. split; [|reflexivity]. split; [cbn; congruence|].
          intros [|i] y Hy; cbn in Hy; [injection Hy as <-; apply floats_spec; exact Hx|].
          rewrite <- nth_tl. apply Hr. exact Hy. }
        { intros [[Hl' Hr'] ->]. destruct rs as [|y rs]; [discriminate|].
          assert (y = x) as ->.
          { specialize (Hr' 0 y eq_refl). apply floats_spec in Hr'. congruence. }
          f_equal. f_equal. f_equal.
          assert (Hf : Ok (rs', skipn n (tl f)) = Ok (rs, skipn n (tl f))).
          { etransitivity; [symmetry; apply (proj2 (IH (tl f) rs' _)); split; [split; [exact Hl|exact Hr]|reflexivity]|].
            apply IH. split; [|reflexivity]. cbn in Hl'. split; [congruence|]. intros i z Hz. rewrite nth_tl. apply Hr'. exact Hz. }
          congruence. }
      * split; [discriminate|]. intros [[Hl' Hr'] ->]. destruct rs as [|y rs]; [discriminate|].
        assert (table_rows E msg n (tl f) = Ok (rs, skipn n (tl f))); [|congruence].
        apply IH. split; [|reflexivity]. cbn in Hl'. split; [congruence|]. intros i z Hz. rewrite nth_tl. apply Hr'. exact Hz.
    + split; [discriminate|]. intros [[Hl' Hr'] _]. destruct rs as [|y rs]; [discriminate|].
      specialize (Hr' 0 y eq_refl). apply floats_spec in Hr'. congruence.
Qed.
(** failure: the first offending line *)
Lemma table_rows_err E msg : forall n f e,
  table_rows E msg n f = Err e <->
  exists i, i < n /\ (forall j, j < i -> exists x, row_of E (nth j f []) x) /\
    (~ exists x, row_of E (nth i f []) x) /\ e = InvalidFileException (txt msg ++ nth i f []).
Proof.
  induction n as [|n IH]; intros f e; cbn [table_rows].
  - split; [discriminate|]. intros (i & Hi & _). lia.
  - rewrite next_line_nth. destruct (floats E (firstn 3 (split (nth 0 f [])))) as [x|] eqn:Hx.
    + assert (Hx' : row_of E (nth 0 f []) x) by (apply floats_spec; exact Hx).
      destruct (table_rows E msg n (tl f)) as [[rs' r']|e'] eqn:Ht; cbn [rbind].
      * split; [discriminate|]. intros (i & Hi & _ & Hn & _).
        apply table_rows_ok in Ht. destruct Ht as [[Hl Hr] _]. destruct i as [|i]; [exfalso; apply Hn; exists x; exact Hx'|].
        exfalso. apply Hn. destruct (nth_error rs' i) as [y|] eqn:Hy; [|apply nth_error_None in Hy; lia].
        exists y. rewrite <- nth_tl. apply Hr. exact Hy.
      * rewrite <- (IH (tl f) e) || idtac. split.
        { intros H. injection H as <-. apply IH in Ht. destruct Ht as (i & Hi & Hb & Hn & ->).
          exists (S i). rewrite nth_tl in *. split; [lia|]. split; [|auto].
          intros [|j] Hj; [exists x; exact Hx'|]. rewrite <- nth_tl. apply Hb. lia. }
        { intros (i & Hi & Hb & Hn & ->). destruct i as [|i]; [exfalso; apply Hn; exists x; exact Hx'|].
          f_equal. assert (table_rows E msg n (tl f) = Err (InvalidFileException (txt msg ++ nth (S i) f []))); [|congruence].
          apply IH. exists i. rewrite nth_tl. split; [lia|]. split; [|auto]. intros j Hj. rewrite nth_tl. apply Hb. lia. }
    + assert (Hx' : ~ exists x, row_of E (nth 0 f []) x).
      { intros [x Hf]. apply floats_spec in Hf. congruence. }
      unfold invalid. split.
      * intros H. injection H as <-. exists 0. split; [lia|]. split; [intros j Hj; lia|]. auto.
      * intros (i & Hi & Hb & Hn & ->). destruct i as [|i]; [reflexivity|]. exfalso. apply Hx'. apply (Hb 0). lia.
Qed.

Lemma np_rows_ok rs a : np_rows rs = Ok a <-> array_of rs a.
Proof.
  destruct rs as [|r rs]; cbn [np_rows].
  - split; [intros H; injection H as <-; left; auto|]. intros [[_ ->] | [H _]]; [reflexivity|congruence].
  - destruct (forallb _ rs) eqn:Hf.
    + rewrite forallb_forall in Hf. split.
      * intros H. injection H as <-. right. split; [discriminate|]. exists (List.length r). split; [|reflexivity].
        constructor; [reflexivity|]. apply Forall_forall. intros x Hx. apply Nat.eqb_eq. apply Hf. exact Hx.
      * intros [[H _] | [_ (k & Hk & ->)]]; [discriminate|]. inversion Hk; subst. reflexivity.
    + split; [discriminate|]. intros [[H _] | [_ (k & Hk & ->)]]; [discriminate|]. exfalso. inversion Hk; subst.
      apply not_true_iff_false in Hf. apply Hf. apply forallb_forall. intros x Hx. apply Nat.eqb_eq.
      rewrite Forall_forall in H2. apply H2. exact Hx.
Qed.
Lemma np_rows_err rs e : np_rows rs = Err e <-> e = ValueError /\
  exists r r', In r rs /\ In r' rs /\ List.length r <> List.length r'.
Proof.
  destruct rs as [|r rs]; cbn [np_rows].
  - split; [discriminate|]. intros (_ & ? & ? & [] & _).
  - destruct (forallb _ rs) eqn:Hf.
    + rewrite forallb_forall in Hf. split; [discriminate|]. intros (_ & a & b & Ha & Hb & Hab). exfalso.
      assert (Hl : forall x, In x (r :: rs) -> List.length x = List.length r).
      { intros x [<- | Hx]; [reflexivity|]. apply Nat.eqb_eq. apply Hf. exact Hx. }
      apply Hab. rewrite (Hl a Ha), (Hl b Hb). reflexivity.
    + split; [|intros [-> _]; reflexivity]. intros H. injection H as <-. split; [reflexivity|].
      assert (Hx : exists x, In x rs /\ Nat.eqb (List.length x) (List.length r) = false).
      { clear -Hf. induction rs as [|y rs IH]; [discriminate|]. cbn in Hf. apply andb_false_iff in Hf.
        destruct Hf as [Hf | Hf]; [exists y; split; [left; reflexivity|exact Hf]|].
        destruct (IH Hf) as (x & Hx & Hn). exists x. split; [right; exact Hx|exact Hn]. }
      destruct Hx as (x & Hx & Hn). apply Nat.eqb_neq in Hn. exists x, r. split; [right; exact Hx|]. split; [left; reflexivity|exact Hn].
Qed.
Lemma table_ok E msg n f a r : table E msg n f = Ok (a, r) <-> table_at E n f a r.
Proof.
  unfold table, table_at. destruct (table_rows E msg n f) as [[rs r']|e] eqn:Ht; cbn [rbind].
  - destruct (np_rows rs) as [b|e] eqn:Hn; cbn [rbind].
    + split.
      * intros H. injection H as <- <-. exists rs. apply table_rows_ok in Ht. apply np_rows_ok in Hn. tauto.
      * intros (rs' & Hr & Ha & ->). assert (Ht' : table_rows E msg n f = Ok (rs', skipn n f)) by (apply table_rows_ok; auto).
        rewrite Ht in Ht'. injection Ht' as -> ->. apply np_rows_ok in Ha. congruence.
    + split; [discriminate|]. intros (rs' & Hr & Ha & ->).
      assert (Ht' : table_rows E msg n f = Ok (rs', skipn n f)) by (apply table_rows_ok; auto).
      rewrite Ht in Ht'. injection Ht' as -> ->. apply np_rows_ok in Ha. congruence.
  - split; [discriminate|]. intros (rs' & Hr & Ha & ->).
    assert (Ht' : table_rows E msg n f = Ok (rs', skipn n f)) by (apply table_rows_ok; auto). congruence.
Qed.

Lemma bind_ok {A B} (r : res A) (k : A -> res B) b : rbind r k = Ok b <-> exists a, r = Ok a /\ k a = Ok b.
Proof.
  destruct r as [a|e]; cbn; split.
  - intros H. exists a. auto.
  - intros (a' & H & Hk). injection H as <-. exact Hk.
  - discriminate.
  - intros (a' & H & _). discriminate.
Qed.

Lemma fractional_ok E n f a r : outcar_fractional E n f = Ok (a, r) <-> fractional_block E n f a r.
Proof.
  unfold outcar_fractional, fractional_block. rewrite bind_ok. split.
  - intros ([l f1] & Hs & Ht). apply or_invalid_ok, skip_until_ok in Hs. apply table_ok in Ht. exists l, f1. auto.
  - intros (l & f1 & Hs & Ht). exists (l, f1). split; [apply or_invalid_ok, skip_until_ok; exact Hs|]. apply table_ok. exact Ht.
Qed.
Lemma polarizability_ok E f a r : outcar_polarizability E f = Ok (a, r) <-> tensor_block E f a r.
Proof.
  unfold outcar_polarizability, tensor_block. rewrite bind_ok. split.
  - intros ([l f1] & Hs & Ht). apply or_invalid_ok, skip_until_ok in Hs. rewrite next_line_nth in Ht. apply table_ok in Ht. exists l, f1. auto.
  - intros (l & f1 & Hs & Ht). exists (l, f1). split; [apply or_invalid_ok, skip_until_ok; exact Hs|].
    rewrite next_line_nth. apply table_ok. exact Ht.
Qed.
Lemma lattice_ok E f a r : outcar_lattice E f = Ok (a, r) <-> lattice_block E f a r.
Proof.
  unfold outcar_lattice, lattice_block. rewrite bind_ok. split.
  - intros ([l f1] & Hs & Ht). apply or_invalid_ok in Hs. apply bind_ok in Hs. destruct Hs as ([l0 f0] & H0 & H1).
    apply skip_until_ok in H0, H1. apply table_ok in Ht. exists l0, f0, l, f1. auto.
  - intros (l0 & f0 & l & f1 & H0 & H1 & Ht). exists (l, f1). split; [|apply table_ok; exact Ht].
    apply or_invalid_ok. apply bind_ok. exists (l0, f0). split; apply skip_until_ok; assumption.
Qed.

(** ** Element symbols *)
Lemma symbol_number_spec w : (exists z, symbol_number w = Some z) <-> exists name z, In (name, z) atomic_numbers /\ w = txt name.
Proof.
  unfold symbol_number. split.
  - intros [z H]. destruct (find _ atomic_numbers) as [[n z']|] eqn:Hf; [|discriminate].
    apply find_some in Hf. destruct Hf as [Hi He]. cbn in He. apply teqb_true in He. exists n, z'. auto.
  - intros (n & z & Hi & ->). destruct (find _ atomic_numbers) as [[n' z']|] eqn:Hf; [eauto|].
    eapply find_none in Hf; [|exact Hi]. cbn in Hf. rewrite teqb_refl in Hf. discriminate.
Qed.
Lemma before_underscore_spec a w : before_underscore a = w <-> ~ In 95%N w /\ (a = w \/ exists t, a = w ++ 95%N :: t).
Proof.
  unfold before_underscore. revert w. induction a as [|c a IH]; intros w.
  - cbn. split; [intros <-; split; [intros []|left; reflexivity]|].
    intros [_ [<- | [t H]]]; [reflexivity|destruct w; discriminate].
  - cbn [break]. destruct (N.eqb_spec 95 c) as [<- | Hc].
    + cbn. split.
      * intros <-. split; [intros []|]. right. exists a. reflexivity.
      * intros [Hn [<- | [t H]]]; [exfalso; apply Hn; left; reflexivity|].
        destruct w as [|x w]; [reflexivity|]. injection H as <- _. exfalso. apply Hn. left. reflexivity.
    + destruct (break (N.eqb 95) a) as [u v]. cbn [fst] in *. split.
      * intros <-. destruct (proj1 (IH u) eq_refl) as [Hn Ha]. split; [intros [H | H]; [congruence|contradiction]|].
        destruct Ha as [-> | [t ->]]; [left; reflexivity|right; exists t; reflexivity].
      * intros [Hn Ha]. destruct w as [|x w].
        { destruct Ha as [H | [t H]]; [discriminate|]. injection H as -> _. congruence. }
        assert (x = c) as -> by (destruct Ha as [H | [t H]]; injection H as -> _; reflexivity).
        f_equal. apply IH. split; [intros H; apply Hn; right; exact H|].
        destruct Ha as [H | [t H]]; injection H as H; [left; exact H|right; exists t; exact H].
Qed.
Lemma rev_two {A} (l : list A) b a t : rev l = b :: a :: t -> l = rev t ++ [a; b].
Proof. intros H. apply (f_equal (@rev A)) in H. rewrite rev_involutive in H. cbn in H. rewrite <- app_assoc in H. exact H. Qed.
Lemma potcar_symbol_spec l w : potcar_symbol l = Some w <-> element_of l w.
Proof.
  unfold potcar_symbol, element_of. destruct (rev (split l)) as [|b [|a t]] eqn:Hr.
  - split; [discriminate|]. intros (ws & a & b & H & _). rewrite H, rev_app_distr in Hr. discriminate.
  - split; [discriminate|]. intros (ws & a' & b' & H & _). rewrite H, rev_app_distr in Hr. discriminate.
  - pose proof (rev_two _ _ _ _ Hr) as Hs. split.
    + destruct (symbol_number (before_underscore a)) eqn:Hn; [|discriminate]. intros H. injection H as H.
      destruct (proj1 (before_underscore_spec a w) H) as [H1 H2].
      exists (rev t), a, b. split; [exact Hs|]. split; [exact H1|]. split; [exact H2|].
      apply symbol_number_spec. exists z. rewrite <- H. exact Hn.
    + intros (ws & a' & b' & H & H1 & H2 & H3). rewrite Hs in H.
      assert (a' = a) as ->. { apply (f_equal (@rev text)) in H. rewrite !rev_app_distr in H. cbn in H. congruence. }
      rewrite (proj2 (before_underscore_spec a w) (conj H1 H2)). apply symbol_number_spec in H3. destruct H3 as [z ->]. reflexivity.
Qed.
Lemma potcar_loop_ok : forall f ss r, potcar_loop f = Ok (ss, r) <->
  exists more, Forall2 element_of more ss /\ Forall (occurs (txt "POTCAR")) more /\
    ((f = more /\ r = []) \/ exists stop, f = more ++ stop :: r /\ ~ occurs (txt "POTCAR") stop).
Proof.
  induction f as [|l f IH]; intros ss r; cbn [potcar_loop].
  - split.
    + intros H. injection H as <- <-. exists []. split; [constructor|]. split; [constructor|]. left. auto.
    + intros (more & H1 & H2 & [[<- ->] | (stop & H & _)]); [inversion H1; reflexivity|destruct more; discriminate].
  - destruct (contains (txt "POTCAR") l) eqn:Hc.
    + apply contains_spec in Hc. destruct (potcar_symbol l) as [s|] eqn:Hs.
      * split.
        { intros H. apply bind_ok in H. destruct H as ([ss' r'] & H & H'). injection H' as <- <-.
          apply IH in H. destruct H as (more & H1 & H2 & H3). exists (l :: more).
          split; [constructor; [apply potcar_symbol_spec; exact Hs|exact H1]|]. split; [constructor; assumption|].
          destruct H3 as [[-> ->] | (stop & -> & Hst)]; [left; auto|right; exists stop; auto]. }
        { intros (more & H1 & H2 & H3).
          assert (exists m', more = l :: m') as [m' ->].
          { destruct H3 as [[<- _] | (stop & H & Hst)]; [eauto|]. destruct more as [|x more]; [injection H as -> _; contradiction|].
            injection H as -> _. eauto. }
          inversion H1 as [|? s0 ? ss0 He Hss]; subst. inversion H2; subst. apply potcar_symbol_spec in He.
          assert (Hr : potcar_loop f = Ok (ss0, r)).
          { apply IH. exists m'. split; [assumption|]. split; [assumption|].
            destruct H3 as [[H ->] | (stop & H & Hst)]; injection H as ->; [left; auto|right; exists stop; auto]. }
          rewrite Hr. cbn. congruence. }
      * unfold invalid. split; [discriminate|]. intros (more & H1 & H2 & H3). exfalso.
        assert (exists m', more = l :: m') as [m' ->].
        { destruct H3 as [[<- _] | (stop & H & Hst)]; [eauto|]. destruct more as [|x more]; [injection H as -> _; contradiction|].
          injection H as -> _. eauto. }
        inversion H1 as [|? s0 ? ss0 He Hss]; subst. apply potcar_symbol_spec in He. congruence.
    + apply contains_false in Hc. split.
      * intros H. injection H as <- <-. exists []. split; [constructor|]. split; [constructor|]. right. exists l. auto.
      * intros (more & H1 & H2 & H3). destruct more as [|x more].
        { inversion H1; subst. destruct H3 as [[H _] | (stop & H & _)]; [discriminate|]. injection H as -> ->. reflexivity. }
        exfalso. inversion H2; subst. destruct H3 as [[H _] | (stop & H & _)]; injection H as -> _; contradiction.
Qed.
Lemma removelast_snoc {A} (l : list A) : l <> [] -> exists w, l = removelast l ++ [w].
Proof. intros H. destruct (exists_last H) as (l' & a & ->). exists a. rewrite removelast_last. reflexivity. Qed.

Lemma symbols_ok f symbols r : outcar_symbols f = Ok (symbols, r) <-> species f symbols r.
Proof.
  unfold outcar_symbols, species, potcar_block. rewrite bind_ok. split.
  - intros ([l f1] & Hs & H). apply or_invalid_ok, skip_until_ok in Hs.
    destruct (potcar_symbol l) as [s|] eqn:Hl; [|discriminate]. apply potcar_symbol_spec in Hl.
    apply bind_ok in H. destruct H as ([ss f2] & Hp & H). apply potcar_loop_ok in Hp.
    destruct Hp as (more & P1 & P2 & P3). destruct (next_line f2) as [l3 f3] eqn:Hn.
    apply bind_ok in H. destruct H as ([l4 f4] & Hi & H). apply or_invalid_ok, skip_until_ok in Hi.
    destruct (ints (skipn 4 (split l4))) as [ns|] eqn:Hc; [|discriminate]. injection H as <- <-. apply ints_spec in Hc.
    exists (if contains (txt "VRHFIN") l3 then removelast (s :: ss) else s :: ss), f3, l4, ns.
    split; [|split; [exact Hi|split; [exact Hc|rewrite flat_map_concat_map; reflexivity]]].
    exists l, f1, more, f2, (s :: ss). split; [exact Hs|]. split; [constructor; assumption|]. split; [exact P2|].
    split; [exact P3|]. rewrite next_line_nth in Hn. injection Hn as <- <-.
    destruct (contains (txt "VRHFIN") (nth 0 f2 [])) eqn:Hv.
    + left. destruct f2 as [|v f2]; [discriminate|]. exists v. split; [reflexivity|]. apply contains_spec in Hv. split; [exact Hv|].
      apply removelast_snoc. discriminate.
    + right. split; [|split; reflexivity]. intros (v & r & -> & Ho). apply contains_false in Hv. contradiction.
  - intros (names & f1 & l4 & ns & (l & fa & more & after & all & Hs & Hall & Hm & P3 & Hv) & Hi & Hc & ->).
    inversion Hall as [|? s ? ss He Hss]; subst. exists (l, fa). split; [apply or_invalid_ok, skip_until_ok; exact Hs|].
    rewrite (proj2 (potcar_symbol_spec l s) He). apply bind_ok. exists (ss, after). split.
    { apply potcar_loop_ok. exists more. split; [exact Hss|]. split; [exact Hm|]. exact P3. }
    rewrite next_line_nth. cbv iota beta.
    assert (Hn : (if contains (txt "VRHFIN") (nth 0 after []) then removelast (s :: ss) else s :: ss) = names /\ tl after = f1).
    { destruct Hv as [(v & -> & Ho & w & Hw) | (Hno & -> & ->)].
      - apply contains_spec in Ho. cbn [nth tl]. rewrite Ho. rewrite Hw, removelast_last. auto.
      - split; [|reflexivity]. destruct (contains (txt "VRHFIN") (nth 0 after [])) eqn:Hc'; [|reflexivity].
        exfalso. apply Hno. destruct after as [|v r']; [discriminate|]. apply contains_spec in Hc'. exists v, r'. auto. }
    destruct Hn as [-> ->]. apply bind_ok. exists (l4, r). split; [apply or_invalid_ok, skip_until_ok; exact Hi|].
    apply ints_spec in Hc. rewrite Hc, flat_map_concat_map. reflexivity.
Qed.
Lemma species_known f symbols r : species f symbols r -> Forall (fun w => exists name z, In (name, z) atomic_numbers /\ w = txt name) symbols.
Proof.
  intros (names & f1 & l4 & ns & (l & fa & more & after & all & Hs & Hall & Hm & P3 & Hv) & Hi & Hc & ->).
  assert (Ha : Forall (fun w => exists name z, In (name, z) atomic_numbers /\ w = txt name) all).
  { clear -Hall. induction Hall as [|x y xs ys H _ IH]; constructor; [|exact IH]. destruct H as (? & ? & ? & _ & _ & _ & H). exact H. }
  assert (Hn : Forall (fun w => exists name z, In (name, z) atomic_numbers /\ w = txt name) names).
  { destruct Hv as [(v & _ & _ & w & ->) | (_ & _ & ->)]; [|exact Ha]. apply Forall_app in Ha. tauto. }
  apply Forall_forall. intros w Hw. apply in_concat in Hw. destruct Hw as (x & Hx & Hw). apply in_map_iff in Hx.
  destruct Hx as ([a c] & <- & Hin). apply repeat_spec in Hw. subst. cbn [fst]. apply in_combine_l in Hin.
  rewrite Forall_forall in Hn. apply Hn. exact Hin.
Qed.
Lemma numbers_of_spec symbols :
  Forall (fun w => exists name z, In (name, z) atomic_numbers /\ w = txt name) symbols -> numbers_are symbols (numbers_of symbols).
Proof.
  induction 1 as [|w ws H _ IH]; constructor; [|exact IH]. apply symbol_number_spec in H. destruct H as [z Hz]. rewrite Hz.
  unfold symbol_number in Hz. destruct (find _ atomic_numbers) as [[n z']|] eqn:Hf; [|discriminate]. injection Hz as ->.
  apply find_some in Hf. destruct Hf as [Hi He]. cbn in He. apply teqb_true in He. exists n. auto.
Qed.
