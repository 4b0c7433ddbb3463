(** Proofs about sharing of memory (C73, C74). *)
From Coq Require Import String ZArith Reals Bool Arith Lia List.
From Verif Require Import Base LinAlg M_Validate M_Interp M_Spectrum M_Reference M_Dynamics M_Alias S_Alias.
Import ListNotations.

(** ** Lists *)
Lemma set_nth_length {A} (k : nat) (x : A) l : length (set_nth k x l) = length l.
Proof. revert k; induction l as [|y l IH]; intros [|k]; cbn; auto. Qed.
Lemma set_nth_same {A} (k : nat) (x d : A) l : k < length l -> nth k (set_nth k x l) d = x.
Proof. revert k; induction l as [|y l IH]; intros [|k] H; cbn in *; try lia; auto. apply IH; lia. Qed.
Lemma set_nth_other {A} (k j : nat) (x d : A) l : j <> k -> nth j (set_nth k x l) d = nth j l d.
Proof.
  revert k j; induction l as [|y l IH]; intros [|k] [|j] H; cbn; auto; try lia.
Qed.
Lemma set_nth_over {A} (k : nat) (x : A) l : length l <= k -> set_nth k x l = l.
Proof. revert k; induction l as [|y l IH]; intros [|k] H; cbn in *; auto; try lia. rewrite IH; auto; lia. Qed.

Lemma map_nth_seq {A} (d : A) l : map (fun k => nth k l d) (seq 0 (length l)) = l.
Proof.
  apply nth_ext with (d := d) (d' := d).
  - rewrite map_length, seq_length; auto.
  - intros n H; rewrite map_length, seq_length in H.
    rewrite (nth_indep _ d (nth 0 l d)); [|rewrite map_length, seq_length; auto].
    change (nth 0 l d) with ((fun k => nth k l d) 0).
    rewrite map_nth, seq_nth; auto.
Qed.

(** ** Memory *)
Lemma buffer_ext m l b : b < length m -> buffer (m ++ l) b = buffer m b.
Proof. intros; unfold buffer; apply app_nth1; auto. Qed.
Lemma buffer_new m data : buffer (m ++ [data]) (length m) = data.
Proof. unfold buffer; rewrite app_nth2 by lia; rewrite Nat.sub_diag; auto. Qed.
Lemma load_ext m l a : aref_in m a -> load (m ++ l) a = load m a.
Proof. intros H; unfold load; rewrite buffer_ext; auto. Qed.
Lemma load_new m sh data : load (m ++ [data]) (mkAref (length m) (seq 0 (length data)) sh) = data.
Proof. unfold load; cbn; rewrite buffer_new; apply map_nth_seq. Qed.
Lemma load_buffer m m' a : buffer m (a_buf a) = buffer m' (a_buf a) -> load m a = load m' a.
Proof. intros H; unfold load; rewrite H; auto. Qed.

Lemma load_row m a i :
  load m (np_row a i) = firstn (row_size a) (skipn (i * row_size a) (load m a)).
Proof. unfold load, np_row, row_cells; cbn. rewrite <- firstn_map, <- skipn_map; auto. Qed.
Lemma load_rows m a is :
  load m (np_rows a is)
  = flat_map (fun i => firstn (row_size a) (skipn (i * row_size a) (load m a))) is.
Proof.
  unfold load, np_rows; cbn. induction is as [|i is IH]; cbn; auto.
  rewrite map_app, IH. f_equal. unfold row_cells. rewrite <- firstn_map, <- skipn_map; auto.
Qed.
Lemma row_in m a i : aref_in m a -> aref_in m (np_row a i).
Proof. auto. Qed.
Lemma rows_in m a is : aref_in m a -> aref_in m (np_rows a is).
Proof. auto. Qed.
Lemma aref_in_ext m l a : aref_in m a -> aref_in (m ++ l) a.
Proof. unfold aref_in; rewrite app_length; lia. Qed.
Lemma hval_in_ext m l h : hval_in m h -> hval_in (m ++ l) h.
Proof. destruct h; cbn; rewrite ?app_length; [apply aref_in_ext|lia]. Qed.
Lemma obj_in_len m m' o : length m <= length m' -> obj_in m o -> obj_in m' o.
Proof. unfold obj_in, aref_in; destruct o; intuition lia. Qed.
Lemma hval_in_len m m' h : length m <= length m' -> hval_in m h -> hval_in m' h.
Proof. unfold hval_in, aref_in; destruct h; lia. Qed.

#[local] Arguments load _ _ : simpl never.
#[local] Arguments buffer _ _ : simpl never.
#[local] Arguments np_row _ _ : simpl never.
#[local] Arguments np_rows _ _ : simpl never.

(** ** Answers depend on contents only *)
Definition shown_of (m : mem) (e : mem * list hval) : list shown := map (show_val (fst e)) (snd e).

Lemma show_fresh m sh data :
  show_val (m ++ [data]) (HArr (mkAref (length m) (seq 0 (length data)) sh)) = SArr sh data.
Proof. unfold show_val; rewrite load_new; auto. Qed.

Lemma show_ext m l h : hval_in m h -> show_val (m ++ l) h = show_val m h.
Proof.
  destruct h; cbn; intros H; f_equal; [apply load_ext; auto|apply buffer_ext; auto].
Qed.

Lemma hand_out_grows l : forall m r t, exists x, fst (hand_out m r t l) = m ++ x.
Proof.
  induction l as [|[d i] l IH]; intros m r t; cbn.
  - exists []; rewrite app_nil_r; auto.
  - destruct (hand_out (m ++ [d]) r t l) as [m2 rest] eqn:E; cbn.
    destruct (IH (m ++ [d]) r t) as [x Hx]. rewrite E in Hx; cbn in Hx.
    exists ([d] ++ x); rewrite Hx, app_assoc; auto.
Qed.

Definition row_of (a : aref) (c : list cell) (i : nat) : shown :=
  SArr (tl (a_shape a)) (firstn (row_size a) (skipn (i * row_size a) c)).

Lemma hand_out_shows l : forall m r t, aref_in m r -> aref_in m t ->
  map (show_val (fst (hand_out m r t l))) (snd (hand_out m r t l))
  = flat_map (fun di => [SArr [length (fst di) / 3; 3] (fst di);
                         row_of r (load m r) (snd di); row_of t (load m t) (snd di)]) l.
Proof.
  induction l as [|[d i] l IH]; intros m r t Hr Ht; cbn -[Nat.div]; auto.
  pose proof (IH (m ++ [d]) r t (aref_in_ext _ _ _ Hr) (aref_in_ext _ _ _ Ht)) as H.
  pose proof (hand_out_grows l (m ++ [d]) r t) as [x Hx].
  destruct (hand_out (m ++ [d]) r t l) as [m2 rest]; cbn -[Nat.div] in *; subst m2.
  f_equal; [|f_equal; [|f_equal]].
  - f_equal. rewrite load_ext; [apply load_new|].
    unfold aref_in; cbn; rewrite app_length; cbn; lia.
  - unfold row_of. f_equal. rewrite load_row, !load_ext; auto using aref_in_ext.
  - unfold row_of. f_equal. rewrite load_row, !load_ext; auto using aref_in_ext.
  - rewrite H. rewrite !load_ext by auto. auto.
Qed.

Lemma f_answer k s s' i c o :
  nth_error (st_objs s) i = Some o -> nth_error (st_objs s') i = Some o ->
  obj_in (st_mem s) o -> obj_in (st_mem s') o ->
  show_obj (st_mem s) o = show_obj (st_mem s') o ->
  call_on i c -> answer k s c = answer k s' c.
Proof.
  intros Ho Ho' Hi Hi' Hs Hc.
  destruct s as [m hs os], s' as [m' hs' os']; cbn [st_mem st_objs] in *.
  destruct c; cbn in Hc; try contradiction; subst;
    unfold answer, perform, with_obj, gives1, gives, makes; cbn [st_mem st_objs];
    rewrite Ho, Ho'.
  - (* Property *)
    destruct o; cbn in Hs; injection Hs as; destruct p; cbn -[seq]; auto; cbn in Hi, Hi';
    unfold show_arr in *; f_equal; f_equal; rewrite ?load_new, ?buffer_new; congruence.
  - (* EquivalentDisplacements *)
    destruct o; cbn; auto. cbn in Hs; injection Hs as Hn Hl Hp Hr Ht. cbn in Hi, Hi'.
    rewrite <- Hp, <- Hr, <- Ht.
    match goal with |- context [k_equivalent ?a ?b ?c ?d ?e ?f] => destruct (k_equivalent a b c d e f) end; cbn; auto.
    rewrite !map_map; cbn. f_equal. rewrite !app_nil_r.
    rewrite !hand_out_shows by tauto. rewrite Hr, Ht; auto.
  - (* RamanSpectrum *)
    destruct o; cbn; auto; cbn in Hs; unfold show_arr in Hs; cbn in Hi, Hi'.
    + injection Hs as Hr Hw Hd. rewrite <- Hr, <- Hd.
      match goal with |- context [k_tensors ?a ?b ?c] => destruct (k_tensors a b c) as [[sh data]|] end; cbn -[seq]; auto.
      unfold make_phonon_spectrum; cbn -[seq verify_ndarray_shape].
      destruct (verify_ndarray_shape (a_shape wavenumbers) [None]); cbn -[seq verify_ndarray_shape]; auto.
      match goal with |- context [verify_ndarray_shape ?a ?b] => destruct (verify_ndarray_shape a b) end; cbn -[seq]; auto.
      unfold show_arr. rewrite !load_new, !load_ext by tauto. rewrite Hw; auto.
    + injection Hs as Ht. rewrite <- Ht.
      match goal with |- context [k_polarizabilities ?a ?b] => destruct (k_polarizabilities a b) as [[sh data]|] end; cbn -[seq]; auto.
      unfold make_md_spectrum; cbn -[seq verify_ndarray_shape].
      match goal with |- context [verify_ndarray_shape ?a ?b] => destruct (verify_ndarray_shape a b) end; cbn -[seq]; auto.
      unfold show_arr. rewrite !load_new; auto.
  - (* GetItem *)
    destruct o; cbn; auto. cbn in Hs; injection Hs as Ht.
    destruct (py_index _ _); cbn; auto. do 3 f_equal. rewrite !load_row, Ht; auto.
  - (* GetSlice *)
    destruct o; cbn -[slice_bounds]; auto. cbn in Hs; injection Hs as Ht.
    destruct (_ =? 0)%Z; cbn -[slice_bounds]; auto.
    destruct (slice_bounds _ _ _ _) as [a b]; cbn. do 3 f_equal. rewrite !load_rows, Ht; auto.
  - (* Measure *)
    destruct o; cbn; auto; cbn in Hs; unfold show_arr in Hs; cbn in Hi, Hi'.
    + injection Hs as Hw Ht. rewrite <- Hw, <- Ht.
      match goal with |- context [k_phonon_measure ?a ?b ?c ?d] => destruct (k_phonon_measure a b c d) as [x|] end; cbn -[seq]; auto.
      rewrite !load_new, !load_ext by tauto. rewrite Hw; auto.
    + injection Hs as Ht. rewrite <- Ht.
      match goal with |- context [k_md_measure ?a ?b ?c ?d] => destruct (k_md_measure a b c d) as [[w x]|] end; cbn -[seq]; auto.
      rewrite !load_new.
      rewrite !(load_ext (_ ++ [w])) by (unfold aref_in; cbn; rewrite app_length; cbn; lia).
      rewrite !load_new; auto.
Qed.
