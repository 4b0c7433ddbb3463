(** Proofs about models in memory: memory, one call. *)
From Coq Require Import String ZArith Reals Bool Arith List Lia.
From Verif Require Import Base LinAlg M_Validate M_StructUtils M_Reference M_Interp M_Art M_Alias S_Interp
  P_Interp P_Interp2 P_Art M_Shared S_Alias S_Shared P_Alias P_Alias3.
Import ListNotations.

#[local] Arguments load _ _ : simpl never.
#[local] Arguments buffer _ _ : simpl never.
#[local] Arguments np_row _ _ : simpl never.

(** ** The adding methods *)
Lemma run_adding_cases art a v v' w r : run_adding art a v = ((v', w), r) ->
  (exists e, r = Err e /\ v' = v) \/ (r = Ok tt /\ exists bs sps, v' = appended v bs sps).
Proof.
  assert (A: forall c x p k i w, add_dof c x p k i v = ((v', w), r) ->
    (exists e, r = Err e /\ v' = v) \/ (r = Ok tt /\ exists bs sps, v' = appended v bs sps)).
  { intros c x p k i w' H.
    apply add_dof_cases in H as [H|(-> & _ & disp & dofs & bs & pss & _ & _ & _ & _ & _ & _ & _ & _ & ->)]; eauto 10. }
  assert (B: forall d0 amps pols w, add_one_atom d0 amps pols v = ((v', w), r) ->
    (exists e, r = Err e /\ v' = v) \/ (r = Ok tt /\ exists bs sps, v' = appended v bs sps)).
  { intros d0 amps pols w' H.
    apply add_one_atom_cases in H as [H|(-> & _ & _ & dofs & bs & pss & _ & _ & _ & _ & _ & ->)]; eauto 10. }
  assert (U: forall e, ((v, []), Err e) = ((v', w), r) -> exists e, r = Err e /\ v' = v) by (intros e [= <- <- <-]; eauto).
  destruct a; destruct art; cbn [run_adding run_op].
  - intros H. left. eapply U; exact H.
  - apply A.
  - intros H. left. eapply U; exact H.
  - unfold add_dof_from_files, bind, get, lift. destruct (read_dof v rds) as [[[d0 am] po]|e].
    2: { intros [= <- <- <-]; left; eauto. }
    destruct (add_dof _ _ _ _ _ v) as [[s2 w2] r2] eqn:E. simpl. intros [= <- <- <-]. eapply A; eauto.
  - intros H. left. eapply U; exact H.
  - unfold add_dof_from_pymatgen, bind, get, lift. destruct (displacement_amplitudes v poss) as [x|e].
    2: { intros [= <- <- <-]; left; eauto. }
    destruct (add_dof _ _ _ _ _ v) as [[s2 w2] r2] eqn:E. simpl. intros [= <- <- <-]. eapply A; eauto.
  - intros H. apply add_art_cases in H as [H|(-> & _ & f & k & _ & _ & H)]; [auto|]. eapply A; eauto.
  - intros H. left. eapply U; exact H.
  - unfold add_art_from_files, bind, get, lift. destruct (read_dof v rds) as [[[d0 am] po]|e].
    2: { intros [= <- <- <-]; left; eauto. }
    destruct (add_one_atom d0 am po v) as [[s2 w2] r2] eqn:E. simpl. intros [= <- <- <-]. eapply B; eauto.
  - intros H. left. eapply U; exact H.
  - unfold add_art_from_pymatgen, bind, get, lift. destruct (displacement_amplitudes v poss) as [x|e].
    2: { intros [= <- <- <-]; left; eauto. }
    destruct (add_one_atom (fst x) (snd x) pols v) as [[s2 w2] r2] eqn:E. simpl. intros [= <- <- <-]. eapply B; eauto.
  - intros H. left. eapply U; exact H.
Qed.

(** ** Elements *)
Lemma flag_bool b : flag (bool_cell b) = b.
Proof. destruct b; auto. Qed.
Lemma map_flag_bool l : map flag (map bool_cell l) = l.
Proof. rewrite map_map. rewrite <- (map_id l) at 2. apply map_ext. apply flag_bool. Qed.
Lemma rows_of_data l : rows_of (rows_data l) = l.
Proof. induction l as [|[x y z] l IH]; simpl; auto. rewrite IH. auto. Qed.
Lemma rows_data_length l : length (rows_data l) = length l * 3.
Proof. induction l as [|v l IH]; simpl; auto. Qed.
Lemma matrix_of_data m : matrix_of (matrix_data m) = m.
Proof. destruct m as [[] [] []]. reflexivity. Qed.

(** ** Memory *)
Definition good (m : mem) (a : aref) : Prop := ordinary m a /\ length (a_cells a) = prod_list (a_shape a).
(** Buffers never shrink or move *)
Definition keeps (m m' : mem) : Prop :=
  length m <= length m' /\ forall b, b < length m -> length (buffer m' b) = length (buffer m b).

Lemma keeps_refl m : keeps m m.
Proof. split; auto. Qed.
Lemma keeps_trans a b c : keeps a b -> keeps b c -> keeps a c.
Proof. intros [H1 H2] [H3 H4]. split; [lia|]. intros k Hk. rewrite H4, H2; auto; lia. Qed.
Lemma keeps_ext m x : keeps m (m ++ x).
Proof. split; [rewrite app_length; lia|]. intros b Hb. rewrite buffer_ext; auto. Qed.
Lemma keeps_good m m' a : keeps m m' -> good m a -> good m' a.
Proof.
  intros [H1 H2] ((G1 & G2 & G3) & G4). split; auto. split; [unfold aref_in in *; lia|]. split; auto.
  rewrite H2; auto.
Qed.
Lemma store_length m a k c : length (store m a k c) = length m.
Proof. unfold store. destruct (nth_error _ _); auto. apply set_nth_length. Qed.
Lemma store_keeps m a k c : keeps m (store m a k c).
Proof.
  split; [rewrite store_length; auto|]. intros b Hb. unfold store. destruct (nth_error (a_cells a) k) as [j|]; auto.
  destruct (Nat.eq_dec b (a_buf a)) as [->|N].
  - unfold buffer at 1. rewrite set_nth_same by auto. apply set_nth_length.
  - unfold buffer. rewrite set_nth_other by auto. auto.
Qed.
Lemma store_other m a k c b : b <> a_buf a -> buffer (store m a k c) b = buffer m b.
Proof.
  intros N. unfold store. destruct (nth_error (a_cells a) k) as [j|]; auto. unfold buffer. apply set_nth_other; auto.
Qed.

(** Several stores into one array *)
Definition stores (m : mem) (a : aref) (l : list (nat * cell)) : mem :=
  fold_left (fun m' kc => store m' a (fst kc) (snd kc)) l m.
Lemma stores_keeps a l : forall m, keeps m (stores m a l).
Proof.
  induction l as [|kc l IH]; intros m; simpl; [apply keeps_refl|].
  eapply keeps_trans; [apply store_keeps|apply IH].
Qed.
Lemma stores_length a l m : length (stores m a l) = length m.
Proof. revert m; induction l as [|kc l IH]; intros m; simpl; auto. rewrite IH. apply store_length. Qed.
Lemma stores_other a l b : b <> a_buf a -> forall m, buffer (stores m a l) b = buffer m b.
Proof. intros N. induction l as [|kc l IH]; intros m; simpl; auto. rewrite IH. apply store_other; auto. Qed.
Lemma stores_load a l : forall m, good m a -> Forall (fun kc => fst kc < length (a_cells a)) l ->
  load (stores m a l) a = fold_left (fun x kc => set_nth (fst kc) (snd kc) x) l (load m a).
Proof.
  induction l as [|[k c] l IH]; intros m G F; simpl; auto. inversion F; subst. simpl in *.
  rewrite IH; auto.
  - f_equal. destruct (nth_error (a_cells a) k) as [j|] eqn:E.
    + eapply load_store; eauto. apply G.
    + apply nth_error_None in E. lia.
  - eapply keeps_good; [apply store_keeps|auto].
Qed.
(** Overwriting every element *)
Lemma overwrite (new : list cell) : forall old pre, length new = length old ->
  fold_left (fun x kc => set_nth (fst kc) (snd kc) x) (combine (seq (length pre) (length new)) new) (pre ++ old)
  = pre ++ new.
Proof.
  induction new as [|c new IH]; intros [|d old] pre L; simpl in *; try discriminate; auto.
  assert (E : set_nth (length pre) c (pre ++ d :: old) = (pre ++ [c]) ++ old).
  { clear. induction pre as [|p pre IH]; simpl; auto. rewrite IH. auto. }
  rewrite E. specialize (IH old (pre ++ [c])). rewrite app_length in IH. simpl in IH.
  replace (S (length pre)) with (length pre + 1) by lia. rewrite IH by lia. rewrite <- app_assoc. auto.
Qed.
Lemma load_length m a : length (load m a) = length (a_cells a).
Proof. unfold load. apply map_length. Qed.

Lemma fill_stores m a c : fill m a c = stores m a (map (fun k => (k, c)) (seq 0 (length (a_cells a)))).
Proof.
  unfold fill, stores. generalize (seq 0 (length (a_cells a))) as l. intros l. revert m.
  induction l as [|k l IH]; intros m; simpl; auto.
Qed.
Lemma flags_stores m a flags :
  fold_left (fun m' kb => store m' a (fst kb) (bool_cell (snd kb))) (combine (seq 0 (length flags)) flags) m
  = stores m a (combine (seq 0 (length (map bool_cell flags))) (map bool_cell flags)).
Proof.
  unfold stores. rewrite map_length. generalize (seq 0 (length flags)) as l. intros l. revert m l.
  induction flags as [|b flags IH]; intros m [|k l]; simpl; auto.
Qed.
Lemma fill_pairs (c : cell) n : map (fun k => (k, c)) (seq 0 n) = combine (seq 0 n) (repeat c n).
Proof. generalize 0. induction n; intros k; simpl; auto. rewrite IHn. auto. Qed.
Lemma stores_all m a new : good m a -> length new = length (a_cells a) ->
  load (stores m a (combine (seq 0 (length new)) new)) a = new.
Proof.
  intros G L. rewrite stores_load; auto.
  - apply (overwrite new (load m a) []). rewrite load_length. auto.
  - apply Forall_forall. intros [k c] H. apply in_combine_l in H. apply in_seq in H. simpl. lia.
Qed.
Lemma fill_load m a c : good m a -> load (fill m a c) a = repeat c (length (a_cells a)).
Proof.
  intros G. rewrite fill_stores, fill_pairs.
  pose proof (stores_all m a (repeat c (length (a_cells a))) G) as H. rewrite repeat_length in H. auto.
Qed.

(** New arrays *)
Definition made (m m' : mem) (a : aref) (p : list nat * list cell) : Prop :=
  a_shape a = fst p /\ length m <= a_buf a < length m' /\ load m' a = snd p /\
  ordinary m' a /\ length (a_cells a) = length (snd p).
Lemma made_new m sh data : made m (m ++ [data]) (mkAref (length m) (seq 0 (length data)) sh) (sh, data).
Proof.
  split; [auto|]. split; [simpl; rewrite app_length; simpl; lia|]. split; [apply load_new|].
  split; [|simpl; apply seq_length].
  split; [unfold aref_in; simpl; rewrite app_length; simpl; lia|]. simpl. split; [apply seq_NoDup|].
  rewrite buffer_new. apply Forall_forall. intros k H. apply in_seq in H. lia.
Qed.
Lemma made_ext m m' x a p : made m m' a p -> made m (m' ++ x) a p.
Proof.
  intros (H1 & H2 & H3 & H4 & H5). split; [auto|]. split; [rewrite app_length; lia|].
  split; [rewrite load_ext; auto; apply H4|]. split; auto. apply ordinary_grow; auto.
Qed.
Lemma made_wider m0 m m' a p : length m0 <= length m -> made m m' a p -> made m0 m' a p.
Proof. intros L (H1 & H2 & H3). split; auto. split; [lia|auto]. Qed.
Lemma made_good m m' a p : made m m' a p -> length (snd p) = prod_list (fst p) -> good m' a.
Proof. intros (H1 & _ & _ & H4 & H5) L. split; auto. rewrite H5, L, H1. auto. Qed.

Lemma new_arrays_spec l : forall m, exists r, new_arrays m l = (m ++ map snd l, r) /\
  Forall2 (made m (m ++ map snd l)) r l.
Proof.
  induction l as [|[sh data] l IH]; intros m; simpl.
  - exists []. rewrite app_nil_r. auto.
  - destruct (IH (m ++ [data])) as (r & E & F). rewrite E. simpl. rewrite <- app_assoc in *. simpl in *.
    eexists. split; [reflexivity|]. constructor.
    + replace (m ++ data :: map snd l) with ((m ++ [data]) ++ map snd l) by (rewrite <- app_assoc; auto).
      apply made_ext, made_new.
    + clear E IH. revert F. generalize (m ++ data :: map snd l) as mm. intros mm F. induction F as [|a p r' l' Ha F IHF]; constructor; auto.
      eapply made_wider; [|exact Ha]. rewrite app_length; lia.
Qed.

(** ** One call *)
Definition good_model (m : mem) (o : pmodel) : Prop :=
  good m (pm_pol o) /\ a_shape (pm_pol o) = [3; 3] /\
  Forall (fun b => good m b /\ exists n, a_shape b = [n; 3]) (pm_basis o) /\
  good m (pm_mask o) /\ exists n, a_shape (pm_mask o) = [n].
Definition sound (w : world) : Prop :=
  Forall (good (w_mem w)) (w_held w) /\ Forall (good_model (w_mem w)) (w_models w).

Lemma keeps_good_model m m' o : keeps m m' -> good_model m o -> good_model m' o.
Proof.
  intros K (H1 & H2 & H3 & H4 & H5). split; [eapply keeps_good; eauto|]. split; [auto|]. split; [|split; [eapply keeps_good; eauto|auto]].
  eapply Forall_impl; [|exact H3]. intros b (G & S). split; auto. eapply keeps_good; eauto.
Qed.

(** Which existing memory a call writes to *)
Definition writes (w : world) (c : call) (b : nat) : Prop :=
  match c with
  | WriteTo i _ _ => exists a, nth_error (w_held w) i = Some a /\ a_buf a = b
  | Unmask j => exists o, nth_error (w_models w) j = Some o /\ a_buf (pm_mask o) = b
  | _ => False
  end.
(** Where the arrays a call hands out live *)
Definition hands (w : world) (c : call) (a : aref) : Prop :=
  length (w_mem w) <= a_buf a \/
  match c with
  | Slice i _ _ => exists a', nth_error (w_held w) i = Some a' /\ a_buf a = a_buf a'
  | GetDirections j => exists o b k, nth_error (w_models w) j = Some o /\ In b (pm_basis o) /\ a = np_row b k
  | _ => False
  end.
(** What becomes of model [j] *)
Definition becomes (w : world) (c : call) (j : nat) (o' : pmodel) : Prop :=
  let fresh a := length (w_mem w) <= a_buf a in
  match c with
  | Add k _ => if Nat.eqb k j then exists o bs, nth_error (w_models w) j = Some o /\ pm_art o' = pm_art o /\
       pm_ref o' = pm_ref o /\ pm_pol o' = pm_pol o /\ pm_dummy o' = pm_dummy o /\
       pm_basis o' = pm_basis o ++ bs /\ Forall fresh bs /\ fresh (pm_mask o')
     else nth_error (w_models w) j = Some o'
  | SetMask k i => if Nat.eqb k j then exists o a, nth_error (w_models w) j = Some o /\
       nth_error (w_held w) i = Some a /\
       o' = mkPm (pm_art o) (pm_ref o) (pm_pol o) (pm_dummy o) (pm_basis o) (pm_interp o) a
     else nth_error (w_models w) j = Some o'
  | MakeModel _ _ i _ => nth_error (w_models w) j = Some o' \/
       (j = length (w_models w) /\ pm_basis o' = [] /\ fresh (pm_mask o') /\
        (fresh (pm_pol o') \/ nth_error (w_held w) i = Some (pm_pol o')))
  | GetMasked _ _ => nth_error (w_models w) j = Some o' \/
       (j = length (w_models w) /\ Forall fresh (pm_basis o') /\ fresh (pm_mask o') /\ fresh (pm_pol o'))
  | _ => nth_error (w_models w) j = Some o'
  end.

Record effect (w : world) (c : call) (w' : world) : Prop := mkEffect {
  ef_keeps : keeps (w_mem w) (w_mem w');
  ef_memory : forall b, b < length (w_mem w) -> buffer (w_mem w') b = buffer (w_mem w) b \/ writes w c b;
  ef_held : exists l, w_held w' = w_held w ++ l /\ Forall (fun a => good (w_mem w') a /\ hands w c a) l;
  ef_models : forall j o', nth_error (w_models w') j = Some o' -> becomes w c j o';
  ef_count : length (w_models w) <= length (w_models w');
  ef_sound : Forall (good_model (w_mem w')) (w_models w') }.

Lemma set_nth_nth {A} (l : list A) k j x : nth_error (set_nth k x l) j =
  if Nat.eqb k j then (if j <? length l then Some x else None) else nth_error l j.
Proof.
  revert k j; induction l as [|y l IH]; intros [|k] [|j]; simpl; auto.
  - destruct (k =? j); auto.
  - rewrite IH. destruct (k =? j); auto.
Qed.
Lemma held_ok w i a : held w i = Ok a -> nth_error (w_held w) i = Some a.
Proof. unfold held. destruct (nth_error _ _); intros [= <-]; auto. Qed.
Lemma model_ok w j o : model w j = Ok o -> nth_error (w_models w) j = Some o.
Proof. unfold model. destruct (nth_error _ _); intros [= <-]; auto. Qed.

Lemma app_one_nth {A} (l : list A) x j y : nth_error (l ++ [x]) j = Some y ->
  nth_error l j = Some y \/ (j = length l /\ y = x).
Proof.
  intros H. destruct (lt_dec j (length l)) as [L|L].
  - rewrite nth_error_app1 in H; auto.
  - rewrite nth_error_app2 in H by lia. destruct (j - length l) as [|n] eqn:E; simpl in H.
    + injection H as <-. right; split; auto; lia.
    + destruct n; discriminate.
Qed.

Lemma effect_give w c m1 l : keeps (w_mem w) m1 ->
  (forall b, b < length (w_mem w) -> buffer m1 b = buffer (w_mem w) b) ->
  Forall (fun a => good m1 a /\ hands w c a) l -> sound w ->
  (forall j o', nth_error (w_models w) j = Some o' -> becomes w c j o') ->
  effect w c (give w m1 l).
Proof.
  intros K B F [S1 S2] M. constructor; simpl; auto.
  - exists l. auto.
  - eapply Forall_impl; [|exact S2]. intros o. apply keeps_good_model; auto.
Qed.

Lemma NoDup_app_parts {A} (a b : list A) : NoDup (a ++ b) -> NoDup a /\ NoDup b.
Proof.
  induction a as [|x a IH]; simpl; intros H; [split; auto; constructor|]. inversion H; subst.
  destruct (IH H3) as [H4 H5]. split; auto. constructor; auto. intros C. apply H2, in_or_app; auto.
Qed.
Lemma np_row_good m b k n : good m b -> a_shape b = [n; 3] -> k < n -> good m (np_row b k).
Proof.
  intros ((H1 & H2 & H3) & H4) S L. rewrite S in H4. simpl in H4.
  assert (R : row_size b = 3) by (unfold row_size; rewrite S; auto).
  assert (Hs : a_cells b = firstn (k * 3) (a_cells b) ++ firstn 3 (skipn (k * 3) (a_cells b))
                 ++ skipn 3 (skipn (k * 3) (a_cells b))).
  { rewrite firstn_skipn, firstn_skipn. auto. }
  unfold np_row, row_cells. rewrite R. split; cbn [a_cells a_shape a_buf].
  - split; [exact H1|]. cbn [a_cells a_shape a_buf]. split.
    + rewrite Hs in H2. apply NoDup_app_parts in H2 as [_ H2]. apply NoDup_app_parts in H2 as [H2 _]. auto.
    + rewrite Hs in H3. apply Forall_app in H3 as [_ H3]. apply Forall_app in H3 as [H3 _]. auto.
  - rewrite S. cbn [tl]. rewrite firstn_length, skipn_length. cbn [prod_list fold_right]. lia.
Qed.

Lemma rows_of_length l n : length l = n * 3 -> length (rows_of l) = n.
Proof.
  revert l; induction n as [|n IH]; intros l H; simpl in *.
  - destruct l; [auto|discriminate].
  - destruct l as [|a [|b [|c l]]]; simpl in *; try discriminate. rewrite IH; lia.
Qed.
Lemma dofs_of_atom_in a basis : forall k l, dofs_of_atom a k basis = Ok l ->
  Forall (fun b => exists i, py_index (length b) a = Some i) basis.
Proof.
  induction basis as [|b basis IH]; intros k l; simpl; [constructor|].
  destruct (py_index (length b) a) as [i|] eqn:E; [|discriminate].
  destruct (dofs_of_atom a (S k) basis) as [rest|] eqn:F; [|discriminate]. intros _. constructor; eauto.
Qed.
Lemma mapM_all {A B} (f : A -> res B) l r : mapM f l = Ok r -> Forall2 (fun x y => f x = Ok y) l r.
Proof.
  revert r; induction l as [|x l IH]; intros r; simpl; [intros [= <-]; constructor|].
  destruct (f x) as [y|] eqn:E; simpl; [|discriminate]. destruct (mapM f l) as [ys|] eqn:F; simpl; [|discriminate].
  intros [= <-]. constructor; auto.
Qed.

(** The views [get_specification_tuples] gives away *)
Lemma direction_views_in m o l : direction_views m o = Ok l ->
  Forall (good_model m) [o] ->
  Forall (fun a => good m a /\ exists b k, In b (pm_basis o) /\ a = np_row b k) l.
Proof.
  intros H G. inversion G as [|? ? (_ & _ & GB & _) _]; subst. clear G. unfold direction_views in H.
  destruct (get_equivalent_atom_dict (pm_ref o)) as [d|] eqn:D; [|discriminate]. simpl in H.
  match type of H with rmap _ ?x = _ => destruct x as [ls|] eqn:E; [|discriminate] end.
  simpl in H. injection H as <-. apply mapM_all in E.
  apply Forall_concat. rewrite Forall_forall. intros x Hx.
  assert (exists kv : nat * list nat, (let* idx := get_dof_indexes (fun l => l) (contents m o) [ByIndex (Z.of_nat (fst kv))] in
             mapM (fun i => match nth_error (pm_basis o) i with
                            | None => Err IndexError
                            | Some b => Ok (np_row b (fst kv))
                            end) idx) = Ok x) as (kv & K).
  { clear - E Hx. induction E as [|kv y d ls H E IH]; [destruct Hx|]. destruct Hx as [->|Hx]; eauto. }
  destruct (get_dof_indexes _ _ _) as [idx|] eqn:I; [|discriminate]. simpl in K. apply mapM_all in K.
  assert (A : Forall (fun b => good m b /\ exists n, a_shape b = [n; 3] /\ fst kv < n) (pm_basis o)).
  { unfold get_dof_indexes, requested in I. simpl in I.
    destruct (dofs_of_atom (Z.of_nat (fst kv)) 0 (map (fun b => rows_of (load m b)) (pm_basis o))) as [idx'|] eqn:J;
      [|discriminate]. apply dofs_of_atom_in in J. rewrite Forall_map in J.
    rewrite Forall_forall in *. intros b Hb. destruct (GB b Hb) as (G & n & Sb). split; auto. exists n. split; auto.
    destruct (J b Hb) as (i & Hi). unfold py_index in Hi. rewrite (rows_of_length _ n) in Hi.
    - destruct (0 <=? Z.of_nat (fst kv))%Z eqn:C0; [|apply Z.leb_gt in C0; lia].
      destruct (Z.of_nat (fst kv) <? Z.of_nat n)%Z eqn:C; [|discriminate]. apply Z.ltb_lt in C. lia.
    - rewrite load_length. destruct G as [_ G]. rewrite Sb in G. simpl in G. lia. }
  clear - K A. induction K as [|i a idx x H K IH]; constructor; auto.
  destruct (nth_error (pm_basis o) i) as [b|] eqn:E; [|discriminate]. injection H as <-.
  apply nth_error_In in E. rewrite Forall_forall in A. destruct (A b E) as (G & n & S1 & L). split.
  - eapply np_row_good; eauto.
  - exists b, (fst kv). auto.
Qed.

Lemma Forall2_right {A B} (P : A -> B -> Prop) (Q : A -> Prop) l m :
  Forall2 P l m -> (forall a b, P a b -> In b m -> Q a) -> Forall Q l.
Proof. intros F. induction F; intros K; constructor; eauto using in_eq. apply IHF. eauto using in_cons. Qed.

Lemma distinct_NoDup l : distinct l = true -> NoDup l.
Proof.
  induction l as [|x l IH]; simpl; intros H; constructor.
  - apply andb_prop in H as [H _]. apply negb_true_iff in H. intros C.
    assert (existsb (Nat.eqb x) l = true); [|congruence]. apply existsb_exists. exists x. split; auto. apply Nat.eqb_refl.
  - apply IH. apply andb_prop in H. tauto.
Qed.
Lemma slice_good m a elements sh : good m a ->
  positions_ok (length (a_cells a)) elements = true -> length elements = prod_list sh ->
  good m (mkAref (a_buf a) (map (fun k => nth k (a_cells a) 0) elements) sh).
Proof.
  intros ((G1 & G2 & G3) & G4) P L. apply andb_prop in P as [P D]. apply distinct_NoDup in D.
  rewrite forallb_forall in P.
  assert (P' : forall k, In k elements -> k < length (a_cells a)) by (intros k Hk; apply Nat.ltb_lt, P; auto).
  split; simpl; [|rewrite map_length; auto]. split; [exact G1|]. simpl. split.
  - clear P L. induction elements as [|k l IH]; simpl; constructor; inversion D; subst.
    + intros C. apply in_map_iff in C as (k' & E & Hk'). apply H1.
      rewrite (NoDup_nth (a_cells a) 0) in G2. apply G2 in E; subst; auto using in_eq, in_cons.
    + apply IH; auto using in_cons.
  - rewrite Forall_forall in *. intros j Hj. apply in_map_iff in Hj as (k & <- & Hk). apply G3, nth_In; auto.
Qed.

Lemma verify_33 sh : verify_ndarray_shape sh [Some 3; Some 3] = Ok tt -> sh = [3; 3].
Proof.
  unfold verify_ndarray_shape. destruct sh as [|x [|y [|]]]; simpl; try discriminate.
  destruct (Nat.eqb_spec x 3); [|discriminate]. destruct (Nat.eqb_spec y 3); [|discriminate]. subst; auto.
Qed.
Lemma verify_same sh sh' : verify_ndarray_shape sh (map Some sh') = Ok tt <-> sh = sh'.
Proof.
  unfold verify_ndarray_shape. rewrite map_length. split.
  - destruct (Nat.eqb_spec (length sh') (length sh)) as [L|]; simpl; [|discriminate].
    destruct (dims_match sh (map Some sh')) eqn:D; [|discriminate]. intros _.
    revert sh' L D; induction sh as [|x sh IH]; intros [|y sh'] L D; simpl in *; try discriminate; auto.
    destruct (Nat.eqb_spec x y); [|discriminate]. subst. f_equal. apply IH; auto.
  - intros ->. rewrite Nat.eqb_refl. simpl.
    assert (D : dims_match sh' (map Some sh') = true); [|rewrite D; auto].
    induction sh' as [|x sh' IH]; simpl; auto. rewrite Nat.eqb_refl. auto.
Qed.

Lemma nth_good {A} (P : A -> Prop) l i a : Forall P l -> nth_error l i = Some a -> P a.
Proof. intros F H. rewrite Forall_forall in F. apply F. eapply nth_error_In; eauto. Qed.
Lemma set_nth_Forall {A} (P : A -> Prop) l k x : Forall P l -> P x -> Forall P (set_nth k x l).
Proof. revert k; induction l as [|y l IH]; intros [|k] F H; simpl; auto; inversion F; subst; constructor; auto. Qed.

Lemma copies_good m l : Forall (fun b => good m b /\ exists n, a_shape b = [n; 3]) l -> forall r m',
  Forall2 (made m m') r (map (fun b => (a_shape b, load m b)) l) ->
  Forall (fun b => good m' b /\ exists n, a_shape b = [n; 3]) r.
Proof.
  intros F r m' H. rewrite Forall_forall in F. eapply Forall2_right; [exact H|]. intros a p M Hp.
  apply in_map_iff in Hp as (b & <- & Hb). destruct (F b Hb) as (G & n & S). split.
  - eapply made_good; [exact M|]. simpl. rewrite load_length. apply G.
  - exists n. destruct M as (-> & _). auto.
Qed.

Lemma basis_good m l r m' : Forall2 (made m m') r (map basis_array l) ->
  Forall (fun b => good m' b /\ exists n, a_shape b = [n; 3]) r.
Proof.
  intros H. eapply Forall2_right; [exact H|]. intros a p M Hp. apply in_map_iff in Hp as (b & <- & _). split.
  - eapply made_good; [exact M|]. simpl. rewrite rows_data_length. lia.
  - exists (length b). destruct M as (-> & _). auto.
Qed.
Lemma made_fresh m m' r l : Forall2 (made m m') r l -> Forall (fun a => length m <= a_buf a) r.
Proof. intros H. eapply Forall2_right; [exact H|]. intros a p (_ & M & _) _. lia. Qed.

Lemma Forall2_weaken {A B} (P Q : A -> B -> Prop) l m : (forall a b, P a b -> Q a b) -> Forall2 P l m -> Forall2 Q l m.
Proof. intros H F. induction F; constructor; auto. Qed.
Lemma deepcopy_spec m o : exists x o', deepcopy m o = (m ++ x, o') /\
  pm_art o' = pm_art o /\ pm_ref o' = pm_ref o /\ pm_dummy o' = pm_dummy o /\ pm_interp o' = pm_interp o /\
  made m (m ++ x) (pm_pol o') (a_shape (pm_pol o), load m (pm_pol o)) /\
  Forall2 (made m (m ++ x)) (pm_basis o') (map (fun b => (a_shape b, load m b)) (pm_basis o)) /\
  (aref_in m (pm_mask o) -> made m (m ++ x) (pm_mask o') (a_shape (pm_mask o), load m (pm_mask o))).
Proof.
  unfold deepcopy, np_copy, np_new.
  destruct (new_arrays_spec (map (fun b => (a_shape b, load m b)) (pm_basis o)) (m ++ [load m (pm_pol o)])) as (bs & E & F).
  rewrite E. set (l := map snd _) in *.
  set (m2 := (m ++ [load m (pm_pol o)]) ++ l) in *.
  exists ([load m (pm_pol o)] ++ l ++ [load m2 (pm_mask o)]). eexists.
  replace (m ++ [load m (pm_pol o)] ++ l ++ [load m2 (pm_mask o)]) with (m2 ++ [load m2 (pm_mask o)])
    by (unfold m2; rewrite <- !app_assoc; auto).
  split; [reflexivity|]. simpl. do 4 (split; [reflexivity|]). split; [|split].
  - apply made_ext. unfold m2. apply made_ext, made_new.
  - eapply Forall2_weaken; [|exact F]. intros a p Ha. apply made_ext. eapply made_wider; [|exact Ha]. rewrite app_length; lia.
  - intros Hm. assert (L : load m2 (pm_mask o) = load m (pm_mask o)).
    { unfold m2. rewrite load_ext, load_ext; auto. apply aref_in_ext; auto. }
    rewrite L. eapply made_wider; [|apply made_new]. unfold m2. rewrite !app_length. lia.
Qed.

Lemma perform_effect spl w c w' : sound w -> perform spl w c = Ok w' -> effect w c w'.
Proof.
  intros Hs H. pose proof Hs as [S1 S2].
  assert (GB : forall m1 x, m1 = w_mem w ++ x -> keeps (w_mem w) m1 /\
    forall b, b < length (w_mem w) -> buffer m1 b = buffer (w_mem w) b).
  { intros m1 x ->. split; [apply keeps_ext|]. intros b Hb. apply buffer_ext; auto. }
  destruct c as [sh data|i els sh|i k x|art r i dummy|j a|j i|j|j|j|j|j|j b|j idx]; cbn [perform] in H.
  - (* NewArray *) destruct (Nat.eqb_spec (length data) (prod_list sh)) as [L|]; [|discriminate].
    simpl in H. injection H as <-. destruct (GB _ [data] eq_refl) as [K B].
    apply effect_give; auto. constructor; auto. pose proof (made_new (w_mem w) sh data) as M. split.
    + eapply made_good; eauto.
    + left. apply M.
  - (* Slice *) destruct (held w i) as [a|] eqn:E; [|discriminate]. apply held_ok in E. simpl in H.
    destruct (positions_ok _ _) eqn:P; [|discriminate]. destruct (Nat.eqb_spec (length els) (prod_list sh)) as [L|]; [|discriminate].
    simpl in H. injection H as <-. apply effect_give; auto using keeps_refl. constructor; auto. split.
    + apply slice_good; auto. eapply nth_good; eauto.
    + right. exists a. auto.
  - (* WriteTo *) destruct (held w i) as [a|] eqn:E; [|discriminate]. apply held_ok in E. simpl in H.
    destruct (k <? _); [|discriminate]. injection H as <-. constructor; simpl; auto.
    + apply store_keeps.
    + intros b Hb. destruct (Nat.eq_dec b (a_buf a)) as [->|N]; [right; exists a; auto|left; apply store_other; auto].
    + exists []. rewrite app_nil_r. auto.
    + eapply Forall_impl; [|exact S2]. intros o. apply keeps_good_model, store_keeps.
  - (* MakeModel *) destruct (held w i) as [a|] eqn:E; [|discriminate]. apply held_ok in E. simpl in H.
    destruct (if dummy then _ else _) as [m1 pol] eqn:D.
    assert (exists x, m1 = w_mem w ++ x /\ good m1 pol /\ (length (w_mem w) <= a_buf pol \/ pol = a)) as (x & -> & Gp & Fp).
    { destruct dummy; cbn in D; injection D as <- <-.
      - exists [matrix_data m0]. split; auto. pose proof (made_new (w_mem w) [3;3] (matrix_data m0)) as M. split; [|left; apply M].
        eapply made_good; [exact M|]. reflexivity.
      - exists []. rewrite app_nil_r. split; auto. split; [eapply nth_good; eauto|auto]. }
    destruct (verify_ndarray_shape _ _) as [[]|] eqn:V; [|discriminate]. apply verify_33 in V. cbn in H. injection H as <-.
    rewrite <- app_assoc. destruct (GB _ (x ++ [[]]) eq_refl) as [K B].
    assert (M : made (w_mem w) (w_mem w ++ x ++ [[]]) (mkAref (length (w_mem w ++ x)) [] [0]) ([0], [])).
    { rewrite app_assoc. eapply made_wider; [|apply (made_new (w_mem w ++ x) [0] [])]. rewrite app_length; lia. }
    constructor; simpl; auto.
    + exists []. rewrite app_nil_r. auto.
    + intros j o' Hj. apply app_one_nth in Hj as [Hj|[-> ->]]; auto. right. simpl.
      split; [auto|]. split; [auto|]. split; [apply M|]. destruct Fp as [Fp| ->]; auto.
    + rewrite app_length. lia.
    + apply Forall_app. split.
      * eapply Forall_impl; [|exact S2]. intros o. apply keeps_good_model; auto.
      * constructor; auto. split; [|split; [auto|split; [constructor|split]]]; simpl.
        -- eapply keeps_good; [|exact Gp]. rewrite app_assoc. apply keeps_ext.
        -- eapply made_good; [exact M|]. reflexivity.
        -- eauto.
  - (* Add *) destruct (model w j) as [o|] eqn:E; [|discriminate]. apply model_ok in E. cbn in H.
    destruct (run_adding _ _ _) as [[v' ws] r] eqn:R. destruct r as [[]|]; [|discriminate]. cbn in H.
    destruct (new_arrays_spec (map basis_array (skipn (length (pm_basis o)) (im_basis v'))) (w_mem w)) as (bs & N & F).
    rewrite N in H. cbn in H. injection H as <-.
    set (l := map snd _) in *. set (data := map bool_cell (im_mask v')).
    assert (M : made (w_mem w) (w_mem w ++ l ++ [data]) (mkAref (length (w_mem w ++ l)) (seq 0 (length data)) [length (im_mask v')]) ([length (im_mask v')], data)).
    { rewrite app_assoc. eapply made_wider; [|apply made_new]. rewrite app_length; lia. }
    destruct (GB _ (l ++ [data]) eq_refl) as [K B].
    assert (Go : good_model (w_mem w) o) by (eapply nth_good; eauto).
    replace ((w_mem w ++ l) ++ [data]) with (w_mem w ++ l ++ [data]) by (rewrite app_assoc; auto).
    constructor; simpl; auto.
    + exists []. rewrite app_nil_r. auto.
    + intros j' o' Hj. rewrite set_nth_nth in Hj. destruct (Nat.eqb_spec j j') as [<-|]; auto.
      assert (j < length (w_models w)) by (apply nth_error_Some; congruence).
      destruct (Nat.ltb_spec j (length (w_models w))); [|lia]. injection Hj as <-. simpl.
      exists o, bs. repeat (split; [auto; fail|]). split; [eapply made_fresh; eauto|]. apply M.
    + rewrite set_nth_length. auto.
    + apply set_nth_Forall.
      * eapply Forall_impl; [|exact S2]. intros o'. apply keeps_good_model; auto.
      * destruct Go as (G1 & G2 & G3 & G4). split; [eapply keeps_good; eauto|]. split; [auto|]. simpl. split; [|split].
        -- apply Forall_app. split.
           ++ eapply Forall_impl; [|exact G3]. intros b (Gb & Sb). split; auto. eapply keeps_good; eauto.
           ++ eapply Forall_impl; [|eapply basis_good; exact F]. intros b (Gb & Sb). split; auto.
              eapply keeps_good; [|exact Gb]. rewrite app_assoc. apply keeps_ext.
        -- eapply made_good; [exact M|]. simpl. unfold data. rewrite map_length. lia.
        -- eauto.
  - (* SetMask *) destruct (model w j) as [o|] eqn:E; [|discriminate]. apply model_ok in E. cbn in H.
    destruct (held w i) as [a|] eqn:A; [|discriminate]. apply held_ok in A. cbn in H.
    destruct (verify_ndarray_shape _ _) as [[]|] eqn:V; [|discriminate]. apply verify_same in V. cbn in H. injection H as <-.
    constructor; simpl; auto using keeps_refl.
    + exists []. rewrite app_nil_r. auto.
    + intros j' o' Hj. rewrite set_nth_nth in Hj. destruct (Nat.eqb_spec j j') as [<-|]; auto.
      assert (j < length (w_models w)) by (apply nth_error_Some; congruence).
      destruct (Nat.ltb_spec j (length (w_models w))); [|lia]. injection Hj as <-. exists o, a. auto.
    + rewrite set_nth_length. auto.
    + apply set_nth_Forall; auto. pose proof (nth_good _ _ _ _ S2 E) as (G1 & G2 & G3 & G4 & n & G5).
      split; [auto|]. split; [auto|]. split; [auto|]. simpl. split; [eapply nth_good; eauto|]. exists n. congruence.
  - (* Unmask *) destruct (model w j) as [o|] eqn:E; [|discriminate]. apply model_ok in E. cbn in H. injection H as <-.
    constructor; simpl; auto.
    + rewrite fill_stores. apply stores_keeps.
    + intros b Hb. rewrite fill_stores. destruct (Nat.eq_dec b (a_buf (pm_mask o))) as [->|N]; [right; exists o; auto|left; apply stores_other; auto].
    + exists []. rewrite app_nil_r. auto.
    + eapply Forall_impl; [|exact S2]. intros o'. rewrite fill_stores. apply keeps_good_model, stores_keeps.
  - (* GetMask *) destruct (model w j) as [o|] eqn:E; [|discriminate]. apply model_ok in E. cbn in H. injection H as <-.
    destruct (GB _ [load (w_mem w) (pm_mask o)] eq_refl) as [K B]. apply effect_give; auto. constructor; auto.
    pose proof (made_new (w_mem w) (a_shape (pm_mask o)) (load (w_mem w) (pm_mask o))) as M. split; [|left; apply M].
    eapply made_good; [exact M|]. simpl. rewrite load_length. apply (nth_good _ _ _ _ S2 E).
  - (* GetPolarizability *) destruct (model w j) as [o|] eqn:E; [|discriminate]. apply model_ok in E. cbn in H. injection H as <-.
    destruct (GB _ [load (w_mem w) (pm_pol o)] eq_refl) as [K B]. apply effect_give; auto. constructor; auto.
    pose proof (made_new (w_mem w) (a_shape (pm_pol o)) (load (w_mem w) (pm_pol o))) as M. split; [|left; apply M].
    eapply made_good; [exact M|]. simpl. rewrite load_length. apply (nth_good _ _ _ _ S2 E).
  - (* GetBasis *) destruct (model w j) as [o|] eqn:E; [|discriminate]. apply model_ok in E. cbn in H.
    destruct (new_arrays_spec (map (fun b => (a_shape b, load (w_mem w) b)) (pm_basis o)) (w_mem w)) as (bs & N & F).
    rewrite N in H. injection H as <-. set (mx := map snd _) in *. destruct (GB _ mx eq_refl) as [K B]. apply effect_give; auto.
    pose proof (made_fresh _ _ _ _ F) as Fr. apply copies_good in F; [|apply (nth_good _ _ _ _ S2 E)].
    rewrite Forall_forall in *. intros b Hb. split; [apply F; auto|left; apply Fr; auto].
  - (* GetDirections *) destruct (model w j) as [o|] eqn:E; [|discriminate]. apply model_ok in E. cbn in H.
    destruct (pm_art o); [|discriminate]. destruct (direction_views _ _) as [l|] eqn:D; [|discriminate]. cbn in H. injection H as <-.
    apply effect_give; auto using keeps_refl. apply direction_views_in in D; [|constructor; auto; eapply nth_good; eauto].
    eapply Forall_impl; [|exact D]. intros a (G & b & k & Hb & ->). split; auto. right. exists o, b, k. auto.
  - (* Predict *) destruct (model w j) as [o|] eqn:E; [|discriminate]. apply model_ok in E. cbn in H.
    destruct (calc_polarizabilities _ _ _) as [ms|]; [|discriminate]. cbn in H. injection H as <-.
    destruct (GB _ [flat_map matrix_data ms] eq_refl) as [K B]. apply effect_give; auto. constructor; auto.
    pose proof (made_new (w_mem w) [length ms; 3; 3] (flat_map matrix_data ms)) as M. split; [|left; apply M].
    eapply made_good; [exact M|]. cbn [snd fst]. cbn [prod_list fold_right]. clear. induction ms as [|x ms IH]; auto.
    cbn [flat_map]. rewrite app_length, IH. cbn [length]. simpl (length (matrix_data x)). lia.
  - (* GetMasked *) destruct (model w j) as [o|] eqn:E; [|discriminate]. apply model_ok in E. cbn [rbind] in H.
    pose proof (nth_good _ _ _ _ S2 E) as Go. pose proof Go as (G1 & G2 & G3 & G4 & n & G5).
    destruct (deepcopy_spec (w_mem w) o) as (x & o' & D & D1 & D2 & D3 & D4 & D5 & D6 & D7). rewrite D in H.
    specialize (D7 (proj1 (proj1 G4))). unfold np_copy, np_new in H. cbn [rbind] in H.
    set (data := load (w_mem w ++ x) (pm_mask o')) in *.
    set (mk := mkAref (length (w_mem w ++ x)) (seq 0 (length data)) (a_shape (pm_mask o'))) in *.
    pose proof (made_new (w_mem w ++ x) (a_shape (pm_mask o')) data) as M. fold mk in M.
    match type of H with rbind ?e _ = _ => destruct e as [flags|] eqn:FL; [|discriminate] end. cbn [rbind] in H. injection H as <-.
    rewrite flags_stores, fill_stores. set (ks := combine _ _). set (fs := map _ _).
    set (m2 := (w_mem w ++ x) ++ [data]) in *.
    assert (K2 : keeps m2 (stores (stores m2 mk fs) mk ks)) by (eapply keeps_trans; apply stores_keeps).
    assert (K : keeps (w_mem w) (stores (stores m2 mk fs) mk ks)).
    { eapply keeps_trans; [|exact K2]. unfold m2. rewrite <- app_assoc. apply keeps_ext. }
    assert (L : length (w_mem w) <= a_buf mk) by (unfold mk; simpl; rewrite app_length; lia).
    constructor; simpl; auto.
    + intros b Hb. left. rewrite !stores_other by lia. unfold m2. rewrite <- app_assoc. apply buffer_ext; auto.
    + exists []. rewrite app_nil_r. auto.
    + intros j' o2 Hj. apply app_one_nth in Hj as [Hj|[-> ->]]; auto. right. simpl.
      split; [auto|]. split; [eapply made_fresh; eauto|]. split; [exact L|]. apply D5.
    + rewrite app_length. lia.
    + apply Forall_app. split.
      * eapply Forall_impl; [|exact S2]. intros o2. apply keeps_good_model; auto.
      * constructor; auto.
        assert (K3 : keeps (w_mem w ++ x) (stores (stores m2 mk fs) mk ks)).
        { eapply keeps_trans; [|exact K2]. apply keeps_ext. }
        split; [|split; [|split; [|split]]]; simpl.
        -- eapply keeps_good; [exact K3|]. eapply made_good; [exact D5|]. simpl. rewrite load_length. apply G1.
        -- destruct D5 as (-> & _). auto.
        -- eapply Forall_impl; [|eapply copies_good; [exact G3|exact D6]]. intros b (Gb & Sb). split; auto.
           eapply keeps_good; eauto.
        -- eapply keeps_good; [exact K2|]. eapply made_good; [exact M|]. simpl.
           destruct D7 as (-> & _ & L7 & _). unfold data. rewrite L7. simpl. rewrite load_length. apply G4.
        -- exists n. destruct D7 as (-> & _). auto.
Qed.

Lemma effect_sound w c w' : sound w -> effect w c w' -> sound w'.
Proof.
  intros [S1 S2] [K _ (l & E & F) _ _ M]. split; auto. rewrite E. apply Forall_app. split.
  - eapply Forall_impl; [|exact S1]. intros a. apply keeps_good; auto.
  - eapply Forall_impl; [|exact F]. intros a (G & _). exact G.
Qed.

Lemma after_cases spl w c : sound w -> after spl w c = w \/ effect w c (after spl w c).
Proof.
  intros S. unfold after. destruct (perform spl w c) as [w'|e] eqn:E; auto. right. eapply perform_effect; eauto.
Qed.
Lemma after_sound spl w c : sound w -> sound (after spl w c).
Proof. intros S. destruct (after_cases spl w c S) as [->|H]; auto. eapply effect_sound; eauto. Qed.
Lemma history_sound spl cs : forall w, sound w -> sound (history spl w cs).
Proof. induction cs as [|c cs IH]; intros w S; simpl; auto. apply IH, after_sound; auto. Qed.
Lemma empty_sound : sound empty_world.
Proof. split; constructor. Qed.
Lemma reached_sound spl w : reached spl w -> sound w.
Proof. intros (cs & ->). apply history_sound, empty_sound. Qed.

(** Things never disappear *)
Lemma after_held spl w c i a : sound w -> nth_error (w_held w) i = Some a -> nth_error (w_held (after spl w c)) i = Some a.
Proof.
  intros S H. destruct (after_cases spl w c S) as [->|[_ _ (l & -> & _) _ _ _]]; auto.
  rewrite nth_error_app1; auto. apply nth_error_Some. congruence.
Qed.
Lemma history_held spl cs i a : forall w, sound w -> nth_error (w_held w) i = Some a ->
  nth_error (w_held (history spl w cs)) i = Some a.
Proof.
  induction cs as [|c cs IH]; intros w S H; simpl; auto. apply IH; [apply after_sound|apply after_held]; auto.
Qed.
Lemma effect_exists w c w' j o : effect w c w' -> nth_error (w_models w) j = Some o ->
  exists o', nth_error (w_models w') j = Some o' /\ becomes w c j o'.
Proof.
  intros E H. assert (L : j < length (w_models w)) by (apply nth_error_Some; congruence).
  destruct (nth_error (w_models w') j) as [o'|] eqn:G.
  - exists o'. split; auto. eapply ef_models; eauto.
  - exfalso. apply nth_error_None in G. pose proof (ef_count _ _ _ E). lia.
Qed.

(** What a call does to an existing model *)
Definition evolves (w : world) (c : call) (j : nat) (o o' : pmodel) : Prop :=
  o' = o \/
  (exists a bs, c = Add j a /\ pm_art o' = pm_art o /\ pm_ref o' = pm_ref o /\ pm_pol o' = pm_pol o /\
     pm_dummy o' = pm_dummy o /\ pm_basis o' = pm_basis o ++ bs /\
     Forall (fun b => length (w_mem w) <= a_buf b) bs /\ length (w_mem w) <= a_buf (pm_mask o')) \/
  (exists i a, c = SetMask j i /\ nth_error (w_held w) i = Some a /\
     o' = mkPm (pm_art o) (pm_ref o) (pm_pol o) (pm_dummy o) (pm_basis o) (pm_interp o) a).
Lemma after_model spl w c j o : sound w -> nth_error (w_models w) j = Some o ->
  exists o', nth_error (w_models (after spl w c)) j = Some o' /\ evolves w c j o o'.
Proof.
  intros S H. destruct (after_cases spl w c S) as [->|E]; [exists o; split; [auto|left; auto]|].
  destruct (effect_exists _ _ _ _ _ E H) as (o' & H' & B). exists o'. split; auto.
  destruct c; simpl in B; try (left; congruence).
  - destruct B as [B|(B & _)]; [left; congruence|]. assert (j < length (w_models w)) by (apply nth_error_Some; congruence). lia.
  - destruct (Nat.eqb_spec j0 j) as [->|N]; [|left; congruence]. destruct B as (o1 & bs & B1 & B2).
    rewrite H in B1. injection B1 as <-. right. left. exists a, bs. tauto.
  - destruct (Nat.eqb_spec j0 j) as [->|N]; [|left; congruence]. destruct B as (o1 & a & B1 & B2 & B3).
    rewrite H in B1. injection B1 as <-. right. right. exists i, a. auto.
  - destruct B as [B|(B & _)]; [left; congruence|]. assert (j < length (w_models w)) by (apply nth_error_Some; congruence). lia.
Qed.

(** ** Memory nobody else can write to *)
Section Frame.
Variables (F Q PM PB : nat -> Prop).
(** Memory [F] is only used by the arrays [Q], the masks of the models [PM] and the basis
    vectors of the models [PB] (and perhaps by reference polarizabilities). *)
Definition only_used (w : world) : Prop :=
  (forall b, F b -> b < length (w_mem w)) /\
  (forall i a, nth_error (w_held w) i = Some a -> F (a_buf a) -> Q i) /\
  (forall j o, nth_error (w_models w) j = Some o -> F (a_buf (pm_mask o)) -> PM j) /\
  (forall j o b, nth_error (w_models w) j = Some o -> In b (pm_basis o) -> F (a_buf b) -> PB j).
Definition spares (c : call) : Prop :=
  leaves_array Q c /\ match c with Unmask j => ~ PM j | GetDirections j => ~ PB j | _ => True end.

Lemma frame_step spl w c : sound w -> only_used w -> spares c ->
  only_used (after spl w c) /\ forall b, F b -> buffer (w_mem (after spl w c)) b = buffer (w_mem w) b.
Proof.
  intros S U Hc. destruct (after_cases spl w c S) as [->|E]; [auto|].
  destruct U as (U1 & U2 & U3 & U4). destruct E as [K M (l & Hl & Hh) B C G]. destruct Hc as [Hc1 Hc2].
  assert (Fresh : forall a, F (a_buf a) -> length (w_mem w) <= a_buf a -> False).
  { intros a Ha L. apply U1 in Ha. lia. }
  split; [split; [|split; [|split]]|].
  - intros b Hb. destruct K as [K _]. specialize (U1 b Hb). lia.
  - intros i a Hi Ha. rewrite Hl in Hi. destruct (lt_dec i (length (w_held w))) as [L|L].
    + rewrite nth_error_app1 in Hi by auto. eauto.
    + exfalso. rewrite nth_error_app2 in Hi by lia. apply (nth_good _ _ _ _ Hh) in Hi as (_ & [Hi|Hi]); [eauto|].
      destruct c; simpl in *; try contradiction.
      * destruct Hi as (a' & H1 & H2). apply Hc1. eapply U2; [eauto|congruence].
      * destruct Hi as (o & b & k & H1 & H2 & ->). apply Hc2. eapply U4; eauto.
  - intros j o Hj Ho. apply B in Hj. destruct c; simpl in *; eauto.
    + destruct Hj as [Hj|(-> & _ & Hj & _)]; [eauto|exfalso; eauto].
    + destruct (j0 =? j); [|eauto]. destruct Hj as (o1 & bs & _ & _ & _ & _ & _ & _ & _ & Hj). exfalso; eauto.
    + destruct (j0 =? j); [|eauto]. destruct Hj as (o1 & a & H1 & H2 & ->). simpl in Ho. exfalso. eauto.
    + destruct Hj as [Hj|(-> & _ & Hj & _)]; [eauto|exfalso; eauto].
  - intros j o b Hj Ib Hb. apply B in Hj. destruct c; simpl in *; eauto.
    + destruct Hj as [Hj|(-> & Hj & _)]; [eauto|]. rewrite Hj in Ib. destruct Ib.
    + destruct (Nat.eqb_spec j0 j); [|eauto]. destruct Hj as (o1 & bs & H1 & _ & _ & _ & _ & H2 & H3 & _).
      rewrite H2 in Ib. apply in_app_or in Ib as [Ib|Ib]; [eauto|]. rewrite Forall_forall in H3. exfalso. eauto.
    + destruct (j0 =? j); [|eauto]. destruct Hj as (o1 & a & H1 & H2 & ->). simpl in Ib. eauto.
    + destruct Hj as [Hj|(-> & Hj & _)]; [eauto|]. rewrite Forall_forall in Hj. exfalso. eauto.
  - intros b Hb. destruct (M b (U1 b Hb)) as [E|E]; auto. exfalso. destruct c; simpl in *; try contradiction.
    + destruct E as (a & H1 & <-). eauto.
    + destruct E as (o & H1 & <-). eauto.
Qed.

Lemma frame spl cs : forall w, sound w -> only_used w -> Forall spares cs ->
  only_used (history spl w cs) /\ forall b, F b -> buffer (w_mem (history spl w cs)) b = buffer (w_mem w) b.
Proof.
  induction cs as [|c cs IH]; intros w S U H; simpl; auto. inversion H; subst.
  destruct (frame_step spl w c S U H2) as [U' E]. destruct (IH _ (after_sound spl w c S) U' H3) as [U'' E'].
  split; auto. intros b Hb. rewrite E', E; auto.
Qed.
End Frame.
