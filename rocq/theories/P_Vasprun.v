(** Proofs about the vasprun.xml readers: C61, C62. *)
From Coq Require Import String Ascii ZArith NArith QArith Qreals Reals Bool Arith List Lia Lra.
From Verif Require Import Base LinAlg Constants M_Validate M_StructUtils M_Text M_Poscar M_Outcar M_Vasprun
  S_Text S_Lattice S_Outcar S_Vasprun
  P_StructUtils P_Text P_Poscar P_Poscar2 P_Poscar4 P_Outcar P_Outcar2 P_Outcar3.
Import ListNotations.
Local Open Scope nat_scope.

(** ** Paths *)
Lemma x_get_some e k v : x_get e k = Some v <-> attribute e k v.
Proof.
  unfold x_get, attribute. generalize (x_attrs e) as l. induction l as [|[k' v'] l IH]; cbn [find option_map].
  - split; [discriminate|]. intros (a & b & H & _). destruct a; discriminate.
  - cbn [fst]. destruct (teqb k' k) eqn:Hk.
    + apply teqb_true in Hk. subst k'. cbn. split.
      * intros H. injection H as ->. exists [], l. auto.
      * intros (a & b & H & Hn). destruct a as [|[k'' v''] a]; cbn in H; injection H as H1 H2; [congruence|].
        exfalso. apply Hn. left. cbn. congruence.
    + rewrite IH. split.
      * intros (a & b & -> & Hn). exists ((k', v') :: a), b. split; [reflexivity|]. intros [H | H]; [|auto].
        cbn in H. subst. rewrite teqb_refl in Hk. discriminate.
      * intros (a & b & H & Hn). destruct a as [|p a]; cbn in H; injection H as H1 H2; [subst; rewrite teqb_refl in Hk; discriminate|].
        exists a, b. split; [exact H2|]. intros Hi. apply Hn. right. exact Hi.
Qed.
Lemma x_get_none e k : x_get e k = None <-> ~ In k (map fst (x_attrs e)).
Proof.
  unfold x_get. generalize (x_attrs e) as l. induction l as [|[k' v'] l IH]; cbn [find option_map map fst]; [cbn; tauto|].
  destruct (teqb k' k) eqn:Hk; cbn.
  - apply teqb_true in Hk. subst. split; [discriminate|]. intros H. exfalso. apply H. left. reflexivity.
  - rewrite IH. split; [intros H [H' | H']; [subst; rewrite teqb_refl in Hk; discriminate|auto]|tauto].
Qed.
Lemma step_spec s e : step_matches s e = true <-> step_to s e.
Proof.
  unfold step_matches, step_to. rewrite andb_true_iff, teqb_true. destruct (snd s) as [v|].
  - destruct (x_get e (txt "name")) as [w|] eqn:Hg.
    + rewrite teqb_true. apply x_get_some in Hg as Hg'. split.
      * intros [H ->]. split; [exact H|]. intros v' Hv. injection Hv as <-. exact Hg'.
      * intros [H Hv]. split; [exact H|]. specialize (Hv v eq_refl). apply x_get_some in Hv. congruence.
    + split; [intros [_ H]; discriminate|]. intros [_ Hv]. specialize (Hv v eq_refl). apply x_get_some in Hv. congruence.
  - split; [intros [H _]; split; [exact H|discriminate]|tauto].
Qed.
Lemma select_app s a b : select s (a ++ b) = select s a ++ select s b.
Proof. unfold select. rewrite flat_map_app, filter_app. reflexivity. Qed.
Lemma fold_select p : forall l, fold_left (fun l s => select s l) p l = flat_map (fun e => iterfind e p) l.
Proof.
  unfold iterfind. induction p as [|s p IH]; intros l; cbn [fold_left].
  - induction l as [|e l IHl]; [reflexivity|]. cbn. rewrite <- IHl. reflexivity.
  - rewrite IH. induction l as [|e l IHl]; [reflexivity|]. cbn [flat_map]. rewrite IH.
    change (e :: l) with ([e] ++ l). rewrite select_app, flat_map_app, IHl. reflexivity.
Qed.
Lemma iterfind_cons e s p : iterfind e (s :: p) = flat_map (fun c => iterfind c p) (filter (step_matches s) (x_kids e)).
Proof. unfold iterfind at 1. cbn [fold_left]. rewrite fold_select. unfold select. cbn [flat_map]. rewrite app_nil_r. reflexivity. Qed.
Lemma iterfind_reaches p : forall e x, In x (iterfind e p) <-> reaches e p x.
Proof.
  induction p as [|s p IH]; intros e x.
  - cbn. split; [intros [-> | []]; constructor|]. intros H. inversion H. auto.
  - rewrite iterfind_cons, in_flat_map. split.
    + intros (c & Hc & Hx). apply filter_In in Hc. destruct Hc as [Hc Hs]. apply step_spec in Hs. apply IH in Hx. econstructor; eauto.
    + intros H. inversion H as [|? ? ? c ? Hc Hs Hr]; subst. exists c. split; [apply filter_In; split; [exact Hc|apply step_spec; exact Hs]|].
      apply IH. exact Hr.
Qed.
Lemma hd_error_app {A} (l m : list A) : hd_error (l ++ m) = match hd_error l with Some x => Some x | None => hd_error m end.
Proof. destruct l; reflexivity. Qed.
Lemma hd_none {A} (l : list A) : hd_error l = None <-> forall x, ~ In x l.
Proof. destruct l as [|a l]; cbn; split; [tauto|reflexivity|discriminate|]. intros H. exfalso. apply (H a). auto. Qed.
Lemma xfind_none e p : xfind e p = None <-> absent_at e p.
Proof. unfold xfind, absent_at. rewrite hd_none. split; intros H x Hx; apply (H x); apply iterfind_reaches; exact Hx. Qed.
Lemma xfind_some p : forall e x, xfind e p = Some x <-> first_at e p x.
Proof.
  induction p as [|s p IH]; intros e x.
  - cbn. split; [intros H; injection H as ->; constructor|intros H; inversion H; reflexivity].
  - unfold xfind. rewrite iterfind_cons. split.
    + intros H. assert (G : forall l, hd_error (flat_map (fun c => iterfind c p) (filter (step_matches s) l)) = Some x ->
        exists before c after, l = before ++ c :: after /\ step_to s c /\ first_at c p x /\
          (forall b y, In b before -> step_to s b -> ~ reaches b p y)).
      { clear H. induction l as [|c l IHl]; [discriminate|]. cbn [filter]. destruct (step_matches s c) eqn:Hc.
        - cbn [flat_map]. rewrite hd_error_app. destruct (hd_error (iterfind c p)) as [y|] eqn:Hy.
          + intros H. injection H as ->. exists [], c, l. split; [reflexivity|]. split; [apply step_spec; exact Hc|]. split; [|intros b y []].
            apply IH. exact Hy.
          + intros H. destruct (IHl H) as (bf & c' & af & -> & Hs & Hf & Hb). exists (c :: bf), c', af. split; [reflexivity|]. split; [exact Hs|].
            split; [exact Hf|]. intros b y [<- | Hin]; [|apply Hb; exact Hin]. intros _. apply (proj1 (xfind_none c p) Hy).
        - intros H. destruct (IHl H) as (bf & c' & af & -> & Hs & Hf & Hb). exists (c :: bf), c', af. split; [reflexivity|]. split; [exact Hs|].
          split; [exact Hf|]. intros b y [<- | Hin]; [|apply Hb; exact Hin]. intros Hst. apply step_spec in Hst. congruence. }
      destruct (G _ H) as (bf & c & af & Hk & Hs & Hf & Hb). econstructor; eauto.
    + intros H. inversion H as [|? ? ? bf c af ? Hk Hs Hf Hb]; subst. rewrite Hk. rewrite filter_app, flat_map_app, hd_error_app.
      replace (hd_error (flat_map _ (filter (step_matches s) bf))) with (@None xml).
      * cbn [filter]. rewrite (proj2 (step_spec s c) Hs). cbn [flat_map]. rewrite hd_error_app. apply IH in Hf. unfold xfind in Hf. rewrite Hf. reflexivity.
      * symmetry. apply hd_none. intros y Hy. apply in_flat_map in Hy. destruct Hy as (b & Hb' & Hy). apply filter_In in Hb'. destruct Hb' as [Hin Hst].
        apply step_spec in Hst. apply (Hb b y Hin Hst). apply iterfind_reaches. exact Hy.
Qed.
Lemma or_missing_ok msg o e : or_missing msg o = Ok e <-> o = Some e.
Proof. destruct o; cbn; split; congruence. Qed.
Lemma text_of_ok msg e t : text_of msg e = Ok t <-> x_text e = Some t.
Proof. unfold text_of. destruct (x_text e); split; congruence. Qed.
Lemma floats_of_ok E t xs : floats_of E t = Ok xs <-> words_are E t xs.
Proof. unfold floats_of, words_are. rewrite <- floats_spec. destruct (floats E (split t)); split; congruence. Qed.

(** ** Arrays *)
Lemma f2_iff {A B} (P Q : A -> B -> Prop) : (forall a b, P a b <-> Q a b) -> forall l m, Forall2 P l m <-> Forall2 Q l m.
Proof. intros H l m. split; intros F; induction F; constructor; try assumption; apply H; assumption. Qed.
Lemma parse_rows_ok E e a : parse_rows E e = Ok a <-> varray_is E e a.
Proof.
  unfold parse_rows, varray_is. rewrite bind_ok.
  assert (G : forall rows, mapM (fun child => let* t := text_of "varray child text not found" child in floats_of E t) (x_kids e) = Ok rows <->
    Forall2 (fun c xs => exists t, x_text c = Some t /\ words_are E t xs) (x_kids e) rows).
  { intros rows. rewrite mapM_Ok. apply f2_iff. intros c xs. rewrite bind_ok. split; intros (t & Ht & Hx); exists t.
    - apply text_of_ok in Ht. apply floats_of_ok in Hx. auto.
    - split; [apply text_of_ok; exact Ht|apply floats_of_ok; exact Hx]. }
  split; intros (rows & Hr & Ha); exists rows; (split; [apply G; exact Hr|apply np_rows_ok; exact Ha]).
Qed.
Lemma at_path_ok E msg root p a : (let* e := or_missing msg (xfind root p) in parse_rows E e) = Ok a <->
  exists e, first_at root p e /\ varray_is E e a.
Proof.
  rewrite bind_ok. split; intros (e & He & Ha); exists e.
  - apply or_missing_ok, xfind_some in He. apply parse_rows_ok in Ha. auto.
  - split; [apply or_missing_ok, xfind_some; exact He|apply parse_rows_ok; exact Ha].
Qed.
Lemma lattice_ok' E root a : parse_lattice E root = Ok a <-> array_at E root lattice_path a. Proof. apply at_path_ok. Qed.
Lemma initial_ok E root a : parse_initial_positions E root = Ok a <-> array_at E root initial_path a. Proof. apply at_path_ok. Qed.
Lemma tensor_ok E root a : parse_polarizability E root = Ok a <-> array_at E root tensor_path a. Proof. apply at_path_ok. Qed.
Lemma parse_symbols_ok root l : parse_symbols root = Ok l <-> symbols_are root l.
Proof.
  unfold parse_symbols, symbols_are. rewrite bind_ok.
  assert (G : forall s, mapM (fun child => match x_kids child with [] => Err IndexError | c :: _ => let* t := text_of "child has no text" c in Ok (strip t) end) (x_kids s) = Ok l <->
     Forall2 symbol_in (x_kids s) l).
  { intros s. rewrite mapM_Ok. apply f2_iff. intros c w. unfold symbol_in. destruct (x_kids c) as [|k ks].
    - split; [discriminate|]. intros (? & ? & ? & H & _). discriminate.
    - rewrite bind_ok. split.
      + intros (t & Ht & H). injection H as <-. apply text_of_ok in Ht. exists k, ks, t. auto.
      + intros (k' & ks' & t & H & Ht & ->). injection H as <- <-. exists t. split; [apply text_of_ok; exact Ht|reflexivity]. }
  split; intros (s & Hs & H); exists s.
  - apply or_missing_ok, xfind_some in Hs. apply G in H. auto.
  - split; [apply or_missing_ok, xfind_some; exact Hs|apply G; exact H].
Qed.
Lemma root_ok parse content root : root_element parse content = Ok root <-> parse content = Tree root.
Proof. unfold root_element. destruct (parse content); split; congruence. Qed.
Lemma atomic_number_ok symbols numbers : mapM atomic_number symbols = Ok numbers <-> numbers_are symbols numbers.
Proof.
  rewrite mapM_Ok. apply f2_iff. intros w z. unfold atomic_number. split.
  - destruct (symbol_number w) as [z'|] eqn:Hz; [|discriminate]. intros H. injection H as ->.
    unfold symbol_number in Hz. destruct (find _ atomic_numbers) as [[n z']|] eqn:Hf; [|discriminate]. injection Hz as ->.
    apply find_some in Hf. destruct Hf as [Hi He]. cbn in He. apply teqb_true in He. exists n. auto.
  - intros (n & Hin & ->). destruct (proj2 (symbol_number_spec (txt n))) as [z' Hz']; [exists n, z; auto|]. rewrite Hz'. f_equal.
    apply (names_fun (txt n)); [|exists n; auto].
    unfold symbol_number in Hz'. destruct (find _ atomic_numbers) as [[n' z'']|] eqn:Hf; [|discriminate]. injection Hz' as ->.
    apply find_some in Hf. destruct Hf as [Hi He]. cbn in He. apply teqb_true in He. exists n'. auto.
Qed.

(** ** Structures *)
Lemma f_C62_positions E parse content a :
  vasprun_read_positions E parse content = Ok a <->
  exists root, parse content = Tree root /\ array_at E root initial_path a.
Proof.
  unfold vasprun_read_positions. rewrite bind_ok. split; intros (r & Hr & H); exists r.
  - apply root_ok in Hr. apply initial_ok in H. auto.
  - split; [apply root_ok; exact Hr|apply initial_ok; exact H].
Qed.
Lemma f_C62_positions_polarizability E parse content a t :
  vasprun_read_positions_and_polarizability E parse content = Ok (a, t) <->
  exists root, parse content = Tree root /\ array_at E root initial_path a /\ array_at E root tensor_path t.
Proof.
  unfold vasprun_read_positions_and_polarizability. rewrite bind_ok. split.
  - intros (r & Hr & H). apply root_ok in Hr. apply bind_ok in H. destruct H as (a' & Ha & H). apply bind_ok in H. destruct H as (t' & Ht & H).
    injection H as -> ->. apply initial_ok in Ha. apply tensor_ok in Ht. eauto.
  - intros (r & Hr & Ha & Ht). exists r. split; [apply root_ok; exact Hr|]. apply bind_ok. exists a. split; [apply initial_ok; exact Ha|].
    apply bind_ok. exists t. split; [apply tensor_ok; exact Ht|reflexivity].
Qed.
Lemma f_C62_structure E parse content lat numbers a t :
  vasprun_read_structure_and_polarizability E parse content = Ok (lat, numbers, a, t) <->
  exists root symbols, parse content = Tree root /\ symbols_are root symbols /\ numbers_are symbols numbers /\
    array_at E root lattice_path lat /\ array_at E root initial_path a /\ array_at E root tensor_path t.
Proof.
  unfold vasprun_read_structure_and_polarizability. rewrite bind_ok. split.
  - intros (r & Hr & H). apply root_ok in Hr. apply bind_ok in H. destruct H as (s & Hs & H). apply bind_ok in H. destruct H as (n & Hn & H).
    apply bind_ok in H. destruct H as (l & Hl & H). apply bind_ok in H. destruct H as (a' & Ha & H). apply bind_ok in H. destruct H as (t' & Ht & H).
    injection H as -> -> -> ->. apply parse_symbols_ok in Hs. apply atomic_number_ok in Hn. apply lattice_ok' in Hl. apply initial_ok in Ha. apply tensor_ok in Ht.
    exists r, s. auto 10.
  - intros (r & s & Hr & Hs & Hn & Hl & Ha & Ht). exists r. split; [apply root_ok; exact Hr|]. apply bind_ok. exists s. split; [apply parse_symbols_ok; exact Hs|].
    apply bind_ok. exists numbers. split; [apply atomic_number_ok; exact Hn|]. apply bind_ok. exists lat. split; [apply lattice_ok'; exact Hl|].
    apply bind_ok. exists a. split; [apply initial_ok; exact Ha|]. apply bind_ok. exists t. split; [apply tensor_ok; exact Ht|reflexivity].
Qed.
Lemma f_C62_ref_structure {A} (mk : list Z -> narr -> narr -> res A) E parse content s :
  vasprun_read_ref_structure mk E parse content = Ok s <->
  exists root symbols numbers lat a, parse content = Tree root /\ symbols_are root symbols /\ numbers_are symbols numbers /\
    array_at E root lattice_path lat /\ array_at E root initial_path a /\ mk numbers lat a = Ok s.
Proof.
  unfold vasprun_read_ref_structure. rewrite bind_ok. split.
  - intros (r & Hr & H). apply root_ok in Hr. apply bind_ok in H. destruct H as (sy & Hs & H). apply bind_ok in H. destruct H as (n & Hn & H).
    apply bind_ok in H. destruct H as (l & Hl & H). apply bind_ok in H. destruct H as (a' & Ha & H).
    apply parse_symbols_ok in Hs. apply atomic_number_ok in Hn. apply lattice_ok' in Hl. apply initial_ok in Ha.
    exists r, sy, n, l, a'. auto 10.
  - intros (r & sy & n & l & a' & Hr & Hs & Hn & Hl & Ha & Hm). exists r. split; [apply root_ok; exact Hr|]. apply bind_ok. exists sy.
    split; [apply parse_symbols_ok; exact Hs|]. apply bind_ok. exists n. split; [apply atomic_number_ok; exact Hn|].
    apply bind_ok. exists l. split; [apply lattice_ok'; exact Hl|]. apply bind_ok. exists a'. split; [apply initial_ok; exact Ha|exact Hm].
Qed.

(** ** Trajectories *)
Lemma varray3_array E e vs : vs <> [] -> varray3 E e vs -> varray_is E e (array2 vs).
Proof.
  intros Hv H. exists (map (fun v => entries3 (fin3 v)) vs). split.
  - unfold varray3 in H. induction H as [|c v cs vs Hc H IH]; [congruence|]. cbn [map]. constructor; [exact Hc|].
    destruct vs as [|v' vs]; [inversion H; constructor|]. apply IH. discriminate.
  - right. split; [destruct vs; [congruence|discriminate]|]. exists 3. split.
    + apply Forall_forall. intros x Hx. apply in_map_iff in Hx. destruct Hx as (v & <- & _). reflexivity.
    + unfold array2. rewrite map_length, concat_entries. reflexivity.
Qed.
Lemma structures_ok root : unnamed_structures root (filter unnamed (iterfind root [tag "structure"])).
Proof.
  rewrite iterfind_cons. unfold unnamed_structures.
  exists (map (fun c => step_matches (tag "structure") c && unnamed c) (x_kids root)).
  split; [apply map_length|]. split.
  - intros i c b Hc Hb. rewrite nth_error_map, Hc in Hb. injection Hb as <-. rewrite andb_true_iff, step_spec.
    unfold unnamed. destruct (x_get c (txt "name")) eqn:Hg.
    + split; [intros [_ H]; discriminate|]. intros [_ H]. apply x_get_none in H. congruence.
    + apply x_get_none in Hg. unfold step_to. cbn. intuition discriminate.
  - change (iterfind ?c []) with [c]. induction (x_kids root) as [|c l IH]; [reflexivity|]. cbn [filter map combine].
    destruct (step_matches (tag "structure") c); cbn [andb flat_map].
    + change (iterfind c []) with [c]. cbn [app filter]. destruct (unnamed c); cbn [fst map snd]; rewrite IH; reflexivity.
    + cbn [fst]. exact IH.
Qed.
Lemma structures_unique root l l' : unnamed_structures root l -> unnamed_structures root l' -> l = l'.
Proof.
  intros (k & Hk & H & ->) (k' & Hk' & H' & ->). assert (k = k') as ->; [|reflexivity].
  revert k k' Hk Hk' H H'. induction (x_kids root) as [|c l IH]; intros [|b k] [|b' k'] Hk Hk' H H'; try discriminate; [reflexivity|].
  f_equal.
  - specialize (H 0 c b eq_refl eq_refl). specialize (H' 0 c b' eq_refl eq_refl). destruct b, b'; try reflexivity.
    + symmetry. apply H', H. reflexivity.
    + apply H, H'. reflexivity.
  - apply IH; [cbn in Hk; lia|cbn in Hk'; lia| |]; intros i; [apply (H (S i))|apply (H' (S i))].
Qed.
Lemma timestep_ok' E root dt : parse_timestep E root = Ok dt <-> timestep_at E root dt.
Proof.
  unfold parse_timestep, timestep_at. rewrite bind_ok. split.
  - intros (e & He & H). apply or_missing_ok, xfind_some in He. apply bind_ok in H. destruct H as (t & Ht & H). apply text_of_ok in Ht.
    exists e, t. split; [exact He|]. split; [exact Ht|]. destruct (float_of _ _); congruence.
  - intros (e & t & He & Ht & Hd). exists e. split; [apply or_missing_ok, xfind_some; exact He|]. apply bind_ok. exists t.
    split; [apply text_of_ok; exact Ht|]. rewrite Hd. reflexivity.
Qed.
Lemma traj_of_array3 n fs dt : (0 < dt)%R ->
  trajectory_of (array3 n fs) (Fin dt) = Ok (array3 n (map (map (vmap wrap)) fs), Fin dt).
Proof.
  intros Hdt. unfold trajectory_of, array3. cbn [na_shape na_data]. change (verify_ndarray_shape _ _) with (Ok tt). cbn [rbind].
  unfold num_le0, Rleb. destruct (Rle_dec dt 0); [lra|]. do 3 f_equal; [rewrite map_length; reflexivity|].
  rewrite map_wrap_entries. do 2 f_equal. rewrite concat_map. reflexivity.
Qed.
Lemma wrap_images fs : Forall2 cell_images fs (map (map (vmap wrap)) fs).
Proof.
  induction fs as [|v fs IH]; constructor; [|exact IH].
  unfold cell_images. induction v as [|x xs IHx]; constructor; [|exact IHx]. unfold vall2, vmap. cbn.
  split; [apply wrap_image|]. split; apply wrap_image.
Qed.
Lemma f_C62 E parse content root structs n fs dt : parse content = Tree root ->
  unnamed_structures root structs -> structs <> [] ->
  Forall2 (fun s vs => exists v, first_at s [tag "varray"] v /\ varray3 E v vs) structs fs ->
  Forall (fun vs => List.length vs = n) fs -> 0 < n ->
  timestep_at E root (Fin dt) -> (0 < dt)%R ->
  exists ps, vasprun_read_trajectory E parse content = Ok (array3 n ps, Fin dt) /\ Forall2 cell_images fs ps.
Proof.
  intros Hr Hs Hne HF Hl Hn Ht Hdt. exists (map (map (vmap wrap)) fs). split; [|apply wrap_images].
  unfold vasprun_read_trajectory. apply root_ok in Hr. rewrite Hr. cbn [rbind].
  rewrite <- (structures_unique _ _ _ Hs (structures_ok root)).
  assert (HM : mapM (fun s => let* v := or_missing "structure varray not found" (xfind s [tag "varray"]) in parse_rows E v) structs = Ok (map array2 fs)).
  { apply mapM_Ok. clear -HF Hl Hn. induction HF as [|s vs structs fs (v & Hv & H3) _ IH]; [constructor|].
    inversion Hl as [|? ? Hlv Hl']; subst. cbn [map]. constructor; [|apply IH; assumption]. apply at_path_ok. exists v. split; [exact Hv|].
    apply varray3_array; [intros ->; cbn in Hn; lia|exact H3]. }
  rewrite HM. cbn [rbind]. apply timestep_ok' in Ht.
  assert (Hf : fs <> []) by (intros ->; inversion HF; congruence).
  pose proof (np_stack_array2 n fs Hf Hl) as HN. destruct (map array2 fs) eqn:Hm; [destruct fs; [congruence|discriminate]|].
  rewrite Ht. cbn [rbind]. rewrite HN. cbn [rbind]. apply traj_of_array3. exact Hdt.
Qed.
Lemma f_C62_none E parse content root : parse content = Tree root -> unnamed_structures root [] ->
  vasprun_read_trajectory E parse content = Err (InvalidFileException (txt "no trajectory found")).
Proof.
  intros Hr Hs. unfold vasprun_read_trajectory. apply root_ok in Hr. rewrite Hr. cbn [rbind].
  rewrite <- (structures_unique _ _ _ Hs (structures_ok root)). reflexivity.
Qed.
(** Whatever is returned comes from the unnamed structures *)
Lemma np_stack_shape l a : np_stack l = Ok a -> l <> [] -> hd 0 (na_shape a) = List.length l /\ na_data a = concat (map na_data l).
Proof.
  destruct l as [|x l]; [congruence|]. cbn [np_stack]. destruct (forallb _ l); [|discriminate]. intros H _. injection H as <-. auto.
Qed.
Lemma f_C62_converse E parse content shape data dt : vasprun_read_trajectory E parse content = Ok (mkNarr shape data, dt) ->
  exists root structs arrays, parse content = Tree root /\ unnamed_structures root structs /\ structs <> [] /\
    Forall2 (fun s a => exists v, first_at s [tag "varray"] v /\ varray_is E v a) structs arrays /\
    hd 0 shape = List.length structs /\ data = map wrap_num (concat (map na_data arrays)) /\ timestep_at E root dt.
Proof.
  unfold vasprun_read_trajectory. intros H. apply bind_ok in H. destruct H as (root & Hr & H). apply root_ok in Hr.
  apply bind_ok in H. destruct H as (ps & Hp & H). destruct ps as [|p0 ps]; [discriminate|].
  apply bind_ok in H. destruct H as (dt' & Hd & H). apply bind_ok in H. destruct H as (ts & Ht & H).
  unfold trajectory_of in H. apply bind_ok in H. destruct H as (_ & _ & H). destruct (num_le0 dt'); [discriminate|]. injection H as <- <- <-.
  apply timestep_ok' in Hd. exists root, (filter unnamed (iterfind root [tag "structure"])), (p0 :: ps). split; [exact Hr|].
  split; [apply structures_ok|]. apply mapM_Ok in Hp. split; [intros Hn; rewrite Hn in Hp; inversion Hp|].
  pose proof (f2len Hp) as Hlen. split.
  - revert Hp. apply f2_iff. intros s a. symmetry. apply at_path_ok.
  - apply np_stack_shape in Ht; [|discriminate]. destruct Ht as [-> ->]. rewrite Hlen. auto.
Qed.

(** ** Phonons: C61 *)
Lemma factor_light : wavenumber_factor = light_cm_ps.
Proof. unfold wavenumber_factor, light_cm_ps. cbn [pow]. field. Qed.
Lemma light_pos : (0 < light_cm_ps)%R.
Proof. rewrite <- factor_light. unfold wavenumber_factor. lra. Qed.
Lemma wavenumber_fin r : eigenvalue_to_wavenumber (Fin r) = Fin (sqrt (Rabs r) / light_cm_ps).
Proof.
  pose proof light_pos as L. unfold eigenvalue_to_wavenumber. cbn [num_opp num_abs num_sqrt]. unfold Rltb.
  destruct (Rlt_dec (Rabs (- r)) 0) as [H|_]; [pose proof (Rabs_pos (- r)); lra|]. cbn [num_div]. rewrite factor_light, Rabs_Ropp.
  assert (P : (0 <= sqrt (Rabs r) / light_cm_ps)%R).
  { apply Rmult_le_pos; [apply sqrt_pos|]. left. apply Rinv_0_lt_compat. exact L. }
  cbn [num_sign]. unfold Rltb. destruct (Rlt_dec 0 _) as [H|H]; [cbn; f_equal; ring|].
  destruct (Rlt_dec (sqrt (Rabs r) / light_cm_ps) 0); [lra|]. assert (Z : (sqrt (Rabs r) / light_cm_ps = 0)%R) by lra. rewrite Z. cbn. f_equal. ring.
Qed.
Lemma eigenvalues_ok E root a : parse_eigenvalues E root = Ok a <->
  exists xs, eigenvalues_at E root xs /\ a = mkNarr [List.length xs] (map eigenvalue_to_wavenumber xs).
Proof.
  unfold parse_eigenvalues, eigenvalues_at. rewrite bind_ok. split.
  - intros (e & He & H). apply or_missing_ok, xfind_some in He. apply bind_ok in H. destruct H as (t & Ht & H). apply text_of_ok in Ht.
    apply bind_ok in H. destruct H as (l & Hl & H). apply floats_of_ok in Hl. injection H as <-. exists l. split; [|reflexivity]. exists e, t. auto.
  - intros (xs & (e & t & He & Ht & Hw) & ->). exists e. split; [apply or_missing_ok, xfind_some; exact He|]. apply bind_ok. exists t.
    split; [apply text_of_ok; exact Ht|]. apply bind_ok. exists xs. split; [apply floats_of_ok; exact Hw|reflexivity].
Qed.
Lemma flat_entries_length l : List.length (flat_map entries3 l) = List.length l * 3.
Proof. induction l as [|a l IH]; [reflexivity|]. cbn. rewrite IH. reflexivity. Qed.
Lemma parse_eigenvectors_ok E root A B symbols vss : array_at E root lattice_path (matrix A) -> mmul A B = mI ->
  symbols_are root symbols -> eigenvectors_at E root vss -> Forall (fun vs => List.length vs = List.length symbols) vss -> vss <> [] ->
  parse_eigenvectors E root = Ok (array3 (List.length symbols) (map (fun vs => rows_mul vs B) vss)).
Proof.
  intros Hl HAB Hs (e & He & HF) Hlen Hne. unfold parse_eigenvectors. apply lattice_ok' in Hl. rewrite Hl. cbn [rbind].
  apply parse_symbols_ok in Hs. rewrite Hs. cbn [rbind]. apply xfind_some in He. fold eigenvectors_path. rewrite He. cbn [or_missing rbind].
  match goal with |- rbind (mapM ?f _) _ = _ => assert (HM : mapM f (x_kids e) = Ok (map array2 (map (fun vs => rows_mul vs B) vss))) end.
  { apply mapM_Ok. clear -HF HAB Hlen. induction HF as [|c vs cs vss (t & Ht & Hw) _ IH]; [constructor|]. inversion Hlen; subst. cbn [map].
    constructor; [|apply IH; assumption]. apply (text_of_ok "eigenvector element has no text") in Ht. rewrite Ht. cbn [rbind].
    apply floats_of_ok in Hw. rewrite Hw. cbn [rbind]. unfold reshape_rows. rewrite flat_entries_length, map_length, H1, Nat.eqb_refl. cbn [rbind].
    rewrite (matrix_inv E A B HAB). cbn [rbind]. rewrite <- H1. apply (matmul_array2 vs B). }
  rewrite HM. cbn [rbind]. apply np_stack_array2; [destruct vss; [congruence|discriminate]|].
  clear -Hlen. induction Hlen; constructor; [|assumption]. unfold rows_mul. rewrite map_length. assumption.
Qed.
Lemma f_C61_vasprun E parse content root symbols masses A B ps xs vss : parse content = Tree root ->
  symbols_are root symbols -> symbols <> [] -> masses_are symbols masses ->
  array_at E root initial_path (array2 ps) -> List.length ps = List.length symbols ->
  array_at E root lattice_path (matrix A) -> mmul A B = mI ->
  eigenvalues_at E root (map Fin xs) -> eigenvectors_at E root vss ->
  List.length xs = List.length vss -> Forall (fun vs => List.length vs = List.length symbols) vss -> vss <> [] ->
  vasprun_read_phonons E parse content =
    Ok (array2 ps, mkNarr [List.length xs] (map (fun x => Fin (sqrt (Rabs x) / light_cm_ps)) xs),
        array3 (List.length symbols) (map (displacements_of B masses) vss)).
Proof.
  intros Hr Hs Hne Hm Hp Hpl Hl HAB Hx Hv Hxl Hvl Hvn. unfold vasprun_read_phonons. apply root_ok in Hr. rewrite Hr. cbn [rbind].
  rewrite (parse_eigenvectors_ok E root A B symbols vss Hl HAB Hs Hv Hvl Hvn).
  apply parse_symbols_ok in Hs. rewrite Hs. cbn [rbind]. rewrite (masses_ok _ _ Hm). cbn [rbind]. apply initial_ok in Hp. rewrite Hp. cbn [rbind].
  assert (He : parse_eigenvalues E root = Ok (mkNarr [List.length xs] (map (fun x => Fin (sqrt (Rabs x) / light_cm_ps)) xs))).
  { apply eigenvalues_ok. exists (map Fin xs). split; [exact Hx|]. rewrite map_length, map_map. f_equal. apply map_ext. intros x. symmetry. apply wavenumber_fin. }
  rewrite He. cbn [rbind]. rewrite div_weights_ok; [|symmetry; apply (f2len Hm)|exact Hvl]. cbn [rbind].
  unfold phonons_of. cbn [na_shape]. unfold array2 at 1, array3 at 1. cbn [na_shape hd]. rewrite !map_length, Hpl, Hxl.
  change (verify_ndarray_shape [List.length symbols; 3] [None; Some 3]) with (Ok tt). cbn [rbind].
  change (verify_ndarray_shape [List.length vss] [None]) with (Ok tt). cbn [rbind].
  unfold verify_ndarray_shape. cbn [List.length Nat.eqb negb dims_match hd]. rewrite !Nat.eqb_refl.
  unfold array2 at 1. cbn [na_shape hd]. rewrite Hpl, Nat.eqb_refl. cbn [Nat.eqb rbind]. reflexivity.
Qed.
(** The wavenumbers of any phonons read are functions of the absolute eigenvalues *)
Lemma f_C61_sign_lost E parse content ref wav disp : vasprun_read_phonons E parse content = Ok (ref, wav, disp) ->
  exists root xs, parse content = Tree root /\ eigenvalues_at E root xs /\ List.length (na_data wav) = List.length xs /\
    forall i x, nth_error xs i = Some x ->
      nth_error (na_data wav) i = Some match x with Fin r => Fin (sqrt (Rabs r) / light_cm_ps) | Inf _ => Inf false | NaN => NaN end.
Proof.
  unfold vasprun_read_phonons. intros H. apply bind_ok in H. destruct H as (root & Hr & H). apply root_ok in Hr.
  apply bind_ok in H. destruct H as (s & _ & H). apply bind_ok in H. destruct H as (w & _ & H). apply bind_ok in H. destruct H as (ref' & _ & H).
  apply bind_ok in H. destruct H as (wav' & Hw & H). apply bind_ok in H. destruct H as (ev & _ & H). apply bind_ok in H. destruct H as (d & _ & H).
  unfold phonons_of in H. apply bind_ok in H. destruct H as (_ & _ & H). apply bind_ok in H. destruct H as (_ & _ & H). apply bind_ok in H.
  destruct H as (_ & _ & H). injection H as _ <- _. apply eigenvalues_ok in Hw. destruct Hw as (xs & Hx & ->). exists root, xs. cbn [na_data].
  split; [exact Hr|]. split; [exact Hx|]. split; [apply map_length|]. intros i x Hi. rewrite nth_error_map, Hi. cbn [option_map]. f_equal.
  destruct x as [r|b|]; [apply wavenumber_fin| |]; cbn.
  - unfold Rltb. destruct (Req_EM_T 1 0); [lra|]. destruct (Rlt_dec 1 0); [lra|]. reflexivity.
  - reflexivity.
Qed.
