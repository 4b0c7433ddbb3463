(** Proofs about the texts of models: C97 *)
From Coq Require Import String ZArith NArith Reals Lra Lia Bool Arith List.
From Verif Require Import Base LinAlg M_Validate M_StructUtils M_Symmetry M_Reference M_Interp M_Art M_Text M_Repr
  S_Lattice S_Vec S_Interp S_Art S_Response S_Repr P_Text P_Interp P_Interp2 P_Interp3 P_Interp6 P_InterpFinal P_Reference2 P_Art P_Art2 P_Response P_Response2 P_Relabel.
Import ListNotations.
Local Open Scope nat_scope.

(** *** Numbers in texts *)
Definition isdig (c : N) : bool := (48 <=? c)%N && (c <=? 57)%N.
Lemma str_nat_digits n : Forall (fun c => isdig c = true) (str_int (Z.of_nat n)).
Proof.
  unfold str_int. destruct (Z.ltb_spec (Z.of_nat n) 0); [lia|]. cbn [app]. destruct (dec_digits_spec (Z.abs_N (Z.of_nat n))) as (A & _). apply chars_forall; auto.
Qed.
Lemma str_nat_inj a b : str_int (Z.of_nat a) = str_int (Z.of_nat b) -> a = b.
Proof. intros H. apply (f_equal int_of) in H. rewrite !int_of_str_int in H. injection H. lia. Qed.
Lemma digits_split d1 : forall d2 c1 c2 r1 r2, Forall (fun c => isdig c = true) d1 -> Forall (fun c => isdig c = true) d2 -> isdig c1 = false -> isdig c2 = false ->
  (d1 ++ c1 :: r1 = d2 ++ c2 :: r2)%list -> d1 = d2 /\ c1 :: r1 = c2 :: r2.
Proof.
  induction d1 as [|x d1 IH]; intros [|y d2] c1 c2 r1 r2 H1 H2 K1 K2 E; cbn [app] in E.
  - auto.
  - injection E as -> E. inversion H2; congruence.
  - injection E as -> E. inversion H1; congruence.
  - injection E as -> E. inversion H1; inversion H2; subst. destruct (IH d2 c1 c2 r1 r2) as (-> & ->); auto.
Qed.
Lemma number_split a b c1 c2 r1 r2 : isdig c1 = false -> isdig c2 = false ->
  (str_int (Z.of_nat a) ++ c1 :: r1 = str_int (Z.of_nat b) ++ c2 :: r2)%list -> a = b /\ c1 :: r1 = c2 :: r2.
Proof. intros K1 K2 E. apply digits_split in E as (E1 & E2); auto using str_nat_digits. split; auto. now apply str_nat_inj. Qed.
Lemma txt_slash t : (txt "/" ++ t)%list = 47%N :: t.
Proof. reflexivity. Qed.

Lemma fraction_split c k n r c' k' n' r' : (fraction c k n ++ r = fraction c' k' n' ++ r')%list -> c = c' /\ k = k' /\ n = n' /\ r = r'.
Proof.
  unfold fraction. rewrite <- !app_assoc. intros E.
  assert (HC : c = c' /\ (str_int (Z.of_nat k) ++ txt "/" ++ str_int (Z.of_nat n) ++ 27%N :: txt "[0m" ++ r = str_int (Z.of_nat k') ++ txt "/" ++ str_int (Z.of_nat n') ++ 27%N :: txt "[0m" ++ r')%list).
  { destruct c, c'; cbn [escape] in E; try (vm_compute in E; discriminate E); split; try reflexivity;
      match type of E with (?e ++ _ = ?e ++ _)%list => exact (app_inv_head e _ _ E) end. }
  destruct HC as (-> & HC). clear E. rewrite !txt_slash in HC. apply number_split in HC as (-> & HC); [|reflexivity..].
  injection HC as HC. apply number_split in HC as (-> & HC); [|reflexivity..]. injection HC as HC. auto.
Qed.

(** *** The first line *)
Lemma count_masked l : np_sum_bool l = masked_count l.
Proof. unfold np_sum_bool, masked_count. induction l as [|[] l IH]; cbn [filter count_occ]; [reflexivity|cbn; now rewrite <- IH|exact IH]. Qed.
Lemma core_colour k n : exists c, colour_for c k n /\
  (if k =? n then OK_GREEN ++ (str_nat k ++ txt "/" ++ str_nat n) ++ ANSI_END
   else if (1 <=? k) && (k <? n) then WARNING_YELLOW ++ (str_nat k ++ txt "/" ++ str_nat n) ++ ANSI_END
   else ERROR_RED ++ (str_nat k ++ txt "/" ++ str_nat n) ++ ANSI_END)%list = fraction c k n.
Proof.
  destruct (Nat.eqb_spec k n) as [->|H]; [exists Green; split; [reflexivity|unfold fraction; now rewrite <- !app_assoc]|].
  destruct (Nat.leb_spec 1 k), (Nat.ltb_spec k n); cbn [andb].
  - exists Yellow. split; [cbn; lia|unfold fraction; now rewrite <- !app_assoc].
  - exists Red. split; [cbn; lia|unfold fraction; now rewrite <- !app_assoc].
  - exists Red. split; [cbn; lia|unfold fraction; now rewrite <- !app_assoc].
  - exists Red. split; [cbn; lia|unfold fraction; now rewrite <- !app_assoc].
Qed.
Lemma colour_unique c c' k n : colour_for c k n -> colour_for c' k n -> c = c'.
Proof. destruct c, c'; cbn; intros; auto; lia. Qed.
Lemma repr_form m : exists c, colour_for c (List.length (im_basis m)) (3 * List.length (rs_positions (im_ref m))) /\
  interpolation_repr m = (txt "InterpolationModel with " ++ fraction c (List.length (im_basis m)) (3 * List.length (rs_positions (im_ref m))) ++
    txt " degrees of freedom specified." ++ attention (txt "degrees of freedom") m)%list.
Proof. unfold interpolation_repr. cbv zeta. destruct (core_colour (List.length (im_basis m)) (3 * List.length (rs_positions (im_ref m)))) as (c & H & ->). exists c. auto. Qed.
Lemma f_C97_count m c k n : begins_with c k n (interpolation_repr m) <->
  k = List.length (im_basis m) /\ n = 3 * List.length (rs_positions (im_ref m)) /\ colour_for c k n.
Proof.
  destruct (repr_form m) as (c0 & H & E). rewrite E. split.
  - intros (rest & K). apply app_inv_head in K. apply fraction_split in K as (<- & <- & <- & _). auto.
  - intros (-> & -> & K). rewrite (colour_unique _ _ _ _ H K). eexists. reflexivity.
Qed.

(** *** The lines below *)
Definition dline (d : bool) : text := (if d then NL :: 32%N :: WARNING_YELLOW ++ 32%N :: txt "ATTENTION: this is a dummy model." ++ 32%N :: ANSI_END else [])%list.
Definition mtail (what : text) (n : nat) : text := (str_nat n ++ txt " " ++ what ++ txt " are masked." ++ 32%N :: ANSI_END)%list.
Definition mhead : text := (NL :: 32%N :: WARNING_YELLOW ++ 32%N :: txt "ATTENTION: ")%list.
Lemma attention_form what m : attention what m =
  ((if 0 <? masked_count (im_mask m) then mhead ++ str_nat (masked_count (im_mask m)) ++ 47%N :: mtail what (List.length (im_basis m)) else []) ++ dline (im_dummy m))%list.
Proof. unfold attention. cbv zeta. rewrite count_masked. destruct (0 <? _); reflexivity. Qed.
Lemma dline_form : dline true = (mhead ++ 116%N :: txt "his is a dummy model." ++ 32%N :: ANSI_END)%list.
Proof. reflexivity. Qed.
Lemma dline_inj d d' : dline d = dline d' -> d = d'.
Proof. destruct d, d'; cbn; auto; discriminate. Qed.
Lemma not_dummy_line x r d : (mhead ++ str_nat x ++ r)%list <> dline d.
Proof.
  destruct d; [|discriminate]. rewrite dline_form. intros E. apply app_inv_head in E. pose proof (str_nat_digits x) as HD. unfold str_nat in E.
  destruct (str_int (Z.of_nat x)) as [|q l] eqn:Es; [exact (str_int_nonnil _ Es)|]. cbn [app] in E. injection E as -> _. inversion HD. discriminate.
Qed.
Lemma attention_inj what m m' : List.length (im_basis m) = List.length (im_basis m') ->
  attention what m = attention what m' <-> masked_count (im_mask m) = masked_count (im_mask m') /\ im_dummy m = im_dummy m'.
Proof.
  intros HL. rewrite !attention_form, HL. generalize (masked_count (im_mask m)) (masked_count (im_mask m')) (im_dummy m) (im_dummy m'). intros a b d d'.
  split; [|intros (-> & ->); reflexivity]. destruct (Nat.ltb_spec 0 a), (Nat.ltb_spec 0 b); rewrite <- ?app_assoc; intros E.
  - apply app_inv_head in E. cbn [app] in E. unfold str_nat at 1 2 in E. apply number_split in E as (-> & E); [|reflexivity..].
    split; [reflexivity|]. injection E as E. apply app_inv_head in E. now apply dline_inj.
  - exfalso. exact (not_dummy_line _ _ _ E).
  - exfalso. symmetry in E. exact (not_dummy_line _ _ _ E).
  - split; [lia|]. now apply dline_inj.
Qed.
Lemma f_C97_alike m m' : interpolation_repr m = interpolation_repr m' <-> summary_of m = summary_of m'.
Proof.
  destruct (repr_form m) as (c & Hc & E), (repr_form m') as (c' & Hc' & E'). rewrite E, E'. unfold summary_of. split.
  - intros K. apply app_inv_head in K. apply fraction_split in K as (-> & K1 & K2 & K). apply app_inv_head in K. apply (attention_inj _ _ _ K1) in K as (K3 & K4). congruence.
  - intros K. injection K as K1 K2 K3 K4. assert (K2' : 3 * List.length (rs_positions (im_ref m)) = 3 * List.length (rs_positions (im_ref m'))) by lia.
    rewrite K1, K2' in *. rewrite (colour_unique _ _ _ _ Hc Hc'). do 3 f_equal. apply attention_inj; auto.
Qed.

(** *** What the colours mean *)
Lemma basis_rows m : reachable m -> Forall (fun b => List.length b = List.length (rs_positions (im_ref m))) (im_basis m).
Proof. intros H. apply reachable_inv in H. destruct H as (_ & _ & B & _). eapply Forall_impl; [|exact B]. intros b (A & _). exact A. Qed.
Lemma f_C97_green m k n : reachable m -> orthonormal (im_basis m) ->
  (begins_with Green k n (interpolation_repr m) -> spans (List.length (rs_positions (im_ref m))) (im_basis m)) /\
  (begins_with Red k n (interpolation_repr m) -> k = 0).
Proof.
  intros HR HO. destruct (f_C85_count _ _ (basis_rows m HR) HO) as (H1 & H2). rewrite !f_C97_count. cbn [colour_for]. split.
  - intros (-> & -> & E). now apply H2.
  - intros (-> & -> & [E|E]); lia.
Qed.

(** *** The table of an ART model *)
Lemma specified_form k : exists c, colour_for c k 3 /\ specified_str k = fraction c k 3.
Proof.
  unfold specified_str. cbv zeta. change (txt "/3") with (txt "/" ++ str_nat 3)%list. destruct (core_colour k 3) as (c & H & E). exists c. split; [exact H|].
  rewrite <- E. destruct (Nat.eqb_spec k 3) as [->|N]; [reflexivity|]. destruct (Nat.leb_spec 1 k), (Nat.leb_spec k 2), (Nat.ltb_spec k 3); cbn [andb]; try lia; reflexivity.
Qed.
Lemma f_C97_table set show m d : lists_set set -> reachable m -> List.length (rs_equiv (im_ref m)) = List.length (rs_positions (im_ref m)) ->
  get_equivalent_atom_dict (im_ref m) = Ok d ->
  exists dirs rows, art_table set show m = Ok ([txt "Atom index"; txt "Directions"; txt "Specified"; txt "Equivalent atoms"] :: rows) /\
    List.length dirs = List.length d /\ List.length rows = List.length d /\
    forall i kv ds row, nth_error d i = Some kv -> nth_error dirs i = Some ds -> nth_error rows i = Some row -> art_row show m kv ds row.
Proof.
  intros HS HR HL HD. destruct (f_C34_tuples set m d HS HR HL HD) as (l & E & HF). exists (map snd l). eexists. split; [unfold art_table; rewrite E; reflexivity|].
  rewrite !map_length. assert (LL : List.length l = List.length d) by (clear - HF; induction HF; cbn; congruence). split; [exact LL|]. split; [exact LL|].
  clear - HF. intros i kv ds row H1 H2 H3. rewrite nth_error_map in H2, H3. revert i H1 H2 H3. induction HF as [|kv' [[a es] dl] d l (H & HSel) HF IH]; intros [|i] H1 H2 H3; try discriminate.
  - cbn in H1, H2, H3, H, HSel. injection H1 as ->. injection H2 as ->. injection H3 as <-. destruct kv as [a' es']. injection H as -> ->. split; [exact HSel|].
    destruct (specified_form (List.length ds)) as (c & Hc & Ec). exists (directions_str show ds), c. split; [exact Hc|]. split; [unfold str_nat; now rewrite Ec|].
    destruct ds as [|x [|y [|z [|w ds]]]]; cbn; auto.
  - cbn in H1, H2, H3. eapply IH; eauto.
Qed.

(** *** Every atom is in one row *)
Lemma nodup_flat {A B} (f : A -> list B) l : NoDup l -> (forall a, In a l -> NoDup (f a)) -> (forall a b x, In a l -> In b l -> In x (f a) -> In x (f b) -> a = b) -> NoDup (flat_map f l).
Proof.
  induction l as [|a l IH]; intros H1 H2 H3; [constructor|]. cbn [flat_map]. inversion H1 as [|? ? N1 N2]; subst.
  assert (IH' : NoDup (flat_map f l)) by (apply IH; [assumption|intros; apply H2; now right|intros a' b' x Ha Hb; apply H3; now right]).
  clear IH. assert (HD : NoDup (f a)) by (apply H2; now left).
  assert (HX : forall x, In x (f a) -> ~ In x (flat_map f l)).
  { intros x Hx Hin. apply in_flat_map in Hin as (b & Hb & Hxb). apply N1. rewrite (H3 a b x); auto; [now left|now right]. }
  induction (f a) as [|x r IHr]; [exact IH'|]. inversion HD; subst. cbn [app]. constructor.
  - rewrite in_app_iff. intros [K|K]; [contradiction|]. apply (HX x); [now left|exact K].
  - apply IHr; [assumption|]. intros y Hy. apply HX. now right.
Qed.
Lemma f_C97_atoms r d : get_equivalent_atom_dict r = Ok d ->
  list_sum (map (fun kv : nat * list nat => 1 + List.length (snd kv)) d) = List.length (rs_equiv r).
Proof.
  intros HD. assert (HO : orbit_labels (rs_equiv r)) by (apply equivalent_atom_dict_iff; eauto). destruct (equivalent_atom_dict_partition r d HO HD) as (H1 & H2 & H3 & H4 & _).
  set (f := fun kv : nat * list nat => fst kv :: snd kv).
  assert (E : list_sum (map (fun kv : nat * list nat => 1 + List.length (snd kv)) d) = List.length (flat_map f d)).
  { clear. induction d as [|kv d IH]; [reflexivity|]. cbn [map list_sum fold_right flat_map]. rewrite app_length, <- IH. reflexivity. }
  rewrite E. assert (P : Permutation.Permutation (flat_map f d) (seq 0 (List.length (rs_equiv r)))).
  { apply Permutation.NoDup_Permutation; [|apply seq_NoDup|].
    - apply nodup_flat.
      + clear - H1. induction d as [|kv d IH]; [constructor|]. cbn [map] in H1. inversion H1; subst. constructor; [|now apply IH]. intros K. apply H2. now apply in_map.
      + intros [k v] Hin. destruct (H2 k v Hin) as (N1 & _). unfold f. cbn [fst snd]. constructor; [|exact N1]. intros K. specialize (H4 k v k Hin K). lia.
      + intros [k v] [k' v'] x Ha Hb Hx Hx'. destruct (H2 k v Ha) as (_ & Pa), (H2 k' v' Hb) as (_ & Pb).
        assert (E1 : nth_error (rs_equiv r) x = Some k) by (apply Pa; destruct Hx; auto). assert (E2 : nth_error (rs_equiv r) x = Some k') by (apply Pb; destruct Hx'; auto).
        assert (k = k') as <- by congruence. clear - H1 Ha Hb. induction d as [|kv d IH]; [contradiction|]. cbn [map] in H1. inversion H1 as [|? ? N1 N2]; subst.
        destruct Ha as [Ha|Ha], Hb as [Hb|Hb].
        * congruence.
        * subst kv. exfalso. apply N1. exact (in_map fst _ _ Hb).
        * subst kv. exfalso. apply N1. exact (in_map fst _ _ Ha).
        * exact (IH N2 Ha Hb).
    - intros x. rewrite in_flat_map, in_seq. split.
      + intros ([k v] & Hin & Hx). destruct (H2 k v Hin) as (_ & Pa). assert (E1 : nth_error (rs_equiv r) x = Some k) by (apply Pa; destruct Hx; auto).
        split; [lia|]. cbn. apply nth_error_Some. congruence.
      + intros (_ & Hx). destruct (H3 x Hx) as (k & v & Hin & K). exists (k, v). split; [exact Hin|]. destruct K as [->|K]; [now left|now right]. }
  rewrite (Permutation.Permutation_length P). apply seq_length.
Qed.

(** *** Directions of one atom *)
Local Open Scope R_scope.
Lemma dot_nowhere b c : (forall j, nth j b v0 = v0) -> rows_dot b c = 0.
Proof.
  revert c. induction b as [|x b IH]; intros [|y c] H; try reflexivity. rewrite rows_dot_cons. rewrite (IH c) by (intros j; exact (H (S j))). pose proof (H 0%nat) as H0. cbn in H0. subst x. unfold vdot, v0. cbn. ring.
Qed.
Lemma dot_single b c k : moves_only b k -> List.length b = List.length c -> rows_dot b c = vdot (nth k b v0) (nth k c v0).
Proof.
  revert c k. induction b as [|x b IH]; intros [|y c] k (H1 & H2 & H3) HL; cbn in HL, H1; try lia. rewrite rows_dot_cons. destruct k as [|k]; cbn [nth].
  - rewrite dot_nowhere by (intros j; apply (H3 (S j)); lia). ring.
  - rewrite (IH c k); [|split; [lia|split; [exact H2|intros j Hj; apply (H3 (S j)); lia]]|lia]. assert (E : x = v0) by (apply (H3 0%nat); lia). rewrite E. unfold vdot, v0. cbn. ring.
Qed.
Lemma exceeds_nonzero v : exceeds (/ 100000) v -> v <> v0.
Proof. intros H ->. unfold exceeds, v0 in H. cbn in H. rewrite Rabs_R0 in H. lra. Qed.
Lemma moves_at b j k : moves_only b j -> exceeds (/ 100000) (nth k b v0) -> j = k.
Proof. intros (_ & _ & H) E. destruct (Nat.eq_dec k j) as [->|N]; [reflexivity|]. exfalso. apply (exceeds_nonzero _ E). now apply H. Qed.
Lemma selects_onb k n bs dirs : selects (exceeds (/ 100000)) (map (fun b => nth k b v0) bs) dirs ->
  Forall (fun b => List.length b = n) bs -> Forall (fun b => exists j, moves_only b j) bs -> onb bs ->
  onb (map (fun v => [v]) dirs) /\ (forall c, List.length c = n -> (exists j, moves_only c j) -> exceeds (/ 100000) (nth k c v0) -> Forall (fun b => rows_dot c b = 0) bs -> Forall (fun w => vdot (nth k c v0) w = 0) dirs).
Proof.
  revert dirs. induction bs as [|b bs IH]; intros dirs HS HN HM HO; cbn [map] in HS; inversion HS as [|? ? ? HP HS' E1 E2|? ? ? HP HS' E1 E2]; subst.
  - split; [exact I|]. intros. constructor.
  - inversion HN; inversion HM; subst. destruct HO as (O1 & O2 & O3). destruct (IH out HS' ltac:(assumption) ltac:(assumption) O3) as (IH1 & IH2). cbn [map onb].
    match goal with H : exists j, moves_only b j |- _ => destruct H as (j & Hj) end. pose proof (moves_at _ _ _ Hj HP) as ->.
    split.
    + split; [|split; [|exact IH1]].
      * rewrite (dot_single b b k Hj eq_refl) in O1. unfold rows_dot. cbn. rewrite O1. lra || ring.
      * assert (K := IH2 b eq_refl (ex_intro _ k Hj) HP O2). clear - K. induction K as [|w l H _ IH]; constructor; [|exact IH]. unfold rows_dot. cbn. rewrite H. ring.
    + intros c Hc (jc & Hjc) HX HF. pose proof (moves_at _ _ _ Hjc HX) as ->. inversion HF; subst. constructor; [|apply IH2; eauto]. rewrite <- (dot_single c b k Hjc); [assumption|congruence].
  - inversion HN; inversion HM; subst. destruct HO as (O1 & O2 & O3). destruct (IH dirs HS' ltac:(assumption) ltac:(assumption) O3) as (IH1 & IH2). split; [exact IH1|].
    intros c Hc Hj HX HF. inversion HF; subst. apply IH2; auto.
Qed.
Lemma f_C97_row m k dirs : reachable m -> orthonormal (im_basis m) -> Forall (fun b => exists j, moves_only b j) (im_basis m) ->
  selects (exceeds (/ 100000)) (map (fun b => nth k b v0) (im_basis m)) dirs ->
  (List.length dirs <= 3)%nat /\ (List.length dirs = 3%nat -> spans 1 (map (fun v => [v]) dirs)).
Proof.
  intros HR HO HM HS. destruct (selects_onb k _ _ _ HS (basis_rows m HR) HM (orthonormal_onb _ HO)) as (K & _).
  assert (F : Forall (fun b : list V3 => List.length b = 1%nat) (map (fun v => [v]) dirs)) by (apply Forall_forall; intros b Hb; apply in_map_iff in Hb as (v & <- & _); reflexivity).
  split; [pose proof (onb_count 1 _ F K) as C; rewrite map_length in C; lia|]. intros E. apply full_spans; auto. rewrite map_length. lia.
Qed.

(** *** The number of directions of all atoms *)
Definition moved (b : list V3) (k : nat) : nat := if row_zero (nth k b v0) then 0%nat else 1%nat.
Lemma selects_moved k bs dirs : selects (exceeds (/ 100000)) (map (fun b => nth k b v0) bs) dirs -> List.length dirs = list_sum (map (fun b => moved b k) bs).
Proof.
  revert dirs. induction bs as [|b bs IH]; intros dirs H; cbn [map] in H; inversion H as [|? ? ? HP HS|? ? ? HP HS]; subst; [reflexivity| |]; cbn [map list_sum fold_right]; unfold moved at 1;
  assert (R: row_zero (nth k b v0) = true <-> ~ exceeds (/ 100000) (nth k b v0)) by apply small_rows.
  - destruct (row_zero (nth k b v0)); [exfalso; apply R; auto|]. cbn. f_equal. now apply IH.
  - rewrite (proj2 R HP). cbn. now apply IH.
Qed.
Lemma sum_add {A} (f g : A -> nat) l : list_sum (map (fun a => f a + g a)%nat l) = (list_sum (map f l) + list_sum (map g l))%nat.
Proof. induction l as [|a l IH]; [reflexivity|]. cbn [map list_sum fold_right] in *. unfold list_sum in IH. rewrite IH. lia. Qed.
Lemma sum_swap {A B} (f : A -> B -> nat) la lb : list_sum (map (fun a => list_sum (map (f a) lb)) la) = list_sum (map (fun b => list_sum (map (fun a => f a b) la)) lb).
Proof.
  induction la as [|a la IH].
  - cbn. induction lb as [|b lb IHb]; [reflexivity|]. cbn. exact IHb.
  - cbn [map]. change (list_sum (?x :: ?l)) with (x + list_sum l)%nat. rewrite IH, <- sum_add. f_equal. 
Qed.
Lemma sum_one (f : nat -> nat) k n : (k < n)%nat -> f k = 1%nat -> (forall j, j <> k -> f j = 0%nat) -> list_sum (map f (seq 0 n)) = 1%nat.
Proof.
  intros Hk H1 H0. assert (Z : forall a c, (forall j, (a <= j)%nat -> f j = 0%nat) -> list_sum (map f (seq a c)) = 0%nat).
  { intros a c. revert a. induction c as [|c IH]; intros a H; [reflexivity|]. cbn [seq map]. change (list_sum (?x :: ?l)) with (x + list_sum l)%nat. rewrite H by lia. apply IH. intros; apply H; lia. }
  assert (G : forall c a, (a <= k < a + c)%nat -> list_sum (map f (seq a c)) = 1%nat); [|apply G; lia].
  induction c as [|c IH]; intros a H; [lia|]. cbn [seq map]. change (list_sum (?x :: ?l)) with (x + list_sum l)%nat. destruct (Nat.eq_dec a k) as [->|N].
  - rewrite H1, Z; [reflexivity|]. intros; apply H0; lia.
  - rewrite H0 by lia. apply IH. lia.
Qed.
Lemma unit_exceeds v : vdot v v = 1 -> exceeds (/ 100000) v.
Proof.
  intros H. destruct (row_zero v) eqn:E.
  - exfalso. assert (R: row_zero v = true <-> ~ exceeds (/ 100000) v) by apply small_rows. apply R in E. unfold exceeds in E.
    assert (Rabs (vx v) <= / 100000 /\ Rabs (vy v) <= / 100000 /\ Rabs (vz v) <= / 100000) as (A & B & C) by (repeat split; apply Rnot_lt_le; intros K; apply E; auto).
    unfold vdot in H. apply Rabs_le_between in A, B, C || idtac. revert H. 
    assert (S : forall x, Rabs x <= / 100000 -> x * x <= / 100000) by (intros x Hx; rewrite <- (Rabs_right (x * x)) by (apply Rle_ge, Rle_0_sqr); rewrite Rabs_mult; pose proof (Rabs_pos x); nra).
    pose proof (S _ A); pose proof (S _ B); pose proof (S _ C). lra.
  - assert (R: row_zero v = true <-> ~ exceeds (/ 100000) v) by apply small_rows. unfold exceeds in *.
    destruct (Rlt_dec (/ 100000) (Rabs (vx v))); [tauto|]. destruct (Rlt_dec (/ 100000) (Rabs (vy v))); [tauto|]. destruct (Rlt_dec (/ 100000) (Rabs (vz v))); [tauto|].
    exfalso. assert (T : row_zero v = true) by (apply R; tauto). congruence.
Qed.

Lemma loop_lone n : forall a d, map fst d = seq 0 a -> equivalent_atom_loop a (seq a n) d = Ok (d ++ map (fun k => (k, [])) (seq a n)).
Proof.
  induction n as [|n IH]; intros a d Hd; cbn [seq map equivalent_atom_loop]; [now rewrite app_nil_r|]. rewrite Nat.eqb_refl.
  assert (E : dict_set d a [] = d ++ [(a, [])]).
  { unfold dict_set. destruct (existsb (fun e => Nat.eqb (fst e) a) d) eqn:X; [|reflexivity]. exfalso. apply existsb_exists in X as (e & He & Ke). apply Nat.eqb_eq in Ke.
    apply (in_map fst) in He. rewrite Hd, Ke in He. apply in_seq in He. lia. }
  rewrite E, IH; [now rewrite <- app_assoc|]. rewrite map_app, Hd, seq_S. reflexivity.
Qed.
Lemma lone_dict r : no_equivalent_atoms r -> get_equivalent_atom_dict r = Ok (map (fun k => (k, [])) (seq 0 (List.length (rs_positions r)))).
Proof. intros H. unfold get_equivalent_atom_dict. rewrite H. now rewrite (loop_lone _ 0%nat []). Qed.
Lemma sum_ones {A} (f : A -> nat) l : Forall (fun a => f a = 1%nat) l -> list_sum (map f l) = List.length l.
Proof. induction 1 as [|a l H _ IH]; [reflexivity|]. cbn [map]. change (list_sum (?x :: ?l)) with (x + list_sum l)%nat. rewrite H, IH. reflexivity. Qed.
Lemma f_C97_total set show m : lists_set set -> reachable m -> no_equivalent_atoms (im_ref m) ->
  Forall (fun b => exists j, moves_only b j) (im_basis m) ->
  exists counts rows, art_table set show m = Ok ([txt "Atom index"; txt "Directions"; txt "Specified"; txt "Equivalent atoms"] :: rows) /\
    List.length rows = List.length (rs_positions (im_ref m)) /\ List.length counts = List.length rows /\
    (forall i k row, nth_error counts i = Some k -> nth_error rows i = Some row -> exists d c, row = [str_int (Z.of_nat i); d; fraction c k 3; str_int 0]) /\
    list_sum counts = List.length (im_basis m).
Proof.
  intros HS HR HN HM. pose proof (lone_dict _ HN) as HD.
  assert (HL : List.length (rs_equiv (im_ref m)) = List.length (rs_positions (im_ref m))) by (rewrite HN; apply seq_length).
  destruct (f_C97_table set show m _ HS HR HL HD) as (dirs & rows & HT & L1 & L2 & HI). rewrite map_length, seq_length in L1, L2.
  set (N := List.length (rs_positions (im_ref m))) in *.
  exists (map (@List.length V3) dirs), rows. split; [exact HT|]. split; [exact L2|]. split; [rewrite map_length; congruence|].
  assert (HK : forall i ds, nth_error dirs i = Some ds -> exists row, nth_error rows i = Some row /\ art_row show m (i, []) ds row).
  { intros i ds Hd. assert (Hi : (i < N)%nat) by (rewrite <- L1; apply nth_error_Some; congruence). destruct (nth_error rows i) as [row|] eqn:E; [|apply nth_error_None in E; lia].
    exists row. split; [reflexivity|]. apply (HI i (i, []) ds row); auto. rewrite nth_error_map, (nth_error_nth' _ 0%nat) by (rewrite seq_length; lia). cbn [option_map]. rewrite seq_nth by lia. reflexivity. }
  split.
  - intros i k row Hc Hr. rewrite nth_error_map in Hc. destruct (nth_error dirs i) as [ds|] eqn:Ed; [|discriminate]. cbn in Hc. injection Hc as <-.
    destruct (HK i ds Ed) as (row' & Er & (_ & d & c & _ & -> & _)). rewrite Er in Hr. injection Hr as <-. exists d, c. reflexivity.
  - assert (E : map (@List.length V3) dirs = map (fun i => list_sum (map (fun b => moved b i) (im_basis m))) (seq 0 N)).
    { apply nth_error_ext'. intros i. rewrite !nth_error_map. destruct (nth_error dirs i) as [ds|] eqn:Ed.
      - assert (Hi : (i < N)%nat) by (rewrite <- L1; apply nth_error_Some; congruence). rewrite (nth_error_nth' _ 0%nat) by (rewrite seq_length; lia). rewrite seq_nth by lia. cbn.
        f_equal. destruct (HK i ds Ed) as (row' & _ & (S & _)). now apply selects_moved.
      - apply nth_error_None in Ed. rewrite (proj2 (nth_error_None (seq 0 N) i)) by (rewrite seq_length; lia). reflexivity. }
    rewrite E, (sum_swap (fun i b => moved b i)). apply sum_ones. rewrite Forall_forall in HM |- *. intros b Hb. destruct (HM b Hb) as (j & Hj).
    pose proof (reachable_inv m HR) as (_ & _ & B & _). unfold basis_ok in B. rewrite Forall_forall in B. destruct (B b Hb) as (B1 & B2).
    unfold unit_length in B2. rewrite inner_rows in B2. rewrite (dot_single b b j Hj eq_refl) in B2. pose proof (unit_exceeds _ B2) as X.
    destruct Hj as (J1 & J2 & J3). apply (sum_one _ j); [fold N in B1; rewrite <- B1; exact J1| |].
    + unfold moved. destruct (row_zero (nth j b v0)) eqn:Z; [|reflexivity]. exfalso. assert (R: row_zero (nth j b v0) = true <-> ~ exceeds (/ 100000) (nth j b v0)) by apply small_rows. tauto.
    + intros i Hi. unfold moved. rewrite (J3 i Hi). assert (R: row_zero v0 = true <-> ~ exceeds (/ 100000) v0) by apply small_rows. rewrite (proj2 R); [reflexivity|]. intros K. now apply (exceeds_nonzero _ K).
Qed.

(** *** The notes beneath the table *)
Lemma masked_zero l : masked_count l = 0%nat <-> np_sum_bool l = 0%nat.
Proof. unfold masked_count, np_sum_bool. induction l as [|[] l IH]; cbn; [tauto|split; discriminate|exact IH]. Qed.
Lemma f_C97_notes set show tab m table : art_table set show m = Ok table ->
  exists notes, art_repr set show tab m = Ok (tab table ++ notes) /\ (notes = [] <-> masked_count (im_mask m) = 0%nat /\ im_dummy m = false).
Proof.
  intros H. unfold art_repr. rewrite H. cbn [rbind]. eexists. split; [reflexivity|]. rewrite masked_zero. unfold attention.
  destruct (np_sum_bool (im_mask m)) as [|k]; destruct (im_dummy m); cbn; split; try discriminate; auto; intros (A & B); discriminate.
Qed.

(** *** Predictions of a model that prints in green *)
Lemma f_C97_trust spl L pos ops r pol l m k n xs us : crystal L pos ops r ->
  linear_response (List.length pos) l -> symmetric_response pos ops l -> sampled r pol l m ->
  orthonormal (im_basis m) -> begins_with Green k n (interpolation_repr m) ->
  sample_shape (List.length pos) xs -> Forall2 (displacement_from r) xs us ->
  calc_polarizabilities spl m (batch_of (List.length pos) xs) = Ok (map (fun u => madd pol (l u)) us).
Proof.
  intros HC Hl Hs Hm Ho Hg Hx Hu. eapply f_C85; eauto. apply f_C97_count in Hg as (-> & -> & G). cbn in G. rewrite G.
  destruct (crystal_parts _ _ _ _ HC) as (Ep & _). destruct (sampled_follows _ _ _ _ _ _ _ HC Hl Hs Hm) as (I1 & _). rewrite I1, Ep. reflexivity.
Qed.
