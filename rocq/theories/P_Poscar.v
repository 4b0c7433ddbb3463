(** Round trips of structure and trajectory files. *)
From Coq Require Import String Ascii ZArith NArith Reals Lra Lia Psatz Bool Arith List.
From Verif Require Import Base LinAlg Constants M_Validate M_Spectrum M_Text M_Poscar S_Spectrum S_Text P_Text.
Import ListNotations.
Local Open Scope N_scope.

(** * Rows *)
Definition reread_f (fl : R -> num) (x : num) : num :=
  match x with Fin r => fl (IZR (sgn16 r) / 10 ^ 16)%R | Inf b => Inf b | NaN => NaN end.
Definition reread3_f fl (v : n3) : n3 := mkN3 (reread_f fl (nx v)) (reread_f fl (ny v)) (reread_f fl (nz v)).
Lemma reread_f_ok fl x : reread fl x (reread_f fl x).
Proof. destruct x; simpl; constructor. exists (sgn16 r). split; auto. apply sgn16_nearest. Qed.
Lemma float_fmt fl x : float_of fl (fmt_body x) = Some (reread_f fl x).
Proof. destruct x as [r|b|]; [apply float_fin|destruct b; reflexivity|reflexivity]. Qed.

Definition spaces (l : text) : Prop := Forall (fun c => is_space c = true) l.
Lemma spaces_repeat n : spaces (repeat 32 n).
Proof. induction n; constructor; auto. Qed.
Lemma spaces_app a b : spaces a -> spaces b -> spaces (a ++ b).
Proof. intros. apply Forall_app. auto. Qed.
Lemma spaces_32 l : Forall (eq 32) l -> spaces l.
Proof. induction 1; constructor; auto. subst. reflexivity. Qed.

Lemma split_padded i w c s : spaces i -> nospace w -> w <> [] -> is_space c = true ->
  split (i ++ w ++ c :: s) = w :: split s.
Proof. intros. rewrite split_spaces by auto. apply split_word; auto. Qed.

Lemma split_row i v : spaces i -> split (row_str i v) = [fmt_body (nx v); fmt_body (ny v); fmt_body (nz v)].
Proof.
  intros Hi. unfold row_str, fmt_f16, pad_left.
  change (txt "   ") with [32; 32; 32]. rewrite <- !app_assoc. cbn [app]. unfold NL.
  pose proof (fmt_nospace (nx v)) as [A1 A2]. pose proof (fmt_nospace (ny v)) as [B1 B2]. pose proof (fmt_nospace (nz v)) as [C1 C2].
  rewrite split_spaces by auto. rewrite split_padded by (auto using spaces_repeat).
  f_equal. rewrite !split_space by reflexivity. rewrite split_padded by (auto using spaces_repeat).
  f_equal. rewrite !split_space by reflexivity. rewrite split_padded by (auto using spaces_repeat). reflexivity.
Qed.

Lemma single_app a b : single_line a -> single_line b -> single_line (a ++ b).
Proof. intros [A B] [C D]. split; intros I; apply in_app_or in I as [I|I]; auto. Qed.
Lemma single_spaces i : Forall (eq 32) i -> single_line i.
Proof. intros H. rewrite Forall_forall in H. split; intros I; apply H in I; discriminate. Qed.
Lemma repeat_32 n : Forall (eq 32) (repeat 32 n).
Proof. induction n; constructor; auto. Qed.
Lemma single_fmt x : single_line (fmt_f16 x).
Proof. unfold fmt_f16, pad_left. apply single_app; [apply single_spaces, repeat_32|apply nospace_single, fmt_nospace]. Qed.

Lemma row_str_line i v : Forall (eq 32) i -> exists l, row_str i v = (l ++ [10])%list /\ single_line l.
Proof.
  intros Hi. unfold row_str. exists (i ++ fmt_f16 (nx v) ++ txt "   " ++ fmt_f16 (ny v) ++ txt "   " ++ fmt_f16 (nz v))%list.
  split; [rewrite <- !app_assoc; reflexivity|].
  assert (S3 : single_line (txt "   ")) by (apply single_spaces; repeat constructor). pose proof (single_spaces i Hi). pose proof single_fmt. auto 12 using single_app.
Qed.

Lemma read_row_str E msg i v s : Forall (eq 32) i ->
  read_row E msg (row_str i v ++ s) = Ok (reread3_f (e_fl E) v, s).
Proof.
  intros Hi. unfold read_row. destruct (row_str_line i v Hi) as (l & EL & SL).
  assert (RL : readline (row_str i v ++ s) = (row_str i v, s)).
  { rewrite EL. rewrite <- app_assoc. cbn [app]. apply readline_line. apply SL. }
  rewrite RL. rewrite split_row by (apply spaces_32; auto). cbn [firstn floats].
  rewrite !float_fmt. reflexivity.
Qed.
Lemma read_rows_str E msg i vs s : Forall (eq 32) i ->
  read_rows E msg (List.length vs) (flat_map (row_str i) vs ++ s) = Ok (map (reread3_f (e_fl E)) vs, s).
Proof.
  intros Hi. induction vs as [|v vs IH]; cbn [List.length read_rows flat_map map]; auto.
  rewrite <- app_assoc. rewrite read_row_str by auto. cbn [rbind]. rewrite IH. reflexivity.
Qed.

(** * Carriage returns and newlines in what is written *)
Definition no_cr (s : text) : Prop := ~ In 13 s.
Lemma no_cr_app a b : no_cr a -> no_cr b -> no_cr (a ++ b).
Proof. intros A B I. apply in_app_or in I as [I|I]; [apply A|apply B]; auto. Qed.
Lemma no_cr_flat {A} (f : A -> text) l : (forall x, no_cr (f x)) -> no_cr (flat_map f l).
Proof. intros H I. apply in_flat_map in I as (x & _ & I). apply (H x I). Qed.
Lemma no_cr_row i v : Forall (eq 32) i -> no_cr (row_str i v).
Proof. intros H. destruct (row_str_line i v H) as (l & -> & S1 & S2). apply no_cr_app; auto. intros [I|[]]; discriminate. Qed.

(** * repr *)
Lemma hex_range w n : Forall (fun c => 48 <= c) (hex w n).
Proof.
  revert n. induction w; intros n; cbn [hex]; auto. apply Forall_app. split; auto. constructor; auto.
  unfold hex_char. destruct (N.ltb_spec (n mod 16) 10); generalize dependent (n mod 16); intros; try lia.
Qed.
Lemma ge48_single l : Forall (fun c => 32 <= c) l -> single_line l.
Proof. intros H. rewrite Forall_forall in H. split; intros I; apply H in I; lia. Qed.
Lemma repr_char_range pr q c : q = 39 \/ q = 34 -> Forall (fun x => 32 <= x) (repr_char pr q c).
Proof.
  intros Q. unfold repr_char.
  assert (HX : forall w, Forall (fun x => 32 <= x) (hex w c)).
  { intros w. eapply Forall_impl; [|apply hex_range]. simpl. intros; lia. }
  destruct (N.eqb_spec c 92) as [->|N1]; [cbn [orb]; repeat constructor; lia|].
  destruct (N.eqb_spec c q) as [->|N2]; [cbn [orb]; destruct Q; subst; repeat constructor; lia|]. cbn [orb].
  destruct (N.eqb_spec c 9); [repeat constructor; vm_compute; discriminate|].
  destruct (N.eqb_spec c 10); [repeat constructor; vm_compute; discriminate|].
  destruct (N.eqb_spec c 13); [repeat constructor; vm_compute; discriminate|].
  destruct (N.ltb_spec c 32); cbn [orb].
  { apply Forall_app; split; [repeat constructor; vm_compute; discriminate|auto]. }
  destruct (N.eqb_spec c 127).
  { apply Forall_app; split; [repeat constructor; vm_compute; discriminate|auto]. }
  destruct (c <? 127); [repeat constructor; auto|].
  destruct (pr c); [repeat constructor; auto|].
  destruct (c <? 256); [|destruct (c <? 65536)]; (apply Forall_app; split; [repeat constructor; vm_compute; discriminate|auto]).
Qed.
Lemma repr_single pr label : single_line (repr_body pr label).
Proof.
  apply ge48_single. unfold repr_body. apply Forall_forall. intros x I. apply in_flat_map in I as (c & _ & I).
  pose proof (repr_char_range pr (repr_quote label) c) as H. rewrite Forall_forall in H. apply H; auto.
  unfold repr_quote. destruct (_ && _); auto.
Qed.

(** * Atomic symbols *)
Lemma table_numbers : map snd atomic_numbers = map Z.of_nat (seq 1 118).
Proof. vm_compute. reflexivity. Qed.
Definition nospaceb (s : text) : bool := forallb (fun c => negb (is_space c)) s.
Lemma table_check : forallb (fun e =>
    match symbol_number (txt (fst e)), atom_symbol_opt (snd e) with
    | Some z, Some s => Z.eqb z (snd e) && String.eqb s (fst e) && nospaceb (txt (fst e)) && negb (teqb (txt (fst e)) [])
    | _, _ => false end) atomic_numbers = true.
Proof. vm_compute. reflexivity. Qed.
Lemma known_in n : known n <-> exists s, In (s, n) atomic_numbers.
Proof.
  assert (E : known n <-> In n (map snd atomic_numbers)).
  { rewrite table_numbers, in_map_iff. unfold known. split.
    - intros H. exists (Z.to_nat n). rewrite in_seq. lia.
    - intros (k & <- & I). apply in_seq in I. lia. }
  rewrite E, in_map_iff. split.
  - intros ((s & m) & <- & I). exists s. auto.
  - intros (s & I). exists (s, n). auto.
Qed.
Lemma symbol_of_known n : known n -> exists s, atom_symbol_opt n = Some s /\ atom_symbol n = Ok s /\
  symbol_number (txt s) = Some n /\ nospace (txt s) /\ txt s <> [].
Proof.
  intros H. apply known_in in H as (s & I). exists s.
  pose proof table_check as T. rewrite forallb_forall in T. specialize (T _ I). cbn [fst snd] in T.
  destruct (symbol_number (txt s)) as [z|]; [|discriminate]. unfold atom_symbol.
  destruct (atom_symbol_opt n) as [s'|]; [|discriminate].
  rewrite !andb_true_iff in T. destruct T as [[[T1 T2] T3] T4].
  apply Z.eqb_eq in T1. apply String.eqb_eq in T2. subst. repeat split; auto.
  - unfold nospaceb in T3. rewrite forallb_forall in T3. apply Forall_forall. intros c Ic. apply T3 in Ic. destruct (is_space c); auto.
  - intros E. rewrite E, teqb_refl in T4. discriminate.
Qed.
Lemma unknown_spec n : unknown_number n = false <-> known n.
Proof.
  unfold unknown_number. split.
  - unfold atom_symbol_opt. destruct (find _ _) as [e|] eqn:F; [|discriminate]. intros _.
    apply find_some in F as [I Q]. apply Z.eqb_eq in Q. apply known_in. exists (fst e). destruct e; simpl in *; subst; auto.
  - intros H. destruct (symbol_of_known n H) as (s & -> & _). auto.
Qed.

(** * Grouping *)
Definition expand (u : list Z) (ks : list nat) : list Z := concat (map2 (@repeat Z) u ks).
Lemma map2_app {A B C} (f : A -> B -> C) a b c d : List.length a = List.length c ->
  map2 f (a ++ b) (c ++ d) = (map2 f a c ++ map2 f b d)%list.
Proof. revert c. induction a; destruct c; simpl; intros; try discriminate; auto. f_equal. auto. Qed.
Lemma expand_snoc u ks n k : List.length u = List.length ks -> expand (u ++ [n]) (ks ++ [k]) = (expand u ks ++ repeat n k)%list.
Proof. intros H. unfold expand. rewrite map2_app by auto. rewrite concat_app. cbn. rewrite app_nil_r. auto. Qed.

Lemma group_loop_ok l : forall uniq cur ks k u,
  List.length uniq = List.length ks -> NoDup (uniq ++ [cur]) -> Forall (fun k => 0 < k)%nat (ks ++ [k]) ->
  group_loop uniq cur l = Ok u ->
  exists ks', List.length u = List.length ks' /\ NoDup u /\ Forall (fun k => 0 < k)%nat ks' /\
    (expand (uniq ++ [cur]) (ks ++ [k]) ++ l)%list = expand u ks'.
Proof.
  induction l as [|n l IH]; intros uniq cur ks k u L ND F H; cbn [group_loop] in H.
  - injection H as <-. exists (ks ++ [k])%list. rewrite app_nil_r. rewrite !app_length, L. auto.
  - destruct (Z.eqb_spec n cur) as [->|NE]; cbn [negb andb] in H.
    + destruct (IH uniq cur ks (S k) u L ND) as (ks' & A & B & C & D); auto.
      { apply Forall_app in F as [F1 F2]. apply Forall_app. split; auto. constructor; auto. lia. }
      exists ks'. repeat split; auto. rewrite <- D. rewrite !expand_snoc by auto.
      rewrite <- !app_assoc. f_equal. change (cur :: l) with ([cur] ++ l)%list. rewrite app_assoc. f_equal.
      change (repeat cur (S k)) with (cur :: repeat cur k). symmetry. apply repeat_cons.
    + destruct (existsb (Z.eqb n) uniq) eqn:X; [discriminate|].
      destruct (IH (uniq ++ [cur])%list n (ks ++ [k])%list 1%nat u) as (ks' & A & B & C & D); auto.
      { rewrite !app_length, L. auto. }
      { apply (Permutation.Permutation_NoDup (l := n :: (uniq ++ [cur]))).
        - apply Permutation.Permutation_cons_append.
        - constructor; auto. intros I. apply in_app_or in I as [I|[I|[]]]; [|congruence].
          assert (existsb (Z.eqb n) uniq = true) by (apply existsb_exists; exists n; split; auto; apply Z.eqb_refl). congruence. }
      { apply Forall_app. split; auto. }
      exists ks'. repeat split; auto. rewrite <- D. rewrite (expand_snoc (uniq ++ [cur])) by (rewrite !app_length, L; auto).
      rewrite <- app_assoc. reflexivity.
Qed.

Lemma count_app n a b : count_of n (a ++ b) = (count_of n a + count_of n b)%nat.
Proof. unfold count_of. rewrite filter_app, app_length. auto. Qed.
Lemma count_repeat n m k : count_of n (repeat m k) = if Z.eqb n m then k else 0%nat.
Proof. unfold count_of. induction k; simpl; [destruct (Z.eqb n m); auto|]. destruct (Z.eqb n m); simpl; auto. Qed.
Lemma count_notin n u ks : ~ In n u -> count_of n (expand u ks) = 0%nat.
Proof.
  revert ks. induction u as [|m u IH]; intros ks H; [destruct ks; reflexivity|]. destruct ks as [|k ks]; [reflexivity|].
  change (expand (m :: u) (k :: ks)) with (repeat m k ++ expand u ks)%list. rewrite count_app, count_repeat.
  destruct (Z.eqb_spec n m); [subst; exfalso; apply H; left; auto|]. rewrite IH; auto. intros I. apply H. right; auto.
Qed.
Lemma counts_expand u : forall ks, NoDup u -> List.length u = List.length ks ->
  map (fun n => count_of n (expand u ks)) u = ks.
Proof.
  induction u as [|m u IH]; intros [|k ks] ND L; try discriminate; auto. inversion ND; subst.
  cbn [map]. f_equal.
  - change (expand (m :: u) (k :: ks)) with (repeat m k ++ expand u ks)%list. rewrite count_app, count_repeat, Z.eqb_refl, count_notin; auto. lia.
  - etransitivity; [|apply (IH ks); [auto|simpl in L; lia]]. apply map_ext_in. intros n I.
    change (expand (m :: u) (k :: ks)) with (repeat m k ++ expand u ks)%list. rewrite count_app, count_repeat.
    destruct (Z.eqb_spec n m); [subst; contradiction|auto].
Qed.

(** contiguity *)
Lemma contiguous_cons_block n k rest : contiguous rest -> ~ In n rest -> contiguous (repeat n k ++ rest).
Proof.
  intros C NI i j m x [H1 H2] Hi Hm.
  assert (RN : forall a, (a < k)%nat -> nth_error (repeat n k ++ rest) a = Some n).
  { intros a Ha. rewrite nth_error_app1 by (rewrite repeat_length; auto). apply nth_error_repeat. auto. }
  assert (RR : forall a, (k <= a)%nat -> nth_error (repeat n k ++ rest) a = nth_error rest (a - k)).
  { intros a Ha. rewrite nth_error_app2 by (rewrite repeat_length; auto). rewrite repeat_length. auto. }
  destruct (le_lt_dec k i).
  - rewrite RR in * by lia. apply (C (i - k)%nat (j - k)%nat (m - k)%nat); auto; lia.
  - rewrite RN in Hi by auto. injection Hi as <-. destruct (le_lt_dec k m).
    + rewrite RR in Hm by lia. apply nth_error_In in Hm. contradiction.
    + apply RN. lia.
Qed.
Lemma in_expand n u ks : In n (expand u ks) -> In n u.
Proof.
  revert ks. induction u as [|m u IH]; intros [|k ks] H; try (destruct H; fail).
  change (expand (m :: u) (k :: ks)) with (repeat m k ++ expand u ks)%list in H.
  apply in_app_or in H as [H|H]; [left; symmetry; eapply repeat_spec; eauto|right; eauto].
Qed.
Lemma contiguous_expand u : forall ks, NoDup u -> contiguous (expand u ks).
Proof.
  induction u as [|m u IH]; intros ks ND.
  - intros i j k x _ H. destruct ks; destruct i; discriminate.
  - destruct ks as [|k ks]; [intros i j k x _ H; destruct i; discriminate|]. inversion ND; subst.
    apply (contiguous_cons_block m k (expand u ks)); auto. intros I. apply in_expand in I. contradiction.
Qed.
Lemma contiguous_app_l a b : contiguous (a ++ b) -> forall i j k x, (i < j < k)%nat -> nth_error (a ++ b) i = Some x ->
  nth_error (a ++ b) k = Some x -> nth_error (a ++ b) j = Some x.
Proof. auto. Qed.

Lemma group_loop_err l : forall uniq cur ks k e,
  List.length uniq = List.length ks -> Forall (fun k => 0 < k)%nat (ks ++ [k]) ->
  group_loop uniq cur l = Err e -> e = ValueError /\ ~ contiguous (expand (uniq ++ [cur]) (ks ++ [k]) ++ l).
Proof.
  induction l as [|n l IH]; intros uniq cur ks k e L F H; cbn [group_loop] in H; [discriminate|].
  destruct (Z.eqb_spec n cur) as [->|NE]; cbn [negb andb] in H.
  - destruct (IH uniq cur ks (S k) e L) as (A & B); auto.
    { apply Forall_app in F as [F1 F2]. apply Forall_app. split; auto. constructor; auto. lia. }
    split; auto. intros C. apply B.
    replace (expand (uniq ++ [cur]) (ks ++ [S k]) ++ l)%list with (expand (uniq ++ [cur]) (ks ++ [k]) ++ cur :: l)%list; auto.
    rewrite !expand_snoc by auto. rewrite <- !app_assoc. f_equal. change (cur :: l) with ([cur] ++ l)%list.
    rewrite app_assoc. f_equal. change (repeat cur (S k)) with (cur :: repeat cur k). symmetry. apply repeat_cons.
  - destruct (existsb (Z.eqb n) uniq) eqn:X.
    + injection H as <-. split; auto. intros C.
      apply existsb_exists in X as (m & I & Q). apply Z.eqb_eq in Q. subst m.
      (* n occurs in the expansion of uniq, then cur, then n *)
      rewrite expand_snoc in C by auto.
      apply Forall_app in F as [F1 F2]. inversion F2; subst. destruct k as [|k]; [lia|].
      assert (IN : In n (expand uniq ks)).
      { clear -I L F1. revert ks L F1. induction uniq as [|m u IHu]; intros [|k ks] L F1; simpl in L; try discriminate; [destruct I|].
        inversion F1; subst. change (expand (m :: u) (k :: ks)) with (repeat m k ++ expand u ks)%list. apply in_or_app.
        destruct I as [->|I]; [left; destruct k; [lia|left; auto]|right; apply IHu; auto]. }
      apply In_nth_error in IN as (i & Hi).
      assert (Li : (i < List.length (expand uniq ks))%nat) by (apply nth_error_Some; congruence).
      set (A := expand uniq ks) in *.
      assert (N1 : nth_error ((A ++ repeat cur (S k)) ++ n :: l) i = Some n).
      { rewrite <- app_assoc. rewrite nth_error_app1 by auto. auto. }
      assert (N2 : nth_error ((A ++ repeat cur (S k)) ++ n :: l) (List.length A + S k) = Some n).
      { rewrite nth_error_app2 by (rewrite app_length, repeat_length; lia). rewrite app_length, repeat_length.
        rewrite Nat.sub_diag. auto. }
      assert (N3 : nth_error ((A ++ repeat cur (S k)) ++ n :: l) (List.length A) = Some cur).
      { rewrite <- app_assoc. rewrite nth_error_app2 by auto. rewrite Nat.sub_diag. reflexivity. }
      pose proof (C i (List.length A) (List.length A + S k)%nat n ltac:(lia) N1 N2). congruence.
    + destruct (IH (uniq ++ [cur])%list n (ks ++ [k])%list 1%nat e) as (A & B); auto.
      { rewrite !app_length, L. auto. }
      { apply Forall_app. split; auto. }
      split; auto. intros C. apply B. rewrite (expand_snoc (uniq ++ [cur])) by (rewrite !app_length, L; auto).
      rewrite <- app_assoc. exact C.
Qed.

Lemma group_start n l : 
  (forall u, group_loop [] n (n :: l) = Ok u -> exists ks, List.length u = List.length ks /\ NoDup u /\
      Forall (fun k => 0 < k)%nat ks /\ n :: l = expand u ks) /\
  (forall e, group_loop [] n (n :: l) = Err e -> e = ValueError /\ ~ contiguous (n :: l)).
Proof.
  cbn [group_loop]. rewrite Z.eqb_refl. cbn [negb andb]. split.
  - intros u H. destruct (group_loop_ok l [] n [] 1%nat u) as (ks & A & B & C & D); auto.
    1: { apply NoDup_cons; [intros []|constructor]. }
    1: { repeat constructor. }
    exists ks. auto.
  - intros e H. destruct (group_loop_err l [] n [] 1%nat e) as (A & B); auto. repeat constructor.
Qed.

Lemma mapM_ok {A B} (f : A -> res B) l m : Forall2 (fun a b => f a = Ok b) l m -> mapM f l = Ok m.
Proof. induction 1; cbn [mapM]; auto. rewrite H. cbn [rbind]. rewrite IHForall2. auto. Qed.

(** the written symbols and counts *)
Definition sym_text (n : Z) : text := match atom_symbol_opt n with Some s => txt s | None => [] end.
Definition count_text (k : nat) : text := str_int (Z.of_nat k).
Definition symbols_text (u : list Z) (ks : list nat) : text :=
  (txt "   " ++ join (txt "  ") (map sym_text u) ++ [NL] ++ txt "   " ++ join (txt "   ") (map count_text ks) ++ [NL])%list.

Lemma get_symbols_ok numbers u ks : Forall known numbers ->
  (exists n l, numbers = n :: l /\ group_loop [] n numbers = Ok u) -> numbers = expand u ks ->
  List.length u = List.length ks -> NoDup u -> Forall (fun k => 0 < k)%nat ks ->
  get_symbols_str numbers = Ok (symbols_text u ks) /\ Forall known u.
Proof.
  intros K (n & l & -> & G) X L ND P.
  assert (KU : Forall known u).
  { apply Forall_forall. intros z I. rewrite Forall_forall in K. apply K. rewrite X.
    clear -I L P. revert ks L P. induction u as [|m u IHu]; intros [|k ks] L P; simpl in L; try discriminate; [destruct I|].
    inversion P; subst. change (expand (m :: u) (k :: ks)) with (repeat m k ++ expand u ks)%list. apply in_or_app.
    destruct I as [->|I]; [left; destruct k; [lia|left; auto]|right; apply IHu; auto]. }
  split; auto. unfold get_symbols_str. rewrite G. cbn [rbind].
  rewrite (mapM_ok _ u (map sym_text u)).
  2: { clear -KU. induction KU; cbn [map]; constructor; auto. destruct (symbol_of_known x H) as (s & A & B & _).
       rewrite B. cbn [rmap]. unfold sym_text. rewrite A. auto. }
  cbn [rbind]. unfold symbols_text. do 2 f_equal. f_equal. f_equal. f_equal. f_equal.
  assert (M : map (fun n0 => str_int (Z.of_nat (count_of n0 (n :: l)))) u = map count_text ks).
  { rewrite <- (counts_expand u ks ND L). rewrite <- X. rewrite map_map. reflexivity. }
  rewrite M. reflexivity.
Qed.

Lemma split_join sep ws s c : spaces sep -> sep <> [] -> Forall (fun w => nospace w /\ w <> []) ws -> is_space c = true ->
  split (join sep ws ++ c :: s) = (ws ++ split s)%list.
Proof.
  intros Hs Ns F Hc. induction F as [|w ws [A B] F IH]; cbn [join].
  - cbn [app]. rewrite split_space; auto.
  - destruct ws as [|w' ws'].
    + rewrite split_word by auto. reflexivity.
    + rewrite <- !app_assoc. destruct sep as [|x sep]; [congruence|]. inversion Hs; subst. cbn [app].
      rewrite split_word by auto. cbn [app]. f_equal. rewrite split_spaces by auto. exact IH.
Qed.

Lemma single_join sep ws : single_line sep -> Forall single_line ws -> single_line (join sep ws).
Proof.
  intros S F. induction F as [|w ws A F IH]; cbn [join]; [split; intros []|].
  destruct ws; auto. repeat apply single_app; auto.
Qed.

Lemma ints_counts ks : ints (map count_text ks) = Some (map Z.of_nat ks).
Proof. induction ks; auto. cbn [map ints]. unfold count_text at 1. rewrite int_of_str_int, IHks. auto. Qed.

Lemma sym_text_ok n : known n -> nospace (sym_text n) /\ sym_text n <> [] /\ symbol_number (sym_text n) = Some n.
Proof. intros H. destruct (symbol_of_known n H) as (s & A & _ & B & C & D). unfold sym_text. rewrite A. auto. Qed.

Lemma read_symbols_text u ks s : Forall known u -> u <> [] -> List.length u = List.length ks ->
  read_atomic_symbols (symbols_text u ks ++ s) = Ok (map sym_text (expand u ks), s).
Proof.
  intros K NE L. unfold read_atomic_symbols, symbols_text, NL.
  assert (W1 : Forall (fun w => nospace w /\ w <> []) (map sym_text u)).
  { apply Forall_forall. intros w I. apply in_map_iff in I as (n & <- & I). rewrite Forall_forall in K.
    destruct (sym_text_ok n (K n I)) as (A & B & _). auto. }
  assert (W2 : Forall (fun w => nospace w /\ w <> []) (map count_text ks)).
  { apply Forall_forall. intros w I. apply in_map_iff in I as (n & <- & I). split; [apply nospace_str_int|apply str_int_nonnil]. }
  assert (S1 : single_line (txt "   " ++ join (txt "  ") (map sym_text u))).
  { apply single_app; [apply single_spaces; repeat constructor|]. apply single_join; [apply single_spaces; repeat constructor|].
    eapply Forall_impl; [|exact W1]. intros w [A _]. apply nospace_single; auto. }
  assert (S2 : single_line (txt "   " ++ join (txt "   ") (map count_text ks))).
  { apply single_app; [apply single_spaces; repeat constructor|]. apply single_join; [apply single_spaces; repeat constructor|].
    eapply Forall_impl; [|exact W2]. intros w [A _]. apply nospace_single; auto. }
  assert (T : ((txt "   " ++ join (txt "  ") (map sym_text u) ++ [10] ++ txt "   " ++ join (txt "   ") (map count_text ks) ++ [10]) ++ s
     = (txt "   " ++ join (txt "  ") (map sym_text u)) ++ 10 :: ((txt "   " ++ join (txt "   ") (map count_text ks)) ++ 10 :: s))%list).
  { rewrite <- !app_assoc. reflexivity. }
  rewrite T. rewrite readline_line by apply S1.
  assert (P1 : split ((txt "   " ++ join (txt "  ") (map sym_text u)) ++ [10]) = map sym_text u).
  { rewrite <- app_assoc, split_spaces by repeat constructor. rewrite split_join; auto; try reflexivity.
    - apply app_nil_r. - repeat constructor. - discriminate. }
  rewrite P1.
  destruct (map sym_text u) as [|w0 ws0] eqn:MU; [destruct u; [congruence|discriminate]|]. rewrite <- MU in *.
  assert (FN : find (fun w => match symbol_number w with Some _ => false | None => true end) (map sym_text u) = None).
  { clear -K. induction K; cbn [map find]; auto. destruct (sym_text_ok x H) as (_ & _ & ->). auto. }
  rewrite FN. rewrite readline_line by apply S2.
  assert (P2 : split ((txt "   " ++ join (txt "   ") (map count_text ks)) ++ [10]) = map count_text ks).
  { rewrite <- app_assoc, split_spaces by repeat constructor. rewrite split_join; auto; try reflexivity.
    - apply app_nil_r. - repeat constructor. - discriminate. }
  rewrite P2. rewrite !map_length. rewrite <- L, Nat.eqb_refl. cbn [negb]. rewrite ints_counts.
  f_equal. f_equal. clear -L. revert ks L. induction u as [|n u IH]; intros [|k ks] L; simpl in L; try discriminate; auto.
  cbn [map combine flat_map fst snd]. rewrite Nat2Z.id. rewrite IH by lia.
  change (expand (n :: u) (k :: ks)) with (repeat n k ++ expand u ks)%list. rewrite map_app. f_equal.
  clear. induction k; simpl; congruence.
Qed.

(** * The header *)
Lemma scale_text E : e_fl E 1%R = Fin 1 -> float_of (e_fl E) ((txt "   1.00000000000000") ++ [10]) = Some (Fin 1).
Proof.
  intros H. assert (C : float_of (e_fl E) (txt "   1.00000000000000" ++ [10]) = Some (e_fl E (IZR 100000000000000 * powerRZ 10 (-14))%R)) by reflexivity.
  rewrite C. replace (IZR 100000000000000 * powerRZ 10 (-14))%R with 1%R; [congruence|].
  unfold powerRZ. change (Pos.to_nat 14) with 14%nat. replace (IZR 100000000000000) with (10 ^ 14)%R by ring. field.
Qed.
Lemma mul_one x : num_mul x (Fin 1) = x.
Proof.
  destruct x as [r|b|]; cbn [num_mul]; auto; [f_equal; ring|].
  destruct (Req_EM_T 1 0); [lra|]. rewrite (proj2 (Rltb_false 1 0)) by lra. rewrite xorb_false_r. auto.
Qed.
Lemma scale_one v : n3_scale (Fin 1) v = v.
Proof. destruct v. unfold n3_scale. simpl. rewrite !mul_one. auto. Qed.

Lemma read_lattice_text E label lat s : e_fl E 1%R = Fin 1 -> List.length lat = 3%nat ->
  read_lattice E ((repr_body (e_printable E) label ++ [NL]) ++ (txt "   1.00000000000000" ++ [NL]) ++ lattice_str lat ++ s)
  = Ok (map (reread3_f (e_fl E)) lat, s).
Proof.
  intros F L. unfold read_lattice, NL. rewrite <- app_assoc. cbn [app].
  rewrite readline_line by apply repr_single.
  rewrite <- app_assoc.
  assert (R2 : forall t, readline (txt "   1.00000000000000" ++ [10] ++ t) = ((txt "   1.00000000000000" ++ [10])%list, t)).
  { intros t. cbn [app]. apply readline_line. intros I. repeat (destruct I as [I|I]; [discriminate|]). destruct I. }
  rewrite R2. rewrite scale_text by auto.
  unfold lattice_str. rewrite <- L. rewrite read_rows_str by (repeat constructor). cbn [rbind]. f_equal. f_equal.
  rewrite map_map. apply map_ext. intros v. apply scale_one.
Qed.

(** * Arrays *)
Lemma rows_n3_length l n : List.length l = (n * 3)%nat -> List.length (rows_n3 l) = n /\ entries (rows_n3 l) = l.
Proof.
  revert l. induction n; intros l H.
  - destruct l; [auto|discriminate].
  - destruct l as [|a [|b [|c l]]]; try (simpl in H; lia). cbn [rows_n3].
    destruct (IHn l) as [A B]; [simpl in H; lia|]. split; [simpl; lia|]. unfold entries in *. cbn [flat_map nx ny nz app]. rewrite B. auto.
Qed.
Lemma reread_entries fl l : Forall2 (reread fl) (entries l) (entries (map (reread3_f fl) l)).
Proof.
  induction l as [|v l IH]; [constructor|]. unfold entries in *. cbn [map flat_map app]. repeat constructor; auto; apply reread_f_ok.
Qed.

Lemma verify_structure_spec lattice numbers positions :
  (verify_structure lattice numbers positions = Ok tt <-> valid_structure lattice numbers positions) /\
  (forall e, verify_structure lattice numbers positions = Err e -> e = ValueError).
Proof.
  unfold verify_structure, valid_structure.
  assert (V2 : forall sh a b, verify_ndarray_shape sh [Some a; Some b] = (if list_eq_dec Nat.eq_dec sh [a; b] then Ok tt else Err ValueError)).
  { intros sh a b. destruct sh as [|x [|y [|z sh]]]; try (destruct (list_eq_dec Nat.eq_dec _ [a; b]); [discriminate|reflexivity]).
    unfold verify_ndarray_shape. cbn [List.length Nat.eqb negb dims_match].
    destruct (list_eq_dec Nat.eq_dec [x; y] [a; b]) as [E|E].
    - injection E as -> ->. rewrite !Nat.eqb_refl. auto.
    - destruct (Nat.eqb_spec x a); auto. destruct (Nat.eqb_spec y b); auto. subst. congruence. }
  rewrite !V2. destruct (list_eq_dec Nat.eq_dec (na_shape lattice) [3; 3]%nat) as [E1|E1]; cbn [rbind verify_list_len].
  2: { split; [split; [discriminate|intros (X & _); congruence]|intros e H; congruence]. }
  destruct (existsb unknown_number numbers) eqn:U.
  { split; [split; [discriminate|]|intros e H; congruence]. intros (_ & K & _).
    apply existsb_exists in U as (n & I & Hn). rewrite Forall_forall in K. apply K, unknown_spec in I. congruence. }
  assert (K : Forall known numbers).
  { apply Forall_forall. intros n I. apply unknown_spec. destruct (unknown_number n) eqn:Q; auto.
    assert (existsb unknown_number numbers = true) by (apply existsb_exists; eauto). congruence. }
  destruct (list_eq_dec Nat.eq_dec (na_shape positions) [List.length numbers; 3]%nat) as [E2|E2]; cbn [rbind].
  2: { split; [split; [discriminate|intros (_ & _ & X & _); congruence]|intros e H; congruence]. }
  rewrite E2. change (verify_ndarray_shape [List.length numbers; 3%nat] [None; Some 3%nat]) with (Ok tt). cbn [rbind].
  assert (O : outside positions = false <-> Forall in_cell (na_data positions)).
  { unfold outside. split; intros H.
    - apply Forall_forall. intros x I.
      assert (Q : num_lt x 0 || num_gt x 1 = false).
      { destruct (num_lt x 0 || num_gt x 1) eqn:Q; auto. assert (existsb (fun x => num_lt x 0 || num_gt x 1) (na_data positions) = true) by (apply existsb_exists; eauto). congruence. }
      apply orb_false_iff in Q as [Q1 Q2]. destruct x as [r|b|]; cbn in *; auto.
      + apply Rltb_false in Q1, Q2. lra.
      + destruct b; discriminate.
    - apply Bool.not_true_is_false. intros Q. apply existsb_exists in Q as (x & I & Q). rewrite Forall_forall in H. apply H in I.
      apply orb_true_iff in Q as [Q|Q]; destruct x as [r|b|]; cbn in *; try discriminate; try contradiction; apply Rltb_true in Q; lra. }
  destruct (outside positions) eqn:Q.
  - split; [split; [discriminate|]|intros e H; congruence]. intros (_ & _ & _ & X). apply O in X. congruence.
  - split; [split; auto|intros e H; discriminate]. intros _. repeat split; auto. apply O. auto.
Qed.
