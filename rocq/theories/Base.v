(** Base definitions shared by all models: Python exceptions as values, a few
    list utilities (Python's [enumerate], index-of-first, NumPy leading-axis
    broadcasting), boolean comparisons of reals. *)
From Coq Require Import String Bool ZArith Reals Lra Lia Arith List.
Import ListNotations.

(** Exceptions that the modelled code raises or lets escape.
    ramannoodle/exceptions.py:8-38 and the Python/NumPy built-ins met in the
    code.  [LinAlgError] is a subclass of [ValueError] in NumPy. *)
Inductive exn : Type :=
| ValueError
| LinAlgError
| TypeError
| IndexError
| KeyError
| ZeroDivisionError
| OverflowError
| NotImplementedError
| AttributeError
| FileExistsError
| FileNotFoundError
| RuntimeError                    (* raised by PyTorch *)
| UserError                       (* exceptions.py:32 *)
| InvalidDOFException             (* exceptions.py:20 *)
| SymmetryException               (* exceptions.py:28 *)
| IncompatibleStructureException  (* exceptions.py:16 *)
| NoMatchingLineFoundException    (* exceptions.py:8 *)
| InvalidFileException (msg : list N). (* exceptions.py:12; the message as code points *)

(** Result of a Python call: a value or a raised exception. *)
Inductive res (A : Type) : Type :=
| Ok (a : A)
| Err (e : exn).
Arguments Ok {A} a.
Arguments Err {A} e.

Definition rbind {A B} (r : res A) (f : A -> res B) : res B :=
  match r with Ok a => f a | Err e => Err e end.

Definition rmap {A B} (f : A -> B) (r : res A) : res B :=
  match r with Ok a => Ok (f a) | Err e => Err e end.

Declare Scope res_scope.
Delimit Scope res_scope with res.
Notation "'let*' x ':=' r 'in' k" := (rbind r (fun x => k))
  (at level 200, x pattern, r at level 100, k at level 200, right associativity) : res_scope.
Open Scope res_scope.

(** [except ValueError]: catches ValueError and its subclass LinAlgError. *)
Definition is_value_error (e : exn) : bool :=
  match e with ValueError | LinAlgError => true | _ => false end.

(** Sequencing a Python [for] loop that may raise and collects results. *)
Fixpoint mapM {A B} (f : A -> res B) (l : list A) : res (list B) :=
  match l with
  | [] => Ok []
  | a :: l' => let* b := f a in let* bs := mapM f l' in Ok (b :: bs)
  end.

(** Index of the first element satisfying [p], counting from [k]; the Python
    idiom [for index, v in enumerate(l): if p(v): return index] ... [return -1]. *)
Fixpoint find_index_from {A} (p : A -> bool) (k : nat) (l : list A) : Z :=
  match l with
  | [] => (-1)%Z
  | a :: l' => if p a then Z.of_nat k else find_index_from p (S k) l'
  end.
Definition find_index {A} (p : A -> bool) (l : list A) : Z := find_index_from p 0 l.

(** Elementwise binary operation on two lists of equal length. *)
Fixpoint map2 {A B C} (f : A -> B -> C) (l : list A) (m : list B) : list C :=
  match l, m with
  | a :: l', b :: m' => f a b :: map2 f l' m'
  | _, _ => []
  end.

(** NumPy broadcasting along the leading axis of two (N,3)-like arrays: equal
    lengths, or one of them has length one; otherwise ValueError. *)
Definition bcast2 {A B C} (f : A -> B -> C) (l : list A) (m : list B) : res (list C) :=
  if Nat.eqb (length l) (length m) then Ok (map2 f l m)
  else match l, m with
       | [a], _ => Ok (map (f a) m)
       | _, [b] => Ok (map (fun a => f a b) l)
       | _, _ => Err ValueError
       end.

(** Python list indexing with negative indexes counted from the end. *)
Definition py_index (n : nat) (i : Z) : option nat :=
  if (0 <=? i)%Z then
    if (i <? Z.of_nat n)%Z then Some (Z.to_nat i) else None
  else
    if (- Z.of_nat n <=? i)%Z then Some (Z.to_nat (i + Z.of_nat n)) else None.

Fixpoint set_nth {A} (n : nat) (x : A) (l : list A) : list A :=
  match n, l with
  | _, [] => []
  | O, _ :: l' => x :: l'
  | S n', a :: l' => a :: set_nth n' x l'
  end.

(** Boolean comparisons on [R] (exact real arithmetic). *)
Definition Rltb (x y : R) : bool := if Rlt_dec x y then true else false.
Definition Rleb (x y : R) : bool := if Rle_dec x y then true else false.
Definition Reqb (x y : R) : bool := if Req_EM_T x y then true else false.

Lemma Rltb_true x y : Rltb x y = true <-> (x < y)%R.
Proof. unfold Rltb; destruct (Rlt_dec x y); split; intros; try congruence; tauto. Qed.
Lemma Rltb_false x y : Rltb x y = false <-> (y <= x)%R.
Proof. unfold Rltb; destruct (Rlt_dec x y); split; intros; try congruence; lra. Qed.
Lemma Rleb_true x y : Rleb x y = true <-> (x <= y)%R.
Proof. unfold Rleb; destruct (Rle_dec x y); split; intros; try congruence; tauto. Qed.
Lemma Rleb_false x y : Rleb x y = false <-> (y < x)%R.
Proof. unfold Rleb; destruct (Rle_dec x y); split; intros; try congruence; lra. Qed.
Lemma Reqb_true x y : Reqb x y = true <-> x = y.
Proof. unfold Reqb; destruct (Req_EM_T x y); split; intros; try congruence; tauto. Qed.
Lemma Reqb_false x y : Reqb x y = false <-> x <> y.
Proof. unfold Reqb; destruct (Req_EM_T x y); split; intros; try congruence; tauto. Qed.

(** ** List lemmas *)
Lemma map2_length {A B C} (f : A -> B -> C) l m :
  length (map2 f l m) = Nat.min (length l) (length m).
Proof. revert m; induction l; destruct m; simpl; auto. Qed.

Lemma map2_length_eq {A B C} (f : A -> B -> C) l m :
  length l = length m -> length (map2 f l m) = length l.
Proof. intros; rewrite map2_length; lia. Qed.

Lemma map2_nth {A B C} (f : A -> B -> C) l m i da db dc :
  i < length l -> i < length m ->
  nth i (map2 f l m) dc = f (nth i l da) (nth i m db).
Proof.
  revert m i; induction l; destruct m; simpl; intros; try lia.
  destruct i; auto. apply IHl; lia.
Qed.

Lemma map2_nth_error {A B C} (f : A -> B -> C) l m i :
  nth_error (map2 f l m) i =
  match nth_error l i, nth_error m i with
  | Some a, Some b => Some (f a b) | _, _ => None end.
Proof.
  revert m i; induction l; destruct m; destruct i; simpl; auto.
  - destruct (nth_error l i); auto.
Qed.

Lemma bcast2_eq {A B C} (f : A -> B -> C) l m :
  length l = length m -> bcast2 f l m = Ok (map2 f l m).
Proof. intros H; unfold bcast2; rewrite H, Nat.eqb_refl; auto. Qed.

Lemma bcast2_one_r {A B C} (f : A -> B -> C) l b :
  bcast2 f l [b] = Ok (map (fun a => f a b) l).
Proof.
  unfold bcast2; destruct l as [|a [|a' l]]; simpl; auto.
Qed.

Lemma bcast2_one_l {A B C} (f : A -> B -> C) a m :
  bcast2 f [a] m = Ok (map (f a) m).
Proof.
  unfold bcast2; destruct m as [|b [|b' m]]; simpl; auto.
Qed.

Lemma map2_ext_in {A B C} (f g : A -> B -> C) l m :
  (forall a b, In (a, b) (combine l m) -> f a b = g a b) ->
  map2 f l m = map2 g l m.
Proof.
  revert m; induction l; destruct m; simpl; intros; auto.
  rewrite H by auto. f_equal. apply IHl; auto.
Qed.

Lemma map_map2 {A B C D} (g : C -> D) (f : A -> B -> C) l m :
  map g (map2 f l m) = map2 (fun a b => g (f a b)) l m.
Proof. revert m; induction l; destruct m; simpl; auto. rewrite IHl; auto. Qed.

Lemma map2_map_l {A A' B C} (h : A -> A') (f : A' -> B -> C) l m :
  map2 f (map h l) m = map2 (fun a b => f (h a) b) l m.
Proof. revert m; induction l; destruct m; simpl; auto. rewrite IHl; auto. Qed.

Lemma map2_map_r {A B B' C} (h : B -> B') (f : A -> B' -> C) l m :
  map2 f l (map h m) = map2 (fun a b => f a (h b)) l m.
Proof. revert m; induction l; destruct m; simpl; auto. rewrite IHl; auto. Qed.

Lemma map2_diag {A C} (f : A -> A -> C) l : map2 f l l = map (fun a => f a a) l.
Proof. induction l; simpl; congruence. Qed.

Lemma set_nth_length {A} n (x : A) l : length (set_nth n x l) = length l.
Proof. revert n; induction l; destruct n; simpl; auto. Qed.

Lemma set_nth_nth_error {A} n (x : A) l k :
  nth_error (set_nth n x l) k =
  if Nat.eqb k n then (if Nat.ltb k (length l) then Some x else None) else nth_error l k.
Proof.
  revert n k; induction l as [|a l IH]; intros n k.
  - destruct n, k; simpl; auto. destruct (k =? n); auto.
  - destruct n, k; simpl; auto. rewrite IH.
    destruct (k =? n); auto.
Qed.

Lemma py_index_Some n i k :
  py_index n i = Some k <->
  (k < n /\ (i = Z.of_nat k \/ i = (Z.of_nat k - Z.of_nat n)%Z)).
Proof.
  unfold py_index.
  destruct (Z.leb_spec 0 i); [destruct (Z.ltb_spec i (Z.of_nat n))|
    destruct (Z.leb_spec (- Z.of_nat n) i)].
  - split.
    + intros [= <-]; split; [lia|left; lia].
    + intros [Hk [-> | ->]]; f_equal; lia.
  - split; [discriminate|]. intros [Hk [-> | ->]]; lia.
  - split.
    + intros [= <-]; split; [lia|right; lia].
    + intros [Hk [-> | ->]]; f_equal; lia.
  - split; [discriminate|]. intros [Hk [-> | ->]]; lia.
Qed.

Lemma py_index_None n i :
  py_index n i = None <-> (i < - Z.of_nat n \/ Z.of_nat n <= i)%Z.
Proof.
  unfold py_index.
  destruct (Z.leb_spec 0 i); [destruct (Z.ltb_spec i (Z.of_nat n))|
    destruct (Z.leb_spec (- Z.of_nat n) i)]; split; intros; try discriminate; try lia; auto.
Qed.

(** [find_index] specification lemmas *)
Lemma find_index_from_none {A} (p : A -> bool) k l :
  find_index_from p k l = (-1)%Z <-> (forall a, In a l -> p a = false).
Proof.
  revert k; induction l as [|a l IH]; simpl; intros k.
  - split; [intros _ a []| auto].
  - destruct (p a) eqn:E.
    + split; [intros H; lia | intros H; rewrite (H a) in E; auto; discriminate].
    + rewrite IH. split; intros H; [intros b [<-|]; auto | intros; apply H; auto].
Qed.

Lemma find_index_from_some {A} (p : A -> bool) k l n :
  find_index_from p k l = Z.of_nat (k + n) <->
  (exists a, nth_error l n = Some a /\ p a = true) /\
  (forall m b, m < n -> nth_error l m = Some b -> p b = false).
Proof.
  revert k n; induction l as [|a l IH]; intros k n.
  - simpl. split; [lia|]. intros [[a [H _]] _]; destruct n; discriminate.
  - simpl. destruct (p a) eqn:E.
    + split.
      * intros H. assert (n = 0) by lia. subst. split; [exists a; auto|intros; lia].
      * intros [_ H]. destruct n; [lia|].
        specialize (H 0 a ltac:(lia) eq_refl). congruence.
    + destruct n.
      * split.
        -- intros H. exfalso.
           destruct (find_index_from p (S k) l) eqn:F; try lia.
           ++ replace (k + 0) with k in H by lia.
              assert (G: forall k' , find_index_from p k' l = (-1)%Z \/ (Z.of_nat k' <= find_index_from p k' l)%Z).
              { clear; induction l; simpl; intros; [auto|destruct (p a); [right; lia|]].
                destruct (IHl (S k')); [auto|right; lia]. }
              destruct (G (S k)); lia.
           ++ assert (G: forall k' , find_index_from p k' l = (-1)%Z \/ (Z.of_nat k' <= find_index_from p k' l)%Z).
              { clear; induction l; simpl; intros; [auto|destruct (p a); [right; lia|]].
                destruct (IHl (S k')); [auto|right; lia]. }
              destruct (G (S k)); lia.
        -- intros [[b [[= <-] Hb]] _]. congruence.
      * replace (k + S n) with (S k + n) by lia. rewrite IH. simpl.
        split; intros [H1 H2]; split; auto.
        -- intros m b Hm. destruct m; simpl; [intros [= <-]; auto|intros; apply (H2 m); auto; lia].
        -- intros m b Hm Hb. apply (H2 (S m)); auto; lia.
Qed.

Lemma find_index_none {A} (p : A -> bool) l :
  find_index p l = (-1)%Z <-> (forall a, In a l -> p a = false).
Proof. apply find_index_from_none. Qed.

Lemma find_index_some {A} (p : A -> bool) l n :
  find_index p l = Z.of_nat n <->
  (exists a, nth_error l n = Some a /\ p a = true) /\
  (forall m b, m < n -> nth_error l m = Some b -> p b = false).
Proof. apply (find_index_from_some p 0). Qed.

Lemma find_index_range {A} (p : A -> bool) l :
  find_index p l = (-1)%Z \/ exists n, n < length l /\ find_index p l = Z.of_nat n.
Proof.
  unfold find_index. change l with (skipn 0 l) at 2 3.
  assert (H: forall k l, find_index_from p k l = (-1)%Z \/
             exists n, n < length l /\ find_index_from p k l = Z.of_nat (k + n)).
  { clear; intros k l; revert k; induction l; simpl; intros; auto.
    destruct (p a); [right; exists 0; split; [lia|f_equal; lia]|].
    destruct (IHl (S k)) as [|[n [? ->]]]; auto. right; exists (S n); split; [lia|f_equal; lia]. }
  destruct (H 0 l) as [|[n [? ?]]]; auto. right; exists n; auto.
Qed.

(** [mapM] lemmas *)
Lemma mapM_Ok {A B} (f : A -> res B) l bs :
  mapM f l = Ok bs <-> Forall2 (fun a b => f a = Ok b) l bs.
Proof.
  revert bs; induction l; simpl; intros.
  - split; [intros [= <-]; constructor| intros H; inversion H; auto].
  - destruct (f a) eqn:E; simpl.
    + destruct (mapM f l) eqn:F; simpl.
      * split.
        -- intros [= <-]. constructor; auto. apply IHl; auto.
        -- intros H; inversion H; subst. apply IHl in H4. inversion H4; subst. congruence.
      * split; [discriminate|]. intros H; inversion H; subst. apply IHl in H4; discriminate.
    + split; [discriminate|]. intros H; inversion H; congruence.
Qed.

Lemma mapM_length {A B} (f : A -> res B) l bs : mapM f l = Ok bs -> length bs = length l.
Proof. intros H; apply mapM_Ok in H. induction H; simpl; congruence. Qed.

Lemma mapM_ext {A B} (f g : A -> res B) l :
  (forall a, In a l -> f a = g a) -> mapM f l = mapM g l.
Proof.
  induction l; simpl; intros; auto. rewrite H by auto. destruct (g a); simpl; auto.
  rewrite IHl; auto.
Qed.

Lemma mapM_all_ok {A B} (f : A -> res B) (g : A -> B) l :
  (forall a, In a l -> f a = Ok (g a)) -> mapM f l = Ok (map g l).
Proof.
  induction l; simpl; intros; auto. rewrite H by auto; simpl. rewrite IHl; auto.
Qed.

Lemma mapM_app {A B} (f : A -> res B) l1 l2 :
  mapM f (l1 ++ l2) = let* a := mapM f l1 in let* b := mapM f l2 in Ok (a ++ b).
Proof.
  induction l1; simpl.
  - destruct (mapM f l2); auto.
  - destruct (f a); simpl; auto. rewrite IHl1. destruct (mapM f l1); simpl; auto.
    destruct (mapM f l2); auto.
Qed.
