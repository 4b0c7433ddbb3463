(** What an OUTCAR reader returns was in the text before the first undecodable byte: the text
    layer stops there, for every division into blocks (C58-C61). *)
From Coq Require Import String Ascii ZArith NArith QArith Qreals Reals Bool Arith List Lia.
From Verif Require Import Base LinAlg Constants M_Validate M_StructUtils M_Text M_Poscar M_Outcar M_Bytes M_BytesOutcar S_Bytes S_BytesOutcar S_Cut P_Bytes P_Bytes2 P_BytesOutcar P_BytesOutcar2.
From Verif Require P_Outcar.
Import ListNotations.
Local Open Scope nat_scope.

(** ** Text up to its last line end *)
Fixpoint cut_lines (s : text) : text := match s with [] => [] | c :: s' => if has_line s then c :: cut_lines s' else [] end.
Lemma cut_none s : has_line s = false -> cut_lines s = [].
Proof. destruct s; [reflexivity|]. intros H. cbn [cut_lines]. rewrite H. reflexivity. Qed.
Lemma cut_prefix s : exists w, s = (cut_lines s ++ w)%list.
Proof.
  induction s as [|c s [w IH]]; [exists []; reflexivity|]. cbn [cut_lines]. destruct (has_line (c :: s)); [|exists (c :: s); reflexivity].
  exists w. cbn [app]. now rewrite <- IH.
Qed.
Lemma cut_lines_of s : has_line s = true -> lines_of (cut_lines s) = fst (readline s) :: lines_of (cut_lines (snd (readline s))).
Proof.
  induction s as [|c s IH]; intros H; [discriminate|]. cbn [cut_lines readline]. rewrite H. cbn [lines_of]. cbn [has_line] in H.
  destruct (N.eqb c NL) eqn:C; [reflexivity|]. cbn [orb] in H. rewrite (IH H). destruct (readline s) as [l r]. reflexivity.
Qed.
Lemma readline_shorter s : has_line s = true -> fst (readline s) <> [] /\ List.length (snd (readline s)) < List.length s.
Proof.
  intros H. destruct s as [|c s]; [discriminate|]. destruct (readline_lines (c :: s) ltac:(discriminate)) as (_ & A & B). split; assumption.
Qed.

(** ** Carriage returns held back *)
Lemma last_app_ne (a b : text) d : b <> [] -> last (a ++ b) d = last b d.
Proof.
  intros H. destruct (exists_last H) as (b' & c & ->). rewrite app_assoc, !last_last. reflexivity.
Qed.
Lemma removelast_app_ne (a b : text) : b <> [] -> removelast (a ++ b) = (a ++ removelast b)%list.
Proof. intros H. apply removelast_app, H. Qed.
Lemma hold_cr_app cr a b : hold_cr cr (a ++ b) = let '(y1, c1) := hold_cr cr a in let '(y2, c2) := hold_cr c1 b in ((y1 ++ y2)%list, c2).
Proof.
  destruct a as [|a0 a]; [cbn [app hold_cr]; destruct (hold_cr cr b); reflexivity|].
  destruct b as [|b0 b]; [rewrite app_nil_r; destruct (hold_cr cr (a0 :: a)) as [y c]; cbn [hold_cr]; rewrite app_nil_r; reflexivity|].
  set (A := a0 :: a). set (B := b0 :: b). assert (BN : B <> []) by discriminate.
  set (u := if cr then 13%N :: A else A). assert (UN : u <> []) by (unfold u, A; destruct cr; discriminate).
  assert (HA : hold_cr cr A = if N.eqb (last u 0%N) 13 then (universal (removelast u), true) else (universal u, false)) by reflexivity.
  assert (HAB : hold_cr cr (A ++ B) = if N.eqb (last (u ++ B) 0%N) 13 then (universal (removelast (u ++ B)), true) else (universal (u ++ B), false))
    by (unfold u, A; destruct cr; reflexivity).
  rewrite HA, HAB. rewrite last_app_ne, removelast_app_ne by exact BN. destruct (N.eqb_spec (last u 0%N) 13) as [L|L].
  - assert (HB : hold_cr true B = if N.eqb (last B 0%N) 13 then (universal (13%N :: removelast B), true) else (universal (13%N :: B), false)).
    { unfold hold_cr, B. change (last (13%N :: b0 :: b) 0%N) with (last (b0 :: b) 0%N). change (removelast (13%N :: b0 :: b)) with (13%N :: removelast (b0 :: b)). reflexivity. }
    rewrite HB. assert (U : u = (removelast u ++ [13%N])%list) by (rewrite <- L; apply app_removelast_last, UN).
    destruct (N.eqb (last B 0%N) 13).
    + f_equal. rewrite U at 1. rewrite <- app_assoc. cbn [app]. apply universal_app. right. discriminate.
    + f_equal. rewrite U at 1. rewrite <- app_assoc. cbn [app]. apply universal_app. right. discriminate.
  - assert (HB : hold_cr false B = if N.eqb (last B 0%N) 13 then (universal (removelast B), true) else (universal B, false)) by reflexivity.
    rewrite HB. destruct (N.eqb (last B 0%N) 13); f_equal; apply universal_app; left; exact L.
Qed.
Lemma hold_cr_prefix x : exists x1 x2, x = (x1 ++ x2)%list /\ fst (hold_cr false x) = universal x1.
Proof.
  destruct x as [|a x]; [exists [], []; split; reflexivity|]. unfold hold_cr. destruct (N.eqb (last (a :: x) 0%N) 13); cbn [fst].
  - exists (removelast (a :: x)), [last (a :: x) 0%N]. split; [apply app_removelast_last; discriminate|reflexivity].
  - exists (a :: x), []. split; [rewrite app_nil_r; reflexivity|reflexivity].
Qed.
(** every prefix of a translated text is the translation of a prefix *)
Lemma universal_prefix_aux n : forall x p w, List.length x <= n -> universal x = (p ++ w)%list -> exists x1 x2, x = (x1 ++ x2)%list /\ universal x1 = p.
Proof.
  induction n as [|n IH]; intros x p w L H; (destruct p as [|c p]; [exists [], x; split; reflexivity|]); destruct x as [|d x]; cbn [List.length] in L; try lia; try discriminate H.
  cbn [universal app] in H. destruct (N.eqb d 13) eqn:D.
  - destruct x as [|e x].
    + assert (P : p = []) by (destruct p; [reflexivity|discriminate H]). subst p. exists [d], []. split; [reflexivity|]. cbn [universal]. rewrite D. injection H as <- _. reflexivity.
    + destruct (N.eqb e 10) eqn:EE.
      * injection H as <- H. cbn [List.length] in L. destruct (IH x p w ltac:(lia) H) as (x1 & x2 & -> & U). exists (d :: e :: x1), x2. split; [reflexivity|].
        cbn [universal]. rewrite D, EE, U. reflexivity.
      * injection H as <- H. destruct (IH (e :: x) p w ltac:(cbn [List.length] in *; lia) H) as (x1 & x2 & X & U). exists (d :: x1), x2. split; [cbn [app]; now rewrite <- X|].
        cbn [universal]. rewrite D. destruct x1 as [|e1 x1]; [cbn [universal] in U; now rewrite <- U|]. cbn [app] in X. injection X as <- _. rewrite EE. rewrite U. reflexivity.
  - injection H as <- H. destruct (IH x p w ltac:(lia) H) as (x1 & x2 & -> & U). exists (d :: x1), x2. split; [reflexivity|]. cbn [universal]. rewrite D, U. reflexivity.
Qed.
Lemma universal_prefix x p w : universal x = (p ++ w)%list -> exists x1 x2, x = (x1 ++ x2)%list /\ universal x1 = p.
Proof. apply (universal_prefix_aux (List.length x)). lia. Qed.
Lemma utf8_text_split t1 t2 bs : utf8_text (t1 ++ t2) bs -> exists b1 b2, bs = (b1 ++ b2)%list /\ utf8_text t1 b1.
Proof.
  revert bs. induction t1 as [|c t1 IH]; intros bs H; [exists [], bs; split; [reflexivity|constructor]|].
  cbn [app] in H. inversion H as [|c' b t bs' U T]; subst. destruct (IH _ T) as (b1 & b2 & -> & K). exists (b ++ b1)%list, b2. split; [apply app_assoc|constructor; assumption].
Qed.

(** ** Streams that break *)
Definition doomed (h : list N) (rest : list (list N)) : Prop :=
  match rest with [] => h <> [] | b :: _ => utf8_decode (h ++ b) = None end.
Definition pending (st : stream) (s : text) (rest : list (list N)) : Prop :=
  utf8_decode (st_held st) = Some ([], st_held st) /\
  exists bs x h, st_blocks st = (bs ++ rest)%list /\ utf8_decode (st_held st ++ concat bs) = Some (x, h) /\ doomed h rest /\
    s = (st_text st ++ fst (hold_cr (st_cr st) x))%list.
Lemma readline_pending rest bs : forall t held cr x h, utf8_decode held = Some ([], held) ->
  utf8_decode (held ++ concat bs) = Some (x, h) -> doomed h rest ->
  if has_line (t ++ fst (hold_cr cr x))
  then exists st, readline_from t held cr (bs ++ rest) = Some (fst (readline (t ++ fst (hold_cr cr x))), st) /\ pending st (snd (readline (t ++ fst (hold_cr cr x)))) rest
  else readline_from t held cr (bs ++ rest) = None.
Proof.
  induction bs as [|b bs IH]; intros t held cr x h Hh H HD; cbn [concat app] in *.
  - rewrite app_nil_r in H. rewrite Hh in H. injection H as <- <-. cbn [hold_cr fst]. rewrite app_nil_r.
    destruct (has_line t) eqn:HT.
    + assert (R : readline_from t held cr rest = Some (fst (readline t), mkStream (snd (readline t)) held cr rest)).
      { destruct rest; cbn [readline_from]; rewrite HT; destruct (readline t); reflexivity. }
      rewrite R. eexists. split; [reflexivity|]. split; [exact Hh|]. exists [], [], held. cbn [st_blocks st_held st_text st_cr concat app hold_cr fst]. rewrite !app_nil_r. auto.
    + destruct rest as [|b rest]; cbn [readline_from doomed] in *; rewrite HT.
      * destruct held; [congruence|reflexivity].
      * rewrite HD. reflexivity.
  - cbn [readline_from]. destruct (has_line t) eqn:HT.
    + rewrite has_line_app, HT. cbn [orb]. rewrite readline_app by exact HT. cbn [fst snd]. destruct (readline t) as [l r]. eexists. split; [reflexivity|]. split; [exact Hh|].
      exists (b :: bs), x, h. cbn [st_blocks st_held st_text st_cr concat app fst snd]. auto.
    + rewrite app_assoc, decode_app in H. destruct (utf8_decode (held ++ b)) as [[y held']|] eqn:D; [|discriminate].
      destruct (utf8_decode (held' ++ concat bs)) as [[z h']|] eqn:D'; [|discriminate]. injection H as <- <-.
      rewrite hold_cr_app. destruct (hold_cr cr y) as [y' cr'].
      specialize (IH (t ++ y')%list held' cr' z h' (decode_held _ _ _ D) D' HD). destruct (hold_cr cr' z) as [z' cr'']. cbn [fst] in *. rewrite app_assoc. exact IH.
Qed.
Lemma sequence_pending rest : forall fuel st s, pending st s rest -> List.length s < fuel -> line_sequence fuel st = mkBF (lines_of (cut_lines s)) true.
Proof.
  induction fuel as [|fuel IH]; intros st s H L; [lia|]. cbn [line_sequence]. destruct H as (Hh & bs & x & h & HB & HX & HD & ->).
  pose proof (readline_pending rest bs (st_text st) _ (st_cr st) x h Hh HX HD) as R. unfold stream_readline. rewrite HB.
  set (s := (st_text st ++ fst (hold_cr (st_cr st) x))%list) in *. clearbody s. destruct (has_line s) eqn:HL.
  - destruct R as (st' & R & P). rewrite R. destruct (readline_shorter s HL) as [NE SH]. rewrite (cut_lines_of s HL).
    destruct (fst (readline s)) as [|c l] eqn:F; [congruence|]. rewrite (IH st' _ P ltac:(lia)). reflexivity.
  - rewrite R, (cut_none s HL). reflexivity.
Qed.
Lemma doomed_or_text blocks : forall held, utf8_decode held = Some ([], held) ->
  (exists t, utf8_decode (held ++ concat blocks) = Some (t, [])) \/
  exists bs rest x h, blocks = (bs ++ rest)%list /\ utf8_decode (held ++ concat bs) = Some (x, h) /\ doomed h rest.
Proof.
  induction blocks as [|b blocks IH]; intros held Hh.
  - cbn [concat]. rewrite app_nil_r. destruct held as [|c held]; [left; exists []; reflexivity|]. right. exists [], [], [], (c :: held). split; [reflexivity|].
    cbn [concat]. rewrite app_nil_r. split; [exact Hh|discriminate].
  - cbn [concat]. rewrite app_assoc, decode_app. destruct (utf8_decode (held ++ b)) as [[y h1]|] eqn:D.
    + destruct (IH h1 (decode_held _ _ _ D)) as [(t & T)|(bs & rest & x & h & -> & X & Q)].
      * left. rewrite T. eauto.
      * right. exists (b :: bs), rest, (y ++ x)%list, h. split; [reflexivity|]. cbn [concat]. rewrite app_assoc, decode_app, D, X. split; [reflexivity|exact Q].
    + right. exists [], (b :: blocks), [], held. split; [reflexivity|]. cbn [concat]. rewrite app_nil_r. split; [exact Hh|exact D].
Qed.

(** nothing, or whole lines *)
Definition ends_line (s : text) : Prop := s = [] \/ at_line_end s.
Lemma cut_ends s : ends_line (cut_lines s).
Proof.
  induction s as [|c s IH]; [left; reflexivity|]. cbn [cut_lines]. destruct (has_line (c :: s)) eqn:H; [|left; reflexivity]. right.
  destruct IH as [Z|(t & ->)]; [|exists (c :: t); reflexivity]. rewrite Z. destruct (has_line s) eqn:S.
  - destruct s as [|d s]; [discriminate|]. cbn [cut_lines] in Z. rewrite S in Z. discriminate.
  - cbn [has_line] in H. rewrite S, orb_false_r in H. apply N.eqb_eq in H. subst c. exists []. reflexivity.
Qed.
Lemma universal_more_aux n : forall t u, List.length t <= n -> ends_line (universal t) -> exists w, universal (t ++ u) = (universal t ++ w)%list.
Proof.
  induction n as [|n IH]; intros t u L H; (destruct t as [|c t]; [exists (universal u); reflexivity|]); cbn [List.length] in L; [lia|].
  cbn [app universal] in *. assert (tails : forall a (v : text), ends_line (a :: v) -> v = [] \/ ends_line v).
  { intros a v [X|([|b p] & X)]; [discriminate|injection X as _ ->; left; reflexivity|injection X as _ ->; right; right; exists p; reflexivity]. }
  destruct (N.eqb c 13).
  - destruct t as [|d t]; cbn [app].
    + destruct u as [|d u]; [exists []; reflexivity|]. destruct (N.eqb d 10); eexists; reflexivity.
    + destruct (N.eqb d 10).
      * destruct (IH t u ltac:(cbn in L; lia)) as [w W]; [|exists w; cbn [app]; now rewrite W]. destruct (tails _ _ H) as [Z|Z]; [left|]; exact Z.
      * destruct (IH (d :: t) u ltac:(cbn in *; lia)) as [w W]; [|exists w; cbn [app] in *; now rewrite W]. destruct (tails _ _ H) as [Z|Z]; [left|]; exact Z.
  - destruct (IH t u ltac:(lia)) as [w W]; [|exists w; cbn [app]; now rewrite W]. destruct (tails _ _ H) as [Z|Z]; [left|]; exact Z.
Qed.
Lemma universal_more t u : ends_line (universal t) -> exists w, universal (t ++ u) = (universal t ++ w)%list.
Proof. apply (universal_more_aux (List.length t)). lia. Qed.
Lemma lines_more s w : ends_line s -> lines_of (s ++ w) = (lines_of s ++ lines_of w)%list.
Proof.
  induction s as [|c s IH]; intros H; [reflexivity|]. cbn [app lines_of]. destruct (N.eqb c NL) eqn:C.
  - cbn [app]. f_equal. apply IH. destruct H as [X|([|b p] & X)]; [discriminate|injection X as _ ->; left; reflexivity|injection X as _ ->; right; exists p; reflexivity].
  - destruct H as [X|([|b p] & X)]; [discriminate|injection X as -> _; discriminate|]. injection X as _ ->. rewrite IH by (right; exists p; reflexivity).
    destruct (lines_of (p ++ [10%N])) as [|l ls] eqn:Q; [|reflexivity]. apply (f_equal (@concat N)) in Q. rewrite P_Outcar.lines_concat in Q. destruct p; discriminate.
Qed.

Lemma stream_cases blocks :
  (exists t, utf8_text t (concat blocks) /\ outcar_stream blocks = mkBF (outcar_open t) false) \/
  ((forall t, ~ utf8_text t (concat blocks)) /\ exists t, begins t (concat blocks) /\ ends_line (universal t) /\ outcar_stream blocks = mkBF (outcar_open t) true).
Proof.
  destruct (doomed_or_text blocks [] eq_refl) as [(t & T)|(bs & rest & x & h & -> & X & Q)]; cbn [app] in *.
  - left. exists t. apply decode_iff in T. split; [exact T|apply stream_is, T].
  - right. split.
    { intros t T. apply decode_text in T. rewrite concat_app, decode_app, X in T. destruct rest as [|b rest]; cbn [concat doomed] in *.
      - rewrite app_nil_r in T. rewrite (decode_held _ _ _ X) in T. injection T as _ ->. congruence.
      - rewrite app_assoc, decode_app, Q in T. discriminate. }
    destruct (hold_cr_prefix x) as (x1 & x2 & Hx & U). destruct (cut_prefix (fst (hold_cr false x))) as (w & W). rewrite U in W at 1.
    destruct (universal_prefix _ _ _ W) as (y1 & y2 & Hy & V).
    destruct (decode_sound _ _ _ X) as (b1 & T & HB & _). rewrite Hx, Hy, <- app_assoc in T. destruct (utf8_text_split _ _ _ T) as (c1 & c2 & -> & K).
    exists y1. split.
    + exists c1, (c2 ++ h ++ concat rest)%list. split; [|exact K]. rewrite concat_app, HB, <- !app_assoc. reflexivity.
    + split; [rewrite V; apply cut_ends|]. unfold outcar_open. rewrite V. unfold outcar_stream. apply (sequence_pending rest).
      * split; [reflexivity|]. exists bs, x, h. cbn [open_file st_blocks st_held st_text st_cr app]. auto.
      * rewrite U. pose proof (universal_length x1). rewrite concat_app, app_length, HB, !app_length.
        pose proof (utf8_text_length _ _ T). assert (LX : List.length x = List.length (y1 ++ y2 ++ x2)) by (rewrite Hx, Hy, <- app_assoc; reflexivity).
        rewrite app_length in *. assert (List.length x1 <= List.length x) by (rewrite Hx, app_length; lia). rewrite (app_length c1 c2) in *. lia.
Qed.
