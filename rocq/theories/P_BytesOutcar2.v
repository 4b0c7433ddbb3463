(** What follows the part of an OUTCAR that a reader needs: C58, C60. *)
From Coq Require Import String Ascii ZArith NArith QArith Qreals Reals Bool Arith List Lia.
From Verif Require Import Base LinAlg Constants M_Validate M_StructUtils M_Text M_Poscar M_Outcar M_Bytes M_BytesOutcar S_Bytes S_Cut P_Bytes P_Bytes2 P_BytesOutcar.
Import ListNotations.
Local Open Scope nat_scope.

Definition settled (x : text) (cr : bool) : Prop := (x = [] /\ cr = false) \/ at_line_end x.
(** The stream will give [s] before it reads [rest] *)
Definition ahead (st : stream) (s : text) (rest : list (list N)) : Prop :=
  utf8_decode (st_held st) = Some ([], st_held st) /\
  exists bs x, st_blocks st = (bs ++ rest)%list /\ utf8_decode (st_held st ++ concat bs) = Some (x, []) /\ settled x (st_cr st) /\
    s = (st_text st ++ translate (st_cr st) x)%list.
Lemma line_end_app a b : at_line_end (a ++ b) -> b = [] \/ at_line_end b.
Proof.
  intros [t H]. destruct b as [|c b]; [left; reflexivity|]. right. destruct (exists_last (l := c :: b)) as (b' & d & E); [discriminate|]. exists b'. rewrite E in *.
  rewrite app_assoc in H. apply app_inj_tail in H. destruct H as [_ ->]. reflexivity.
Qed.
Lemma settled_tail cr x z : settled (x ++ z) cr -> settled z (snd (hold_cr cr x)).
Proof.
  intros [[E ->]|L].
  - apply app_eq_nil in E. destruct E as [-> ->]. left. split; reflexivity.
  - destruct (line_end_app _ _ L) as [->|L']; [|right; exact L']. left. split; [reflexivity|]. rewrite app_nil_r in L. destruct L as [t ->]. unfold hold_cr.
    destruct t as [|c t]; cbn [app].
    + destruct cr; reflexivity.
    + assert (Q : forall l : text, last (l ++ [10%N]) 0%N = 10%N) by (intros l; apply last_last). destruct cr; rewrite ?app_comm_cons, Q; reflexivity.
Qed.
Lemma universal_nl_aux n : forall x, List.length x <= n -> at_line_end x -> at_line_end (universal x).
Proof.
  induction n as [|n IH]; intros x L [t E]; [destruct t; subst; cbn in L; lia|]. destruct x as [|c x]; [destruct t; discriminate|]. cbn [universal]. cbn [List.length] in L.
  destruct t as [|c' t].
  - injection E as -> ->. exists []. reflexivity.
  - injection E as <- E. assert (X : at_line_end x) by (exists t; exact E). destruct (N.eqb c 13).
    + destruct x as [|d x]; [destruct t; discriminate|]. destruct (N.eqb d 10) eqn:D.
      * destruct x as [|e x]; [exists []; reflexivity|]. destruct (IH (e :: x)) as [u U]; [cbn in L |- *; lia| |]. { destruct (line_end_app [d] (e :: x) X) as [?|?]; [discriminate|assumption]. }
        exists (NL :: u). rewrite U. reflexivity.
      * destruct (IH (d :: x)) as [u U]; [lia|exact X|]. exists (NL :: u). rewrite U. reflexivity.
    + destruct (IH x) as [u U]; [lia|exact X|]. exists (c :: u). rewrite U. reflexivity.
Qed.
Lemma universal_nl x : at_line_end x -> at_line_end (universal x).
Proof. apply (universal_nl_aux (List.length x)). reflexivity. Qed.
Lemma has_line_end t : at_line_end t -> has_line t = true.
Proof. intros [u ->]. apply has_line_in. apply in_or_app. right. left. reflexivity. Qed.
Lemma has_line_app a b : has_line (a ++ b) = has_line a || has_line b.
Proof. induction a as [|c a IH]; cbn; [reflexivity|]. rewrite IH. apply orb_assoc. Qed.
Lemma readline_ahead rest bs : forall t held cr x, utf8_decode held = Some ([], held) ->
  utf8_decode (held ++ concat bs) = Some (x, []) -> settled x cr -> has_line (t ++ translate cr x) = true ->
  exists st, readline_from t held cr (bs ++ rest) = Some (fst (readline (t ++ translate cr x)), st) /\ ahead st (snd (readline (t ++ translate cr x))) rest.
Proof.
  induction bs as [|b bs IH]; intros t held cr x Hh H HS HL; cbn [concat app] in *.
  - rewrite app_nil_r in H. rewrite Hh in H. injection H as <- ->. destruct HS as [[_ ->]|[u U]]; [|destruct u; discriminate]. cbn [translate universal] in *. rewrite app_nil_r in *.
    destruct rest as [|b rest]; cbn [readline_from]; rewrite HL; destruct (readline t) as [l r]; eexists; (split; [reflexivity|]); (split; [reflexivity|]); exists [], []; (split; [reflexivity|]); (split; [reflexivity|]); (split; [left; split; reflexivity|]); cbn; rewrite app_nil_r; reflexivity.
  - cbn [readline_from]. destruct (has_line t) eqn:HT.
    + rewrite readline_app by exact HT. destruct (readline t) as [l r]. eexists. split; [reflexivity|]. split; [exact Hh|]. exists (b :: bs), x. split; [reflexivity|]. split; [exact H|]. split; [exact HS|reflexivity].
    + rewrite app_assoc, decode_app in H. destruct (utf8_decode (held ++ b)) as [[y held']|] eqn:D; [|discriminate].
      destruct (utf8_decode (held' ++ concat bs)) as [[z h']|] eqn:D'; [|discriminate]. injection H as <- ->.
      pose proof (hold_cr_ok cr y z) as K. pose proof (settled_tail cr y z HS) as HS'. destruct (hold_cr cr y) as [y' cr']. cbn [snd] in HS'. rewrite K, app_assoc in *. apply IH; [eapply decode_held; exact D|exact D'|exact HS'|exact HL].
Qed.
Lemma readline_end s : at_line_end s -> snd (readline s) = [] \/ at_line_end (snd (readline s)).
Proof.
  induction s as [|c s IH]; intros H; [destruct H as [[|] ?]; discriminate|]. cbn [readline]. destruct (line_end_app [c] s H) as [->|H'].
  - destruct (N.eqb c NL); left; reflexivity.
  - destruct (N.eqb c NL); cbn [snd]; [right; exact H'|]. specialize (IH H'). destruct (readline s) as [l r]. exact IH.
Qed.
Lemma sequence_ahead rest : forall fuel st s, ahead st s rest -> s = [] \/ at_line_end s -> List.length s < fuel ->
  exists more broken, line_sequence fuel st = mkBF (lines_of s ++ more) broken.
Proof.
  induction fuel as [|fuel IH]; intros st s H HE L; [lia|]. destruct s as [|c s].
  - cbn [lines_of app]. destruct (line_sequence (S fuel) st) as [ls b]. exists ls, b. reflexivity.
  - destruct HE as [HE|HE]; [discriminate|]. cbn [line_sequence]. pose proof (has_line_end _ HE) as HL. pose proof (readline_end _ HE) as HE'. set (s0 := c :: s) in *. assert (NE : s0 <> []) by discriminate. clearbody s0.
    destruct H as (Hh & bs & x & HB & HD & HS & ->).
    destruct (readline_ahead rest bs (st_text st) (st_held st) (st_cr st) x Hh HD HS HL) as (st' & R & A). unfold stream_readline. rewrite HB, R.
    destruct (readline_lines _ NE) as (Q1 & Q2 & Q3). rewrite Q1. destruct (fst (readline _)) as [|d l] eqn:F; [congruence|].
    destruct (IH st' _ A HE' ltac:(lia)) as (more & broken & ->). exists more, broken. reflexivity.
Qed.
Lemma stream_prefix blocks rest t : utf8_text t (concat blocks) -> at_line_end t -> exists more broken, outcar_stream (blocks ++ rest) = mkBF (outcar_open t ++ more) broken.
Proof.
  intros H HE. pose proof (universal_nl _ HE) as HU. unfold outcar_stream, outcar_open. apply (sequence_ahead rest).
  - split; [reflexivity|]. exists blocks, t. split; [reflexivity|]. split; [apply decode_iff, H|]. split; [right; exact HE|]. reflexivity.
  - right. exact HU.
  - pose proof (utf8_text_length _ _ H). pose proof (universal_length t). rewrite concat_app, app_length. lia.
Qed.

(** ** Readers do not look further than they need *)
Section More.
Context (more : list text) (broken : bool).
Lemma skip_more m f l f' : skip_until m f = Ok (l, f') -> byte_skip m (f ++ more) broken = BOk (l, mkBF (f' ++ more) broken).
Proof. induction f as [|x f IH]; cbn; [discriminate|]. destruct (contains m x); [|exact IH]. intros H. injection H as <- <-. reflexivity. Qed.
Lemma or_ok {A} msg (r : res A) a : or_invalid msg r = Ok a -> r = Ok a.
Proof. destruct r as [|[]]; cbn; congruence. Qed.
Lemma potcar_more f : forall line ss l f', potcar_loop f = Ok (ss, l :: f') -> exists line', byte_potcar line (f ++ more) broken = BOk (ss, line', mkBF ((l :: f') ++ more) broken).
Proof.
  induction f as [|x f IH]; intros line ss l f' H; cbn [potcar_loop byte_potcar app] in *; [discriminate|]. destruct (contains _ x).
  - destruct (potcar_symbol x) as [s|]; [|discriminate]. destruct (potcar_loop f) as [[ss' r]|] eqn:E; [|discriminate]. cbn [rbind] in H. injection H as <- ->. destruct (IH x _ _ _ eq_refl) as [line' ->]. eexists. reflexivity.
  - injection H as <- ->. eexists. reflexivity.
Qed.
Lemma symbols_more f ss f' : outcar_symbols f = Ok (ss, f') -> byte_outcar_symbols (mkBF (f ++ more) broken) = BOk (ss, mkBF (f' ++ more) broken).
Proof.
  unfold outcar_symbols, byte_outcar_symbols, skip. cbn [bf_lines bf_broken]. intros H. destruct (or_invalid (txt "POTCAR block not found") _) as [[l f1]|] eqn:E1; [|discriminate].
  apply or_ok in E1. rewrite (skip_more _ _ _ _ E1). cbn [byte_or_invalid rbind] in *. destruct (potcar_symbol l) as [s|]; [|discriminate]. cbn [bf_lines bf_broken].
  destruct (potcar_loop f1) as [[ss' f2]|] eqn:E2; [|discriminate]. cbn [rbind] in H. destruct f2 as [|l3 f3]; cbn [next_line] in H; [cbn in H; discriminate|].
  destruct (potcar_more _ l _ _ _ E2) as [line' ->]. cbn [bbind byte_next app bf_lines bf_broken].
  destruct (or_invalid _ (skip_until (txt "ions per type") f3)) as [[l4 f4]|] eqn:E3; [|discriminate]. apply or_ok in E3. rewrite (skip_more _ _ _ _ E3). cbn [byte_or_invalid bbind rbind] in *.
  destruct (ints _); [|discriminate]. injection H as <- <-. reflexivity.
Qed.
Lemma no_floats E : floats E (firstn 3 (split [])) = Some [].
Proof. reflexivity. Qed.
Lemma rows_more E msg n : forall line f rs f', table_rows E msg n f = Ok (rs, f') -> Forall (fun r => List.length r = 3) rs ->
  byte_table_rows E msg n line (mkBF (f ++ more) broken) = BOk (rs, mkBF (f' ++ more) broken).
Proof.
  induction n as [|n IH]; intros line f rs f' H W; cbn [table_rows byte_table_rows] in *; [injection H as <- <-; reflexivity|]. destruct f as [|l f]; cbn [next_line] in H.
  - rewrite no_floats in H. destruct (table_rows E msg n []) as [[? ?]|]; [|discriminate]. cbn [rbind] in H. injection H as <- <-. inversion W as [|? ? X]. discriminate X.
  - cbn [app byte_next bf_lines bf_broken]. destruct (floats E _) as [r|]; [|discriminate]. destruct (table_rows E msg n f) as [[rs' f2]|] eqn:E2; [|discriminate]. cbn [rbind] in H. injection H as <- <-.
    inversion W; subst. rewrite (IH _ _ _ _ E2) by assumption. reflexivity.
Qed.
Lemma np_rows_three rs a n : np_rows rs = Ok a -> na_shape a = [n; 3] -> Forall (fun r => List.length r = 3) rs.
Proof.
  destruct rs as [|r rs]; cbn [np_rows]; [intros H; injection H as <-; discriminate|]. destruct (forallb _ rs) eqn:F; [|discriminate]. intros H S. injection H as <-. cbn in S. injection S as _ S.
  constructor; [exact S|]. rewrite forallb_forall in F. apply Forall_forall. intros x X. apply F, Nat.eqb_eq in X. congruence.
Qed.
Lemma table_more E msg n f a f' k : table E msg n f = Ok (a, f') -> na_shape a = [k; 3] -> byte_table E msg n (mkBF (f ++ more) broken) = BOk (a, mkBF (f' ++ more) broken).
Proof.
  unfold table, byte_table. intros H S. destruct (table_rows E msg n f) as [[rs f1]|] eqn:R; [|discriminate]. cbn [rbind] in H. destruct (np_rows rs) as [a'|] eqn:N; [|discriminate]. cbn [rbind] in H. injection H as <- <-.
  rewrite (rows_more _ _ _ None _ _ _ R) by (eapply np_rows_three; [exact N|exact S]). cbn [bbind]. rewrite N. reflexivity.
Qed.
Lemma fractional_more E n f a f' k : outcar_fractional E n f = Ok (a, f') -> na_shape a = [k; 3] -> byte_fractional E n (mkBF (f ++ more) broken) = BOk (a, mkBF (f' ++ more) broken).
Proof.
  unfold outcar_fractional, byte_fractional, skip. intros H S. destruct (or_invalid _ _) as [[l f1]|] eqn:E1; [|discriminate]. apply or_ok in E1. cbn [bf_lines bf_broken]. rewrite (skip_more _ _ _ _ E1). cbn [byte_or_invalid bbind rbind] in *.
  eapply table_more; eassumption.
Qed.
Lemma polarizability_more E f a f' k : outcar_polarizability E f = Ok (a, f') -> na_shape a = [k; 3] -> byte_polarizability E (mkBF (f ++ more) broken) = BOk (a, mkBF (f' ++ more) broken).
Proof.
  unfold outcar_polarizability, byte_polarizability, skip, byte_line. intros H S. destruct (or_invalid _ _) as [[l f1]|] eqn:E1; [|discriminate]. apply or_ok in E1. cbn [bf_lines bf_broken]. rewrite (skip_more _ _ _ _ E1). cbn [byte_or_invalid bbind rbind] in *.
  destruct f1 as [|l1 f1]; cbn [next_line snd] in H.
  - exfalso. unfold table in H. cbn in H. injection H as <- _. discriminate.
  - cbn [byte_next app bf_lines bf_broken bbind]. eapply table_more; eassumption.
Qed.
Lemma lattice_more E f a f' k : outcar_lattice E f = Ok (a, f') -> na_shape a = [k; 3] -> byte_outcar_lattice E (mkBF (f ++ more) broken) = BOk (a, mkBF (f' ++ more) broken).
Proof.
  unfold outcar_lattice, byte_outcar_lattice, skip. intros H S. destruct (or_invalid _ _) as [[l f1]|] eqn:E1; [|discriminate]. apply or_ok in E1. destruct (skip_until (txt "Write flags") f) as [[l0 f0]|] eqn:E0; [|discriminate]. cbn [rbind] in E1.
  cbn [bf_lines bf_broken]. rewrite (skip_more _ _ _ _ E0). cbn [bbind bf_lines bf_broken]. rewrite (skip_more _ _ _ _ E1). cbn [byte_or_invalid bbind rbind] in *. eapply table_more; eassumption.
Qed.
End More.
Lemma f_prefix_positions E blocks rest t p n : utf8_text t (concat blocks) -> at_line_end t ->
  outcar_read_positions E t = Ok p -> na_shape p = [n; 3] -> outcar_positions_file E (blocks ++ rest) = BOk p.
Proof.
  intros H HE R S. destruct (stream_prefix blocks rest t H HE) as (more & broken & Q). unfold outcar_positions_file. rewrite Q. unfold outcar_read_positions in R.
  destruct (outcar_symbols _) as [[ss f1]|] eqn:E1; [|discriminate]. cbn [rbind] in R. rewrite (symbols_more _ _ _ _ _ E1). cbn [bbind].
  destruct (outcar_fractional _ _ _) as [[a f2]|] eqn:E2; [|discriminate]. cbn [rbind] in R. injection R as <-. rewrite (fractional_more _ _ _ _ _ _ _ _ E2 S). reflexivity.
Qed.
Lemma f_prefix_polarizability E blocks rest t p a n k : utf8_text t (concat blocks) -> at_line_end t ->
  outcar_read_positions_and_polarizability E t = Ok (p, a) -> na_shape p = [n; 3] -> na_shape a = [k; 3] ->
  outcar_positions_and_polarizability_file E (blocks ++ rest) = BOk (p, a).
Proof.
  intros H HE R S S'. destruct (stream_prefix blocks rest t H HE) as (more & broken & Q). unfold outcar_positions_and_polarizability_file. rewrite Q. unfold outcar_read_positions_and_polarizability in R.
  destruct (outcar_symbols _) as [[ss f1]|] eqn:E1; [|discriminate]. cbn [rbind] in R. rewrite (symbols_more _ _ _ _ _ E1). cbn [bbind].
  destruct (outcar_fractional _ _ _) as [[p' f2]|] eqn:E2; [|discriminate]. cbn [rbind] in R. destruct (outcar_polarizability _ _) as [[a' f3]|] eqn:E3; [|discriminate]. cbn [rbind] in R. injection R as <- <-.
  rewrite (fractional_more _ _ _ _ _ _ _ _ E2 S). cbn [bbind]. rewrite (polarizability_more _ _ _ _ _ _ _ E3 S'). reflexivity.
Qed.
Lemma f_prefix_structure E blocks rest t l z p a m n k : utf8_text t (concat blocks) -> at_line_end t ->
  outcar_read_structure_and_polarizability E t = Ok (l, z, p, a) -> na_shape l = [m; 3] -> na_shape p = [n; 3] -> na_shape a = [k; 3] ->
  outcar_structure_and_polarizability_file E (blocks ++ rest) = BOk (l, z, p, a).
Proof.
  intros H HE R S0 S S'. destruct (stream_prefix blocks rest t H HE) as (more & broken & Q). unfold outcar_structure_and_polarizability_file. rewrite Q. unfold outcar_read_structure_and_polarizability in R.
  destruct (outcar_symbols _) as [[ss f1]|] eqn:E1; [|discriminate]. cbn [rbind] in R. rewrite (symbols_more _ _ _ _ _ E1). cbn [bbind].
  destruct (outcar_lattice _ _) as [[l' f0]|] eqn:E0; [|discriminate]. cbn [rbind] in R.
  destruct (outcar_fractional _ _ _) as [[p' f2]|] eqn:E2; [|discriminate]. cbn [rbind] in R. destruct (outcar_polarizability _ _) as [[a' f3]|] eqn:E3; [|discriminate]. cbn [rbind] in R. injection R as <- <- <- <-.
  rewrite (lattice_more _ _ _ _ _ _ _ E0 S0). cbn [bbind]. rewrite (fractional_more _ _ _ _ _ _ _ _ E2 S). cbn [bbind]. rewrite (polarizability_more _ _ _ _ _ _ _ E3 S'). reflexivity.
Qed.
