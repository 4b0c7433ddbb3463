(** XDATCAR files of any bytes: the configurations returned were in a text the file begins with (C53). *)
From Coq Require Import String Ascii ZArith NArith QArith Qreals Reals Bool Arith List Lia.
From Verif Require Import Base LinAlg Constants M_Validate M_StructUtils M_Text M_Poscar M_Outcar M_Bytes M_BytesOutcar S_Bytes S_BytesOutcar S_Cut
  P_Poscar2 P_Poscar3 P_Bytes P_Bytes2 P_BytesOutcar P_BytesOutcar2 P_BytesOutcar4 P_BytesOutcar5 P_BytesPoscar.
Import ListNotations.
Local Open Scope nat_scope.

Lemma readline_parts s : s = (fst (readline s) ++ snd (readline s))%list.
Proof. induction s as [|c s IH]; [reflexivity|]. cbn [readline]. destruct (N.eqb c NL); [reflexivity|]. destruct (readline s) as [l r]. cbn [fst snd app] in *. rewrite IH at 1. reflexivity. Qed.
Lemma readline_again s : has_line s = true -> forall w, readline (fst (readline s) ++ w) = (fst (readline s), w).
Proof.
  induction s as [|c s IH]; intros H w; [discriminate|]. cbn [has_line] in H. cbn [readline]. destruct (N.eqb c NL) eqn:C; [cbn [fst app readline]; rewrite C; reflexivity|]. cbn [orb] in H. specialize (IH H w).
  destruct (readline s) as [l r]. cbn [fst app readline] in *. rewrite C, IH. reflexivity.
Qed.

Section Rest.
Context (rest : list (list N)) (v : text).
(** what was read took [c] from the text; [c] alone, or before any other text, is read alike *)
Definition took {A} (r : text -> res (A * text)) (a : A) (s : text) (st : stream) : Prop :=
  exists c s', s = (c ++ s')%list /\ wanes v rest st s' /\ forall w, r (c ++ w)%list = Ok (a, w).
Lemma line_took st s l st' : wanes v rest st s -> stream_readline st = Some (l, st') ->
  exists s', s = (l ++ s')%list /\ wanes v rest st' s' /\ forall w, readline (l ++ w) = (l, w).
Proof.
  intros (s0 & (Hh & bs & x & h & HB & HX & HD & E) & ->) R. pose proof (readline_pending rest bs (st_text st) _ (st_cr st) x h Hh HX HD) as K. rewrite <- E in K. unfold stream_readline in R. rewrite HB in R.
  destruct (has_line s0) eqn:HL; [|congruence]. destruct K as (st1 & K & P). rewrite K in R. injection R as <- <-. exists (cut_lines (snd (readline s0)) ++ v)%list.
  split; [|split; [exists (snd (readline s0)); auto|apply readline_again, HL]].
  pose proof (readline_parts (cut_lines s0 ++ v)) as Q. rewrite (cut_readline _ _ HL) in Q. exact Q.
Qed.
Lemma rows_took E msg n : forall line st s vs st', wanes v rest st s -> byte_rows E msg n line st = BOk (vs, st') -> took (read_rows E msg n) vs s st'.
Proof.
  induction n as [|n IH]; intros line st s vs st' H R; cbn [byte_rows] in R.
  - injection R as <- <-. exists [], s. auto.
  - unfold byte_row in R. destruct (stream_readline st) as [[l st1]|] eqn:L; [|destruct line; discriminate]. destruct (line_took _ _ _ _ H L) as (s1 & -> & W1 & A1).
    destruct (floats E (firstn 3 (split l))) as [[|a [|b [|c [|d z]]]]|] eqn:F; try discriminate. cbn [bbind] in R.
    destruct (byte_rows E msg n (Some l) st1) as [[vs1 st2]|] eqn:R1; [|discriminate]. cbn [bbind] in R. injection R as <- <-.
    destruct (IH _ _ _ _ _ W1 R1) as (c2 & s2 & -> & W2 & A2). exists (l ++ c2)%list, s2. split; [apply app_assoc|]. split; [exact W2|]. intros w.
    cbn [read_rows]. unfold read_row. rewrite <- app_assoc, A1, F. cbn [rbind]. rewrite A2. reflexivity.
Qed.
Lemma lattice_took E st s a st' : wanes v rest st s -> byte_lattice E st = BOk (a, st') -> took (read_lattice E) a s st'.
Proof.
  intros H R. unfold byte_lattice in R. destruct (stream_readline st) as [[l st1]|] eqn:L; [|discriminate]. destruct (line_took _ _ _ _ H L) as (s1 & -> & W1 & A1).
  destruct (stream_readline st1) as [[l2 st2]|] eqn:L2; [|discriminate]. destruct (line_took _ _ _ _ W1 L2) as (s2 & -> & W2 & A2).
  destruct (float_of (e_fl E) l2) as [scale|] eqn:F; [|discriminate]. destruct (byte_rows E _ 3 (Some l2) st2) as [[vs st3]|] eqn:R3; [|discriminate]. cbn [bbind] in R. injection R as <- <-.
  destruct (rows_took _ _ _ _ _ _ _ _ W2 R3) as (c3 & s3 & -> & W3 & A3). exists (l ++ l2 ++ c3)%list, s3. split; [rewrite <- !app_assoc; reflexivity|]. split; [exact W3|]. intros w.
  unfold read_lattice. rewrite <- !app_assoc, A1, A2, F, A3. reflexivity.
Qed.
Lemma symbols_took st s a st' : wanes v rest st s -> byte_symbols st = BOk (a, st') -> took read_atomic_symbols a s st'.
Proof.
  intros H R. unfold byte_symbols, raw_line in R. destruct (stream_readline st) as [[l st1]|] eqn:L; [|discriminate]. destruct (line_took _ _ _ _ H L) as (s1 & -> & W1 & A1). cbn [bbind] in R.
  destruct (split l) as [|w0 ws] eqn:SL; [discriminate|]. destruct (find _ (w0 :: ws)) as [q|] eqn:F; [discriminate|].
  destruct (stream_readline st1) as [[l2 st2]|] eqn:L2; [|discriminate]. destruct (line_took _ _ _ _ W1 L2) as (s2 & -> & W2 & A2). cbn [bbind] in R.
  destruct (negb _) eqn:G; [discriminate|]. destruct (ints (split l2)) as [cs|] eqn:I; [|discriminate]. injection R as <- <-.
  exists (l ++ l2)%list, s2. split; [apply app_assoc|]. split; [exact W2|]. intros w. unfold read_atomic_symbols. rewrite <- app_assoc, A1, SL, F, A2, G, I. reflexivity.
Qed.
Lemma mode_took st s a st' : wanes v rest st s -> byte_mode st = BOk (a, st') -> took read_mode a s st'.
Proof.
  intros H R. unfold byte_mode, raw_line in R. destruct (stream_readline st) as [[l st1]|] eqn:L; [|discriminate]. destruct (line_took _ _ _ _ H L) as (s1 & -> & W1 & A1). cbn [bbind] in R.
  destruct l as [|c l]; [discriminate|]. destruct (is_space c) eqn:S; [discriminate|]. destruct (N.eqb (lower c) 115) eqn:Q.
  - destruct (stream_readline st1) as [[l2 st2]|] eqn:L2; [|discriminate]. destruct (line_took _ _ _ _ W1 L2) as (s2 & -> & W2 & A2). cbn [bbind] in R.
    exists ((c :: l) ++ l2)%list, s2. split; [apply app_assoc|]. destruct l2 as [|c' l2]; [discriminate|].
    assert (st2 = st') as <- by (destruct (N.eqb (lower c') 99); [congruence|]; destruct (N.eqb (lower c') 100); congruence || discriminate).
    split; [exact W2|]. intros w. unfold read_mode. rewrite <- app_assoc, A1, S, Q, A2. destruct (N.eqb (lower c') 99); [injection R as <-; reflexivity|]. destruct (N.eqb (lower c') 100); [injection R as <-; reflexivity|discriminate].
  - cbn [bbind] in R. exists (c :: l), s1. split; [reflexivity|].
    assert (st1 = st') as <- by (destruct (N.eqb (lower c) 99); [congruence|]; destruct (N.eqb (lower c) 100); congruence || discriminate).
    split; [exact W1|]. intros w. unfold read_mode. rewrite A1, S, Q. destruct (N.eqb (lower c) 99); [injection R as <-; reflexivity|]. destruct (N.eqb (lower c) 100); [injection R as <-; reflexivity|discriminate].
Qed.
Lemma positions_took E lattice n st s a st' : wanes v rest st s -> byte_positions E lattice n st = BOk (a, st') -> took (read_positions_from E lattice n) a s st'.
Proof.
  intros H R. unfold byte_positions in R. destruct (byte_mode st) as [[cart st1]|] eqn:M; [|discriminate]. destruct (mode_took _ _ _ _ H M) as (c1 & s1 & -> & W1 & A1). cbn [bbind] in R.
  destruct (byte_rows E _ n None st1) as [[rows st2]|] eqn:R2; [|discriminate]. destruct (rows_took _ _ _ _ _ _ _ _ W1 R2) as (c2 & s2 & -> & W2 & A2). cbn [bbind] in R.
  exists (c1 ++ c2)%list, s2. split; [apply app_assoc|].
  assert (K : st2 = st'). { destruct cart; [|congruence]. destruct (np_inv E lattice); [|discriminate]. cbn in R. destruct rows; [discriminate|congruence]. }
  subst st2. split; [exact W2|]. intros w. unfold read_positions_from. rewrite <- app_assoc, A1. cbn [rbind]. rewrite A2. cbn [rbind].
  destruct cart; [|injection R as <-; reflexivity]. destruct (np_inv E lattice); [|discriminate]. cbn [rbind plain bbind] in *. destruct rows; [discriminate|injection R as <-; reflexivity].
Qed.
Lemma configs_nil E lattice n f : read_configs E (S f) lattice n [] = Ok [].
Proof. cbn [read_configs]. unfold read_positions_from, read_mode. cbn [readline rbind]. unfold invalid. vm_compute (contains _ _). reflexivity. Qed.
Lemma configs_took E lattice n : forall f' st s ps, wanes v rest st s -> byte_configs E f' lattice n st = BOk ps ->
  exists c s', s = (c ++ s')%list /\ forall f, List.length c < f -> read_configs E f lattice n c = Ok ps.
Proof.
  induction f' as [|f' IH]; intros st s ps H R; cbn [byte_configs] in R.
  - injection R as <-. exists [], s. split; [reflexivity|]. intros [|f] L; [cbn in L; lia|apply configs_nil].
  - destruct (byte_positions E lattice n st) as [[p st1]|e] eqn:P.
    + destruct (positions_took _ _ _ _ _ _ _ H P) as (c1 & s1 & -> & W1 & A1). destruct (byte_configs E f' lattice n st1) as [ps1|] eqn:R1; [|discriminate]. cbn [bbind] in R. injection R as <-.
      destruct (IH _ _ _ W1 R1) as (c2 & s2 & -> & A2). exists (c1 ++ c2)%list, s2. split; [apply app_assoc|]. intros [|f] L; [lia|]. cbn [read_configs]. specialize (A1 c2). rewrite A1.
      apply read_positions_from_ok, configuration_shorter in A1. rewrite A2 by lia. reflexivity.
    + assert (ps = []). { destruct e as [[]| |]; try discriminate. destruct (contains _ _); [congruence|discriminate]. } subst ps.
      exists [], s. split; [reflexivity|]. intros [|f] L; [cbn in L; lia|apply configs_nil].
Qed.
End Rest.
Lemma f_C53_sound E blocks ps : read_trajectory_file E blocks = BOk ps -> exists t, begins t (concat blocks) /\ read_positions_ts E t = Ok ps.
Proof.
  intros R. destruct (text_or_not blocks) as [(t & T)|N].
  - exists t. split; [apply begins_all, T|]. rewrite (f_C53_bytes E _ _ T) in R. apply plain_ok, R.
  - destruct (open_wanes blocks N) as (t & rest & (pre & post & HB & T) & W). destruct (W []) as [v Wv]. rewrite app_nil_r in Wv. unfold read_trajectory_file in R.
    destruct (byte_lattice E (open_file blocks)) as [[lat st1]|] eqn:R1; [|discriminate]. destruct (lattice_took _ _ _ _ _ _ _ Wv R1) as (c1 & s1 & E1 & W1 & A1). cbn [bbind] in R.
    destruct (byte_symbols st1) as [[sym st2]|] eqn:R2; [|discriminate]. destruct (symbols_took _ _ _ _ _ _ W1 R2) as (c2 & s2 & -> & W2 & A2). cbn [bbind] in R.
    destruct (configs_took _ _ _ _ _ _ _ _ _ W2 R) as (c3 & s3 & -> & A3). rewrite !app_assoc in E1. destruct (universal_prefix _ _ _ E1) as (t1 & t2 & -> & U). destruct (utf8_text_split _ _ _ T) as (b1 & b2 & -> & K).
    exists t1. split; [exists b1, (b2 ++ post)%list; split; [rewrite HB; symmetry; apply app_assoc|exact K]|]. unfold read_positions_ts. rewrite U, <- !app_assoc, A1. cbn [rbind]. rewrite A2. cbn [rbind]. apply A3. lia.
Qed.
