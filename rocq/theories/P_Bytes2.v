(** Proofs about files as bytes: reading in blocks gives the lines of the decoded text. *)
From Coq Require Import String ZArith NArith Reals Bool Arith List Lia.
From Verif Require Import Base LinAlg M_Text M_Poscar M_Bytes S_Text S_Bytes P_Text P_Poscar P_Poscar2 P_Poscar3 P_Bytes.
Import ListNotations.
Local Open Scope N_scope.

(** ** Universal newlines in pieces *)
Lemma universal_app_aux n : forall v w, (List.length v <= n)%nat -> (last v 0 <> 13 \/ hd 0 w <> 10) -> universal (v ++ w) = (universal v ++ universal w)%list.
Proof.
  induction n as [|n IH]; intros v w L H; destruct v as [|c v]; cbn [List.length] in L; try lia; [reflexivity|reflexivity|].
  cbn [app universal]. destruct (N.eqb_spec c 13) as [->|C].
  - destruct v as [|d v]; cbn [app].
    + cbn [last] in H. destruct H as [H|H]; [congruence|]. destruct w as [|d w]; [reflexivity|]. cbn [hd] in H. destruct (N.eqb_spec d 10); [congruence|reflexivity].
    + cbn [List.length] in L. destruct (N.eqb_spec d 10) as [->|D].
      * cbn [app]. f_equal. apply IH; [lia|]. destruct v as [|e v]; [left; discriminate|]. exact H.
      * change (d :: v ++ w)%list with ((d :: v) ++ w)%list. cbn [app]. f_equal. apply (IH (d :: v)); [cbn [List.length]; lia|]. exact H.
  - cbn [app]. f_equal. apply IH; [lia|]. destruct v as [|d v]; [left; discriminate|exact H].
Qed.
Lemma universal_app v w : (last v 0 <> 13 \/ hd 0 w <> 10) -> universal (v ++ w) = (universal v ++ universal w)%list.
Proof. apply (universal_app_aux (List.length v)). lia. Qed.
(** the translation of a text after a carriage return was held back, or not *)
Definition translate (cr : bool) (t : text) : text := universal (if cr then 13 :: t else t).
Lemma hold_cr_ok cr x t : let '(y, cr') := hold_cr cr x in translate cr (x ++ t) = (y ++ translate cr' t)%list.
Proof.
  unfold hold_cr. destruct x as [|a x]; [reflexivity|]. set (u := if cr then 13 :: a :: x else a :: x).
  assert (E : translate cr ((a :: x) ++ t) = universal (u ++ t)) by (unfold translate, u; destruct cr; reflexivity). rewrite E.
  assert (NE : u <> []) by (unfold u; destruct cr; discriminate).
  destruct (N.eqb_spec (last u 0) 13) as [L|L].
  - rewrite (app_removelast_last 0 NE) at 1. rewrite L, <- app_assoc. unfold translate. apply universal_app. right. cbn. discriminate.
  - unfold translate. apply universal_app. left. exact L.
Qed.

(** ** Lines *)
Lemma readline_app t w : has_line t = true -> readline (t ++ w) = (fst (readline t), snd (readline t) ++ w)%list.
Proof.
  induction t as [|c t IH]; intros H; [discriminate|]. cbn [app readline has_line] in *. destruct (c =? NL); [reflexivity|]. cbn [orb] in H.
  rewrite (IH H). destruct (readline t). reflexivity.
Qed.
(** [st] stands for the text [s] still to be read *)
Definition stands (st : stream) (s : text) : Prop :=
  utf8_decode (st_held st) = Some ([], st_held st) /\
  exists t, utf8_decode (st_held st ++ concat (st_blocks st)) = Some (t, []) /\ s = (st_text st ++ translate (st_cr st) t)%list.
Lemma decode_held bs t h : utf8_decode bs = Some (t, h) -> utf8_decode h = Some ([], h).
Proof. intros H. apply decode_sound in H. destruct H as (_ & _ & _ & P & _). exact P. Qed.
Lemma readline_from_ok blocks : forall t held cr x, utf8_decode held = Some ([], held) ->
  utf8_decode (held ++ concat blocks) = Some (x, []) ->
  exists st, readline_from t held cr blocks = Some (fst (readline (t ++ translate cr x)), st) /\ stands st (snd (readline (t ++ translate cr x))).
Proof.
  induction blocks as [|b blocks IH]; intros t held cr x Hh H; cbn [readline_from concat] in *.
  - rewrite app_nil_r in H. rewrite Hh in H. injection H as <- ->.
    replace (translate cr []) with (if cr then [NL] else @nil N) by (destruct cr; reflexivity).
    destruct (has_line t) eqn:HL.
    + rewrite readline_app by exact HL. destruct (readline t) as [l r]. eexists. split; [reflexivity|]. split; [reflexivity|].
      exists []. split; [reflexivity|]. cbn [st_text st_cr snd]. f_equal. destruct cr; reflexivity.
    + destruct (readline (t ++ if cr then [NL] else [])) as [l r]. eexists. split; [reflexivity|]. split; [reflexivity|]. exists []. split; [reflexivity|].
      cbn. rewrite app_nil_r. reflexivity.
  - destruct (has_line t) eqn:HL.
    + rewrite readline_app by exact HL. destruct (readline t) as [l r]. eexists. split; [reflexivity|]. split; [exact Hh|]. exists x. split; [exact H|reflexivity].
    + rewrite app_assoc, decode_app in H. destruct (utf8_decode (held ++ b)) as [[y held']|] eqn:D; [|discriminate].
      destruct (utf8_decode (held' ++ concat blocks)) as [[z h']|] eqn:D'; [|discriminate]. injection H as <- ->.
      pose proof (hold_cr_ok cr y z) as K. destruct (hold_cr cr y) as [y' cr']. rewrite K, app_assoc. apply IH; [eapply decode_held; exact D|exact D'].
Qed.
Lemma stream_readline_ok st s : stands st s -> exists st', stream_readline st = Some (fst (readline s), st') /\ stands st' (snd (readline s)).
Proof. intros (Hh & t & H & ->). unfold stream_readline. apply readline_from_ok; assumption. Qed.
Lemma open_stands blocks t : utf8_text t (concat blocks) -> stands (open_file blocks) (universal t).
Proof. intros H. apply decode_iff in H. split; [reflexivity|]. exists t. split; [exact H|reflexivity]. Qed.

(** ** Readers *)
Definition agrees {A} (r : res (A * text)) (b : bres (A * stream)) : Prop :=
  match r with
  | Ok (a, s) => exists st, b = BOk (a, st) /\ stands st s
  | Err e => b = BErr (Plain e)
  end.
Lemma rows_agree E msg n : forall line st s, stands st s -> agrees (read_rows E msg n s) (byte_rows E msg n line st).
Proof.
  induction n as [|n IH]; intros line st s H; cbn [read_rows byte_rows].
  - exists st. auto.
  - unfold read_row, byte_row. destruct (stream_readline_ok st s H) as (st1 & -> & H1). destruct (readline s) as [l r]. cbn [fst snd] in *.
    destruct (floats E (firstn 3 (split l))) as [[|a [|b [|c [|d z]]]]|]; try reflexivity. cbn [rbind bbind].
    specialize (IH (Some l) st1 r H1). unfold agrees in IH. destruct (read_rows E msg n r) as [[vs s2]|e]; cbn [rbind].
    + destruct IH as (st2 & -> & H2). exists st2. auto.
    + rewrite IH. reflexivity.
Qed.
Lemma lattice_agree E st s : stands st s -> agrees (read_lattice E s) (byte_lattice E st).
Proof.
  intros H. unfold read_lattice, byte_lattice. destruct (stream_readline_ok st s H) as (st1 & -> & H1). destruct (readline s) as [l0 r0]. cbn [fst snd] in *.
  destruct (stream_readline_ok st1 r0 H1) as (st2 & -> & H2). destruct (readline r0) as [l r]. cbn [fst snd] in *.
  destruct (float_of (e_fl E) l) as [scale|]; [|reflexivity].
  pose proof (rows_agree E "lattice could not be parsed: " 3 (Some l) st2 r H2) as K. unfold agrees in K.
  destruct (read_rows E "lattice could not be parsed: " 3 r) as [[vs s3]|e]; cbn [rbind].
  - destruct K as (st3 & -> & H3). exists st3. auto.
  - rewrite K. reflexivity.
Qed.
Lemma symbols_agree st s : stands st s -> agrees (read_atomic_symbols s) (byte_symbols st).
Proof.
  intros H. unfold read_atomic_symbols, byte_symbols, raw_line. destruct (stream_readline_ok st s H) as (st1 & -> & H1). destruct (readline s) as [l r]. cbn [fst snd bbind] in *.
  destruct (split l) as [|w ws] eqn:SL; [reflexivity|]. destruct (find _ (w :: ws)) as [v|]; [reflexivity|].
  destruct (stream_readline_ok st1 r H1) as (st2 & -> & H2). destruct (readline r) as [l2 r2]. cbn [fst snd bbind] in *.
  destruct (negb _); [reflexivity|]. destruct (ints (split l2)) as [cs|]; [|reflexivity]. exists st2. auto.
Qed.
Lemma mode_agree st s : stands st s -> agrees (read_mode s) (byte_mode st).
Proof.
  intros H. unfold read_mode, byte_mode, raw_line. destruct (stream_readline_ok st s H) as (st1 & -> & H1). destruct (readline s) as [l r]. cbn [fst snd bbind] in *.
  destruct l as [|c l]; [reflexivity|]. destruct (is_space c); [reflexivity|]. destruct (lower c =? 115).
  - destruct (stream_readline_ok st1 r H1) as (st2 & -> & H2). destruct (readline r) as [l2 r2]. cbn [fst snd bbind] in *.
    destruct l2 as [|c' l2]; [reflexivity|]. destruct (lower c' =? 99); [exists st2; auto|]. destruct (lower c' =? 100); [exists st2; auto|reflexivity].
  - cbn [bbind]. destruct (lower c =? 99); [exists st1; auto|]. destruct (lower c =? 100); [exists st1; auto|reflexivity].
Qed.
Lemma positions_agree E lattice n st s : stands st s -> agrees (read_positions_from E lattice n s) (byte_positions E lattice n st).
Proof.
  intros H. unfold read_positions_from, byte_positions. pose proof (mode_agree st s H) as K. unfold agrees in K. destruct (read_mode s) as [[cart s1]|e]; cbn [rbind].
  2: { rewrite K. reflexivity. }
  destruct K as (st1 & -> & H1). cbn [bbind]. pose proof (rows_agree E "positions could not be parsed: " n None st1 s1 H1) as K. unfold agrees in K.
  destruct (read_rows E "positions could not be parsed: " n s1) as [[rows s2]|e]; cbn [rbind].
  2: { rewrite K. reflexivity. }
  destruct K as (st2 & -> & H2). cbn [bbind]. destruct cart; [|exists st2; auto].
  destruct (np_inv E lattice) as [i|e]; cbn [rbind plain bbind]; [|reflexivity]. destruct rows; [reflexivity|exists st2; auto].
Qed.
Lemma configs_agree E lattice n : forall f f' st s, stands st s -> (List.length s < f)%nat -> (List.length s < f')%nat ->
  byte_configs E f' lattice n st = plain (read_configs E f lattice n s).
Proof.
  induction f as [|f IH]; intros f' st s H L L'; [lia|]. destruct f' as [|f']; [lia|]. cbn [byte_configs read_configs].
  pose proof (positions_agree E lattice n st s H) as K. unfold agrees in K. destruct (read_positions_from E lattice n s) as [[p s1]|e] eqn:R.
  - destruct K as (st1 & -> & H1). apply read_positions_from_ok in R. pose proof (configuration_shorter _ _ _ _ _ _ R) as SH.
    rewrite (IH f' st1 s1 H1) by lia. destruct (read_configs E f lattice n s1); reflexivity.
  - rewrite K. destruct e; try reflexivity. destruct (contains stop_message msg); reflexivity.
Qed.
Lemma readline_shorter s : (List.length (snd (readline s)) <= List.length s)%nat.
Proof. induction s as [|c s IH]; [cbn; lia|]. cbn [readline]. destruct (c =? NL); [cbn; lia|]. destruct (readline s). cbn [snd List.length] in *. lia. Qed.
Lemma rows_shorter E msg n : forall s vs s', read_rows E msg n s = Ok (vs, s') -> (List.length s' <= List.length s)%nat.
Proof.
  induction n as [|n IH]; intros s vs s' H; cbn [read_rows] in H; [injection H as _ <-; lia|]. unfold read_row in H.
  pose proof (readline_shorter s) as K. destruct (readline s) as [l r]. cbn [snd] in K. destruct (floats E _) as [[|a [|b [|c [|d z]]]]|]; try discriminate. cbn [rbind] in H.
  destruct (read_rows E msg n r) as [[vs1 s1]|] eqn:R; [|discriminate]. cbn [rbind] in H. injection H as _ <-. apply IH in R. lia.
Qed.
Lemma lattice_shorter E s l s' : read_lattice E s = Ok (l, s') -> (List.length s' <= List.length s)%nat.
Proof.
  unfold read_lattice. pose proof (readline_shorter s) as K. destruct (readline s) as [l0 r0]. pose proof (readline_shorter r0) as K0. destruct (readline r0) as [l1 r1]. cbn [snd] in *.
  destruct (float_of (e_fl E) l1); [|discriminate]. destruct (read_rows E _ 3 r1) as [[vs s1]|] eqn:R; [|discriminate]. cbn [rbind]. intros H. injection H as _ <-. apply rows_shorter in R. lia.
Qed.
Lemma symbols_shorter s l s' : read_atomic_symbols s = Ok (l, s') -> (List.length s' <= List.length s)%nat.
Proof.
  unfold read_atomic_symbols. pose proof (readline_shorter s) as K. destruct (readline s) as [l0 r0]. cbn [snd] in *. destruct (split l0); [discriminate|].
  destruct (find _ _); [discriminate|]. pose proof (readline_shorter r0) as K0. destruct (readline r0) as [lq r1]. cbn [snd] in *. destruct (negb _); [discriminate|].
  destruct (ints _); [|discriminate]. intros H. injection H as _ <-. lia.
Qed.
Lemma universal_length_aux n : forall t, (List.length t <= n)%nat -> (List.length (universal t) <= List.length t)%nat.
Proof.
  induction n as [|n IH]; intros [|c t] L; cbn [List.length] in L; try lia; [cbn; lia|cbn; lia|]. cbn [universal]. destruct (c =? 13).
  - destruct t as [|d t]; [cbn; lia|]. cbn [List.length] in *. destruct (d =? 10).
    + specialize (IH t ltac:(lia)). lia.
    + specialize (IH (d :: t) ltac:(cbn [List.length]; lia)). cbn [List.length] in IH. lia.
  - specialize (IH t ltac:(lia)). cbn [List.length]. lia.
Qed.
Lemma universal_length t : (List.length (universal t) <= List.length t)%nat.
Proof. apply (universal_length_aux (List.length t)). lia. Qed.

Lemma f_C50_bytes E blocks t : utf8_text t (concat blocks) ->
  read_structure_file E blocks = plain (read_structure E t) /\ read_positions_file E blocks = plain (read_positions E t).
Proof.
  intros H. apply open_stands in H. unfold read_structure_file, read_structure, read_positions_file, read_positions.
  pose proof (lattice_agree E _ _ H) as K. unfold agrees in K. destruct (read_lattice E (universal t)) as [[lat s1]|e]; cbn [rbind]; [|rewrite K; split; reflexivity].
  destruct K as (st1 & -> & H1). cbn [bbind]. pose proof (symbols_agree _ _ H1) as K. unfold agrees in K.
  destruct (read_atomic_symbols s1) as [[sym s2]|e]; cbn [rbind]; [|rewrite K; split; reflexivity].
  destruct K as (st2 & -> & H2). cbn [bbind]. pose proof (positions_agree E lat (List.length sym) _ _ H2) as K. unfold agrees in K.
  destruct (read_positions_from E lat (List.length sym) s2) as [[ps s3]|e]; cbn [rbind]; [|rewrite K; split; reflexivity].
  destruct K as (st3 & -> & H3). split; reflexivity.
Qed.
Lemma f_C53_bytes E blocks t : utf8_text t (concat blocks) -> read_trajectory_file E blocks = plain (read_positions_ts E t).
Proof.
  intros T. pose proof (utf8_text_length _ _ T) as LT. pose proof (universal_length t) as LU. pose proof (open_stands _ _ T) as H. unfold read_trajectory_file, read_positions_ts.
  pose proof (lattice_agree E _ _ H) as K. unfold agrees in K. destruct (read_lattice E (universal t)) as [[lat s1]|e] eqn:R1; cbn [rbind]; [|rewrite K; reflexivity].
  destruct K as (st1 & -> & H1). cbn [bbind]. pose proof (symbols_agree _ _ H1) as K. unfold agrees in K.
  destruct (read_atomic_symbols s1) as [[sym s2]|e] eqn:R2; cbn [rbind]; [|rewrite K; reflexivity].
  destruct K as (st2 & -> & H2). cbn [bbind]. apply lattice_shorter in R1. apply symbols_shorter in R2. apply configs_agree; [exact H2|lia|lia].
Qed.

(** ** Bytes that are not UTF-8 *)
Lemma f_C50_other_encoding E b blocks : hopeless b ->
  read_structure_file E (b :: blocks) = BErr UnboundLocalError /\ read_positions_file E (b :: blocks) = BErr UnboundLocalError /\
  read_trajectory_file E (b :: blocks) = BErr UnboundLocalError.
Proof.
  intros H. apply hopeless_none in H.
  assert (L : byte_lattice E (open_file (b :: blocks)) = BErr UnboundLocalError).
  { unfold byte_lattice, stream_readline, open_file. cbn [st_text st_held st_cr st_blocks readline_from has_line app]. rewrite H. reflexivity. }
  unfold read_structure_file, read_positions_file, read_trajectory_file. rewrite L. auto.
Qed.
(** one unfinished line *)
Lemma has_line_in t : has_line t = true <-> In NL t.
Proof.
  induction t as [|c t IH]; cbn [has_line In]; [split; [discriminate|tauto]|]. rewrite orb_true_iff, N.eqb_eq, IH. tauto.
Qed.
Lemma in_utf8 t bs : utf8_text t bs -> forall c, c < 128 -> In c t <-> In c bs.
Proof.
  induction 1 as [|d b t bs U _ IH]; intros c Hc; [tauto|]. cbn [In]. rewrite in_app_iff, (IH c Hc).
  assert (K : d = c <-> In c b) by (destruct U; cbn [In]; split; intros; try lia; intuition lia). tauto.
Qed.
Lemma universal_no_nl t : ~ In 10 t -> ~ In 13 t -> ~ In 10 (universal t).
Proof. intros H H'. rewrite universal_id by exact H'. exact H. Qed.
Lemma unfinished blocks : forall t held, utf8_decode held = Some ([], held) -> ~ In 10 t ->
  ~ In 10 (held ++ concat blocks) -> ~ In 13 (held ++ concat blocks) ->
  (forall x, utf8_decode (held ++ concat blocks) <> Some (x, [])) -> readline_from t held false blocks = None.
Proof.
  induction blocks as [|b blocks IH]; intros t held Hh Ht N10 N13 H; cbn [readline_from concat] in *.
  - assert (HL : has_line t = false) by (destruct (has_line t) eqn:E; [apply has_line_in in E; contradiction|reflexivity]). rewrite HL.
    destruct held; [|reflexivity]. exfalso. apply (H []). reflexivity.
  - assert (HL : has_line t = false) by (destruct (has_line t) eqn:E; [apply has_line_in in E; contradiction|reflexivity]). rewrite HL.
    destruct (utf8_decode (held ++ b)) as [[y held']|] eqn:D; [|reflexivity]. pose proof (decode_sound _ _ _ D) as (b1 & T & E & _).
    assert (S1 : (held ++ b ++ concat blocks = b1 ++ held' ++ concat blocks)%list) by (rewrite !app_assoc, E; reflexivity).
    rewrite S1 in N10, N13. rewrite in_app_iff in N10, N13.
    assert (Y10 : ~ In 10 y) by (intros I; apply N10; left; apply (in_utf8 _ _ T); [lia|exact I]).
    assert (Y13 : ~ In 13 y) by (intros I; apply N13; left; apply (in_utf8 _ _ T); [lia|exact I]).
    assert (HC : hold_cr false y = (y, false)).
    { unfold hold_cr. destruct y as [|a y]; [reflexivity|]. destruct (N.eqb_spec (last (a :: y) 0) 13) as [L|L].
      - exfalso. apply Y13. rewrite <- L. rewrite (app_removelast_last 0 (l := a :: y)) at 2 by discriminate. apply in_or_app. right. left. reflexivity.
      - rewrite universal_id by exact Y13. reflexivity. }
    rewrite HC. apply IH; [eapply decode_held; exact D|rewrite in_app_iff; tauto|tauto|tauto|].
    intros x X. apply (H (y ++ x)%list). rewrite app_assoc, decode_app, D, X. reflexivity.
Qed.
Lemma unfinished_file E blocks : ~ In 10 (concat blocks) -> ~ In 13 (concat blocks) -> (forall t, ~ utf8_text t (concat blocks)) ->
  read_structure_file E blocks = BErr UnboundLocalError /\ read_positions_file E blocks = BErr UnboundLocalError /\
  read_trajectory_file E blocks = BErr UnboundLocalError.
Proof.
  intros H10 H13 H.
  assert (L : byte_lattice E (open_file blocks) = BErr UnboundLocalError).
  { unfold byte_lattice, stream_readline, open_file. cbn [st_text st_held st_cr st_blocks]. rewrite unfinished; auto.
    intros x X. apply decode_iff in X. exact (H _ X). }
  unfold read_structure_file, read_positions_file, read_trajectory_file. rewrite L. auto.
Qed.
