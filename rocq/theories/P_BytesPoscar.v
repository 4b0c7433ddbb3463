(** POSCAR files of any bytes: what is returned was in the text the file begins with (C50). *)
From Coq Require Import String Ascii ZArith NArith QArith Qreals Reals Bool Arith List Lia.
From Verif Require Import Base LinAlg Constants M_Validate M_StructUtils M_Text M_Poscar M_Outcar M_Bytes M_BytesOutcar S_Bytes S_BytesOutcar S_Cut P_Bytes P_Bytes2 P_BytesOutcar P_BytesOutcar2 P_BytesOutcar4 P_BytesOutcar5.
Import ListNotations.
Local Open Scope nat_scope.

(** the stream stands before the lines of [s0], of which what cannot be decoded follows the last;
    the text has [v] there *)
Definition wanes (v : text) (rest : list (list N)) (st : stream) (s : text) : Prop := exists s0, pending st s0 rest /\ s = (cut_lines s0 ++ v)%list.
Lemma cut_readline v s : has_line s = true -> readline (cut_lines s ++ v) = (fst (readline s), (cut_lines (snd (readline s)) ++ v)%list).
Proof.
  induction s as [|c s IH]; intros H; [discriminate|]. cbn [cut_lines readline]. rewrite H. cbn [app readline]. cbn [has_line] in H. destruct (N.eqb c NL); [reflexivity|].
  cbn [orb] in H. rewrite (IH H). destruct (readline s) as [l r]. reflexivity.
Qed.
Lemma readline_wanes v rest st s : wanes v rest st s -> stream_readline st = None \/ exists st', stream_readline st = Some (fst (readline s), st') /\ wanes v rest st' (snd (readline s)).
Proof.
  intros (s0 & (Hh & bs & x & h & HB & HX & HD & E) & ->). pose proof (readline_pending rest bs (st_text st) _ (st_cr st) x h Hh HX HD) as R. rewrite <- E in R. unfold stream_readline. rewrite HB.
  destruct (has_line s0) eqn:HL; [|left; exact R]. destruct R as (st' & R & P). right. exists st'. rewrite (cut_readline _ _ HL). cbn [fst snd]. split; [exact R|]. exists (snd (readline s0)). auto.
Qed.

Section Rest.
Context (rest : list (list N)) (v : text).
Definition follows {A} (r : res (A * text)) (b : bres (A * stream)) : Prop :=
  (exists e, b = BErr e /\ coded e) \/
  match r with Ok (a, s) => exists st, b = BOk (a, st) /\ wanes v rest st s | Err e => b = BErr (Plain e) end.
Lemma follows_handler {A} r msg line : follows r (@handler (A * stream) msg line).
Proof. left. destruct line; cbn; eexists; (split; [reflexivity|]); [right; right; eexists; reflexivity|right; left; reflexivity]. Qed.
Lemma follows_code {A} (r : res (A * text)) : follows r (BErr UnicodeDecodeError).
Proof. left. eexists. split; [reflexivity|left; reflexivity]. Qed.
Lemma follows_bind {A B} (r : res (A * text)) b (k : A * text -> res (B * text)) k' : follows r b -> (forall a s st, wanes v rest st s -> follows (k (a, s)) (k' (a, st))) -> follows (rbind r k) (bbind b k').
Proof.
  intros [(e & -> & C)|H] K; [left; exists e; split; [reflexivity|exact C]|]. destruct r as [[a s]|e].
  - destruct H as (st & -> & W). apply K, W.
  - rewrite H. right. reflexivity.
Qed.
Lemma rows_follow E msg n : forall line st s, wanes v rest st s -> follows (read_rows E msg n s) (byte_rows E msg n line st).
Proof.
  induction n as [|n IH]; intros line st s H; cbn [read_rows byte_rows].
  - right. exists st. auto.
  - unfold read_row, byte_row. destruct (readline_wanes _ _ _ _ H) as [->|(st1 & -> & H1)].
    { destruct line; cbn [handler plain invalid bbind]; left; eexists; (split; [reflexivity|]); [right; right; eexists; reflexivity|right; left; reflexivity]. }
    destruct (readline s) as [l r]. cbn [fst snd] in *.
    destruct (floats E (firstn 3 (split l))) as [[|a [|b [|c [|d z]]]]|]; try (right; reflexivity). cbn [rbind bbind].
    apply follows_bind; [apply (IH (Some l) st1 r H1)|]. intros vs s2 st2 W. right. exists st2. auto.
Qed.
Lemma lattice_follow E st s : wanes v rest st s -> follows (read_lattice E s) (byte_lattice E st).
Proof.
  intros H. unfold read_lattice, byte_lattice. destruct (readline_wanes _ _ _ _ H) as [->|(st1 & -> & H1)]; [apply follows_handler|]. destruct (readline s) as [l0 r0]. cbn [fst snd] in *.
  destruct (readline_wanes _ _ _ _ H1) as [->|(st2 & -> & H2)]; [apply follows_handler|]. destruct (readline r0) as [l r]. cbn [fst snd] in *.
  destruct (float_of (e_fl E) l) as [scale|]; [|right; reflexivity]. apply follows_bind; [apply rows_follow, H2|]. intros vs s3 st3 W. right. exists st3. auto.
Qed.
Lemma symbols_follow st s : wanes v rest st s -> follows (read_atomic_symbols s) (byte_symbols st).
Proof.
  intros H. unfold read_atomic_symbols, byte_symbols, raw_line. destruct (readline_wanes _ _ _ _ H) as [->|(st1 & -> & H1)]; [apply follows_code|]. destruct (readline s) as [l r]. cbn [fst snd bbind] in *.
  destruct (split l) as [|w ws] eqn:SL; [right; reflexivity|]. destruct (find _ (w :: ws)) as [q|]; [right; reflexivity|].
  destruct (readline_wanes _ _ _ _ H1) as [->|(st2 & -> & H2)]; [apply follows_code|]. destruct (readline r) as [l2 r2]. cbn [fst snd bbind] in *.
  destruct (negb _); [right; reflexivity|]. destruct (ints (split l2)) as [cs|]; [|right; reflexivity]. right. exists st2. auto.
Qed.
Lemma mode_follow st s : wanes v rest st s -> follows (read_mode s) (byte_mode st).
Proof.
  intros H. unfold read_mode, byte_mode, raw_line. destruct (readline_wanes _ _ _ _ H) as [->|(st1 & -> & H1)]; [apply follows_code|]. destruct (readline s) as [l r]. cbn [fst snd bbind] in *.
  destruct l as [|c l]; [right; reflexivity|]. destruct (is_space c); [right; reflexivity|]. destruct (N.eqb (lower c) 115).
  - destruct (readline_wanes _ _ _ _ H1) as [->|(st2 & -> & H2)]; [apply follows_code|]. destruct (readline r) as [l2 r2]. cbn [fst snd bbind] in *.
    destruct l2 as [|c' l2]; [right; reflexivity|]. destruct (N.eqb (lower c') 99); [right; exists st2; auto|]. destruct (N.eqb (lower c') 100); [right; exists st2; auto|right; reflexivity].
  - cbn [bbind]. destruct (N.eqb (lower c) 99); [right; exists st1; auto|]. destruct (N.eqb (lower c) 100); [right; exists st1; auto|right; reflexivity].
Qed.
Lemma positions_follow E lattice n st s : wanes v rest st s -> follows (read_positions_from E lattice n s) (byte_positions E lattice n st).
Proof.
  intros H. unfold read_positions_from, byte_positions. apply follows_bind; [apply mode_follow, H|]. intros cart s1 st1 W1. apply follows_bind; [apply rows_follow, W1|]. intros rows s2 st2 W2.
  destruct cart; [|right; exists st2; auto]. destruct (np_inv E lattice) as [i|e]; cbn [rbind plain bbind]; [|right; reflexivity]. destruct rows; [right; reflexivity|right; exists st2; auto].
Qed.
Definition follows0 {A} (r : res A) (b : bres A) : Prop := usual b r.
Lemma follows_bind0 {A B} (r : res (A * text)) b (k : A * text -> res B) k' : follows r b -> (forall a s st, wanes v rest st s -> usual (k' (a, st)) (k (a, s))) -> usual (bbind b k') (rbind r k).
Proof.
  intros [(e & -> & C)|H] K; [left; exists e; split; [reflexivity|exact C]|]. destruct r as [[a s]|e].
  - destruct H as (st & -> & W). apply K, W.
  - rewrite H. right. reflexivity.
Qed.
End Rest.

Lemma open_wanes blocks : (forall t, ~ utf8_text t (concat blocks)) -> exists t rest, begins t (concat blocks) /\ forall u, exists v, wanes v rest (open_file blocks) (universal (t ++ u)).
Proof.
  intros NT. destruct (doomed_or_text blocks [] eq_refl) as [(t & T)|(bs & rest & x & h & -> & X & Q)]; cbn [app] in *; [apply decode_iff in T; elim (NT t T)|].
  destruct (hold_cr_prefix x) as (x1 & x2 & Hx & U). destruct (cut_prefix (fst (hold_cr false x))) as (w & W). rewrite U in W at 1.
  destruct (universal_prefix _ _ _ W) as (y1 & y2 & Hy & V).
  destruct (decode_sound _ _ _ X) as (b1 & T & HB & _). rewrite Hx, Hy, <- app_assoc in T. destruct (utf8_text_split _ _ _ T) as (c1 & c2 & -> & K).
  exists y1, rest. split.
  - exists c1, (c2 ++ h ++ concat rest)%list. split; [|exact K]. rewrite concat_app, HB, <- !app_assoc. reflexivity.
  - intros u. assert (L : ends_line (universal y1)) by (rewrite V; apply cut_ends). destruct (universal_more y1 u L) as [v M]. exists v. rewrite M, V. exists (fst (hold_cr false x)). split; [|reflexivity]. split; [reflexivity|]. exists bs, x, h. cbn [open_file st_blocks st_held st_text st_cr app]. auto.
Qed.
Lemma f_poscar_undecodable blocks : (forall t, ~ utf8_text t (concat blocks)) ->
  exists t, begins t (concat blocks) /\ forall E u, usual (read_structure_file E blocks) (read_structure E (t ++ u)) /\ usual (read_positions_file E blocks) (read_positions E (t ++ u)).
Proof.
  intros NT. destruct (open_wanes blocks NT) as (t & rest & B & W). exists t. split; [exact B|]. intros E u. destruct (W u) as [v Wv]. clear W. rename Wv into W. split.
  - unfold read_structure_file, read_structure. apply (follows_bind0 rest v); [apply lattice_follow, W|]. intros lat s1 st1 W1. apply (follows_bind0 rest v); [apply symbols_follow, W1|]. intros sym s2 st2 W2.
    apply (follows_bind0 rest v); [apply positions_follow, W2|]. intros ps s3 st3 W3. right. reflexivity.
  - unfold read_positions_file, read_positions. apply (follows_bind0 rest v); [apply lattice_follow, W|]. intros lat s1 st1 W1. apply (follows_bind0 rest v); [apply symbols_follow, W1|]. intros sym s2 st2 W2.
    apply (follows_bind0 rest v); [apply positions_follow, W2|]. intros ps s3 st3 W3. right. reflexivity.
Qed.
Lemma f_poscar_sound blocks : exists t, begins t (concat blocks) /\ forall E,
  (forall p, read_structure_file E blocks = BOk p -> read_structure E t = Ok p) /\ (forall p, read_positions_file E blocks = BOk p -> read_positions E t = Ok p).
Proof.
  destruct (text_or_not blocks) as [(t & T)|N].
  - exists t. split; [apply begins_all, T|]. intros E. destruct (f_C50_bytes E _ _ T) as [-> ->]. split; intros p; apply plain_ok.
  - destruct (f_poscar_undecodable blocks N) as (t & B & H). exists t. split; [exact B|]. intros E. destruct (H E []) as [H1 H2]. rewrite app_nil_r in *. split; intros p; apply usual_ok; assumption.
Qed.
