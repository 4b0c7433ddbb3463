(** Trajectory reading, round trips, labels, grouping, Cartesian mode. *)
From Coq Require Import String Ascii ZArith NArith Reals Lra Lia Psatz Bool Arith List.
From Verif Require Import Base LinAlg Constants M_Validate M_Spectrum M_Text M_Poscar S_Spectrum S_Text P_Text P_Poscar P_Poscar2.
Import ListNotations.
Local Open Scope N_scope.

Lemma inv_inj {A} (a b : list N) : @Err A (InvalidFileException a) = Err (InvalidFileException b) -> a = b.
Proof. intros H. congruence. Qed.

(** * Where trajectory reading stops *)
Lemma prefix_snoc m l c : ~ In c m -> prefixb m (l ++ [c]) = prefixb m l.
Proof.
  revert l. induction m as [|a m IH]; intros l H; [destruct l; reflexivity|].
  destruct l as [|b l]; cbn [app prefixb].
  - destruct (N.eqb_spec a c); [subst; exfalso; apply H; left; auto|reflexivity].
  - rewrite IH; auto. intros I. apply H. right; auto.
Qed.
Lemma contains_snoc m l c : ~ In c m -> contains m (l ++ [c]) = contains m l || (match m with [] => true | _ => false end).
Proof.
  intros H. induction l as [|b l IH].
  - cbn [app contains]. rewrite <- (prefix_snoc m [] c H). cbn [app]. destruct m as [|a m]; [reflexivity|].
    cbn [prefixb]. destruct (N.eqb_spec a c); [subst; exfalso; apply H; left; auto|]. reflexivity.
  - cbn [app contains]. rewrite IH. change (b :: l ++ [c])%list with ((b :: l) ++ [c])%list. rewrite prefix_snoc by auto. rewrite orb_assoc. reflexivity.
Qed.
Lemma stop_no_nl : ~ In 10 stop_message.
Proof. vm_compute. intuition discriminate. Qed.
Lemma contains_readline s : contains stop_message (fst (readline s)) = contains stop_message (first_line s).
Proof.
  rewrite readline_spec. cbn [fst]. destruct (existsb _ _); auto. rewrite contains_snoc by apply stop_no_nl. apply orb_false_r.
Qed.
Lemma contains_unrec x : contains stop_message (txt "unrecognized coordinate format: " ++ x) = contains stop_message x.
Proof. reflexivity. Qed.
Lemma contains_pos x : contains stop_message (txt "positions could not be parsed: " ++ x) = contains stop_message x.
Proof. reflexivity. Qed.
Lemma contains_missing x : contains stop_message (txt "missing first character in coordinate format: '" ++ x) = true.
Proof. reflexivity. Qed.

Lemma no_label_head s c t : fst (readline s) = c :: t -> is_space c = false -> ~ no_label s.
Proof.
  intros H S [->|(d & u & -> & D)]; [discriminate|]. cbn [readline] in H. destruct (d =? NL); [injection H as -> _; congruence|].
  destruct (readline u). injection H as -> _. congruence.
Qed.
Lemma read_no_label s : no_label s -> match fst (readline s) with [] => True | c :: _ => is_space c = true end.
Proof.
  intros [->|(d & u & -> & D)]; cbn [readline fst]; auto. destruct (d =? NL); cbn [fst]; auto. destruct (readline u); auto.
Qed.

Lemma stop_iff E lat n s :
  (exists m, read_positions_from E lat n s = Err (InvalidFileException m) /\ contains stop_message m = true) <->
  no_label s \/ exists l, malformed E n s l /\ contains stop_message l = true.
Proof.
  split.
  - intros (m & H & C). unfold read_positions_from in H. destruct (read_mode s) as [[cart s1]|e] eqn:M; cbn [rbind] in H.
    + right. destruct (read_mode_ok s cart s1) as [MO _]. destruct (MO M) as (k & MK & ST & ->).
      assert (NL0 : ~ no_label s).
      { unfold read_mode in M. destruct (readline s) as [l0 s1] eqn:R0. destruct l0 as [|c l0]; [discriminate|].
        destruct (is_space c) eqn:SP; [discriminate|]. apply (no_label_head s c l0); auto. rewrite R0. auto. }
      destruct (read_rows _ _ _ _) as [[rows s2]|e] eqn:R; cbn [rbind] in H.
      * destruct cart; [|discriminate]. destruct (np_inv E lat) eqn:NI; cbn [rbind] in H; [destruct rows; discriminate|].
        apply np_inv_err in NI as [-> _]. discriminate.
      * apply read_rows_err in R as (j & rows & A & B & R1 & R2 & ->). apply inv_inj in H. rewrite <- H in C. rewrite contains_pos, contains_readline in C.
        rewrite after_after in C. exists (line (S k + j) s). split; [|exact C]. exists k. split; [exact MK|]. split; [exact NL0|]. right.
        split; [destruct cart; auto|]. exists j, rows. split; [exact A|]. split; [exact B|].
        split; [rewrite <- (Nat.add_0_r (S k)); apply rows_at_after; exact R1|]. split; [reflexivity|].
        intros (v & V). apply R2. exists v. apply row_at_after. exact V.
    + injection H as ->. unfold read_mode in M. destruct (readline s) as [l0 s1] eqn:R0.
      destruct l0 as [|c l0]. { left. left. apply readline_nil. rewrite R0. auto. }
      destruct (is_space c) eqn:SP.
      { left. right. destruct s as [|d s]; [discriminate|]. exists d, s. split; auto.
        cbn [readline] in R0. destruct (d =? NL); [injection R0; intros; subst; auto|]. destruct (readline s). injection R0; intros; subst; auto. }
      right. assert (NL0 : ~ no_label s) by (apply (no_label_head s c l0); auto; rewrite R0; auto).
      assert (NE : s <> []) by (intros ->; discriminate).
      pose proof (fun x X => starts_read s x X) as ST. rewrite R0 in ST. cbn [fst] in ST.
      pose proof (snd_readline s) as S0. rewrite R0 in S0. cbn [snd] in S0. subst s1.
      pose proof (contains_readline s) as CR. rewrite R0 in CR. cbn [fst] in CR.
      destruct (N.eqb_spec (lower c) 115) as [E1|E1].
      * pose proof (fun x X => starts_read (after_line s) x X) as ST1. pose proof (contains_readline (after_line s)) as CR1.
        pose proof (readline_nil (after_line s)) as RN.
        destruct (readline (after_line s)) as [l1 s2]. cbn [fst] in *. destruct l1 as [|c1 l1]; [discriminate|].
        destruct (N.eqb_spec (lower c1) 99); [discriminate|]. destruct (N.eqb_spec (lower c1) 100); [discriminate|].
        apply inv_inj in M. rewrite <- M in C. rewrite contains_unrec, CR1 in C. exists (line 1 s). split; [|exact C].
        exists 1%nat. split; [right; split; auto; apply (ST 115); eauto|]. split; auto. left.
        split; [reflexivity|]. split; [intros X; apply (ST1 99) in X as (? & ? & X & Y); auto; injection X as <- <-; auto|].
        split; [intros X; apply (ST1 100) in X as (? & ? & X & Y); auto; injection X as <- <-; auto|].
        intros X. apply RN in X. discriminate.
      * destruct (N.eqb_spec (lower c) 99); [discriminate|]. destruct (N.eqb_spec (lower c) 100); [discriminate|].
        apply inv_inj in M. rewrite <- M in C. rewrite contains_unrec, CR in C. exists (line 0 s). split; [|exact C].
        exists 0%nat. split; [left; split; auto; intros X; apply (ST 115) in X as (? & ? & X & Y); auto; injection X as <- <-; auto|]. split; auto. left.
        split; [reflexivity|]. split; [intros X; apply (ST 99) in X as (? & ? & X & Y); auto; injection X as <- <-; auto|].
        split; [intros X; apply (ST 100) in X as (? & ? & X & Y); auto; injection X as <- <-; auto|]. exact NE.
  - intros [NL0|(l & (k & MK & NL0 & K) & C)].
    + apply read_no_label in NL0. unfold read_positions_from, read_mode. destruct (readline s) as [l0 s1]. cbn [fst] in NL0.
      destruct l0 as [|c l0]; [|rewrite NL0]; unfold invalid; cbn [rbind]; eexists; (split; [reflexivity|apply contains_missing]).
    + assert (HD : exists c t s1, readline s = (c :: t, s1) /\ is_space c = false).
      { destruct (readline s) as [l0 s1] eqn:R0. destruct l0 as [|c l0].
        - exfalso. apply NL0. left. apply readline_nil. rewrite R0. auto.
        - destruct (is_space c) eqn:SP; [|eauto]. exfalso. apply NL0. right. destruct s as [|d s]; [discriminate|]. exists d, s. split; auto.
          cbn [readline] in R0. destruct (d =? NL); [injection R0; intros; subst; auto|]. destruct (readline s). injection R0; intros; subst; auto. }
      destruct HD as (c & t & s1 & R0 & SP).
      pose proof (fun x X => starts_read s x X) as ST. rewrite R0 in ST. cbn [fst] in ST.
      pose proof (snd_readline s) as S0. rewrite R0 in S0. cbn [snd] in S0. subst s1.
      destruct K as [(-> & N1 & N2 & NE)|(MD & j & rows & A & B & R1 & -> & R2)].
      * unfold read_positions_from, read_mode. rewrite R0, SP. destruct MK as [[-> SEL]|[-> SEL]].
        -- assert (E1 : N.eqb (lower c) 115 = false) by (apply N.eqb_neq; intros X; apply SEL, (ST 115); eauto). rewrite E1.
           assert (E2 : N.eqb (lower c) 99 = false) by (apply N.eqb_neq; intros X; apply N1, (ST 99); eauto). rewrite E2.
           assert (E3 : N.eqb (lower c) 100 = false) by (apply N.eqb_neq; intros X; apply N2, (ST 100); eauto). rewrite E3.
           unfold invalid. cbn [rbind]. eexists. split; [reflexivity|]. rewrite contains_unrec. pose proof (contains_readline s) as CR. rewrite R0 in CR. cbn [fst] in CR.
           rewrite CR. exact C.
        -- assert (E1 : N.eqb (lower c) 115 = true) by (apply N.eqb_eq; apply (ST 115) in SEL as (? & ? & X & Y); auto; injection X as <- <-; auto). rewrite E1.
           pose proof (fun x X => starts_read (after_line s) x X) as ST1. pose proof (contains_readline (after_line s)) as CR1. pose proof (readline_nil (after_line s)) as RN.
           destruct (readline (after_line s)) as [l1 s2]. cbn [fst] in *. destruct l1 as [|c1 l1]; [exfalso; apply NE, RN; auto|].
           assert (E2 : N.eqb (lower c1) 99 = false) by (apply N.eqb_neq; intros X; apply N1, (ST1 99); eauto). rewrite E2.
           assert (E3 : N.eqb (lower c1) 100 = false) by (apply N.eqb_neq; intros X; apply N2, (ST1 100); eauto). rewrite E3.
           unfold invalid. cbn [rbind]. eexists. split; [reflexivity|]. rewrite contains_unrec, CR1. exact C.
      * assert (M : exists cart, read_mode s = Ok (cart, after_lines (S k) s)).
        { destruct MD as [MD|MD]; [exists true|exists false]; apply read_mode_ok; exists k; auto. }
        destruct M as (cart & M). unfold read_positions_from. rewrite M. cbn [rbind].
        rewrite (read_rows_fails E _ n _ j rows); auto.
        2: { apply rows_at_after. rewrite Nat.add_0_r. exact R1. }
        2: { intros (v & V). apply R2. exists v. apply row_at_after in V. exact V. }
        cbn [rbind]. eexists. split; [reflexivity|]. rewrite contains_pos, contains_readline, after_after. exact C.
Qed.

Lemma starts_ne s k c : starts (line k s) c -> s <> [].
Proof.
  intros (d & t & H & _) ->. assert (A : after_lines k [] = []) by (induction k; auto). unfold line in H. rewrite A in H. discriminate.
Qed.
Lemma after_lines_le k : forall s, (List.length (after_lines k s) <= List.length s)%nat.
Proof. induction k; intros s; auto. cbn [after_lines]. pose proof (IHk (after_line s)). pose proof (after_line_length s). lia. Qed.
Lemma configuration_shorter E lat n s p s' : configuration E lat n s p s' -> (List.length s' < List.length s)%nat.
Proof.
  intros (k & rows & _ & _ & _ & -> & H).
  assert (NE : s <> []) by (destruct H as [(H & _)|(H & _)]; apply starts_ne in H; auto).
  cbn [Nat.add after_lines]. pose proof (after_lines_le (k + n) (after_line s)). pose proof (after_line_lt s NE). lia.
Qed.

Definition stops (E : env) (n : nat) (s : text) : Prop := no_label s \/ exists l, malformed E n s l /\ contains stop_message l = true.

Lemma read_configs_ok E lat n f : forall s ps, (List.length s < f)%nat ->
  (read_configs E f lat n s = Ok ps <-> exists s', configurations E lat n s ps s' /\ stops E n s').
Proof.
  induction f as [|f IH]; intros s ps L; [lia|]. cbn [read_configs].
  destruct (read_positions_from E lat n s) as [[p s1]|e] eqn:R.
  - pose proof R as R'. apply read_positions_from_ok in R'. pose proof (configuration_shorter _ _ _ _ _ _ R') as SH.
    rewrite rbind_ok. split.
    + intros (ps' & H & X). injection X as <-. apply IH in H as (s' & C & ST); [|lia]. exists s'. split; auto. econstructor; eauto.
    + intros (s' & C & ST). inversion C; subst.
      * exfalso. apply (stop_iff E lat) in ST as (m & X & _). congruence.
      * apply read_positions_from_ok in H. rewrite R in H. injection H as <- <-. exists ps0. split; auto. apply IH; [lia|]. eauto.
  - assert (NC : forall s' ps', configurations E lat n s ps' s' -> ps' = [] /\ s' = s).
    { intros s' ps' C. inversion C; subst; auto. apply read_positions_from_ok in H. congruence. }
    assert (G : (exists m, Err (A := list n3 * text) e = Err (InvalidFileException m) /\ contains stop_message m = true) <-> stops E n s) by (rewrite <- R; apply stop_iff).
    split.
    + intros H. assert (Q : stops E n s /\ ps = []).
      { rewrite <- G. destruct e; try discriminate. destruct (contains stop_message msg) eqn:C; [|discriminate]. injection H as <-. split; auto. exists msg. auto. }
      destruct Q as [Q ->]. exists s. split; auto. constructor.
    + intros (s' & C & ST). apply NC in C as [-> ->]. apply G in ST as (m & X & Y). injection X as ->. rewrite Y. auto.
Qed.
Lemma read_configs_err E lat n f : forall s e, (List.length s < f)%nat -> read_configs E f lat n s = Err e ->
  exists ps s', configurations E lat n s ps s' /\ ~ stops E n s' /\ read_positions_from E lat n s' = Err e.
Proof.
  induction f as [|f IH]; intros s e L H; [lia|]. cbn [read_configs] in H.
  destruct (read_positions_from E lat n s) as [[p s1]|e1] eqn:R.
  - pose proof R as R'. apply read_positions_from_ok in R'. pose proof (configuration_shorter _ _ _ _ _ _ R') as SH.
    destruct (read_configs E f lat n s1) as [ps|e2] eqn:RC; cbn [rbind] in H; [discriminate|]. injection H as <-.
    apply IH in RC as (ps & s' & C & ST & X); [|lia]. exists (p :: ps), s'. split; auto. econstructor; eauto.
  - assert (X : e = e1 /\ ~ stops E n s).
    { pose proof (stop_iff E lat n s) as G. rewrite R in G. destruct e1; try (injection H as <-; split; [reflexivity|]; intros ST; apply G in ST as (m & X & _); discriminate).
      destruct (contains stop_message msg) eqn:C; [discriminate|]. injection H as <-. split; auto. intros ST. apply G in ST as (m & X & Y). injection X as ->. congruence. }
    destruct X as [-> ST]. exists [], s. split; [constructor|auto].
Qed.

Lemma f_C53_format E content ps :
  read_positions_ts E content = Ok ps <->
  exists lat numbers rest,
    header_of E (universal content) lat numbers /\
    configurations E lat (List.length numbers) (after_lines 7 (universal content)) ps rest /\
    (no_label rest \/ exists l, malformed E (List.length numbers) rest l /\ contains stop_message l = true).
Proof.
  set (u := universal content). unfold read_positions_ts. fold u. rewrite rbind_ok. split.
  - intros ((lat & s1) & RL & H). apply read_lattice_ok in RL as (scale & raw & A & B & C & D & ->).
    apply rbind_ok in H as ((symbols & s2) & RS & H).
    assert (Q : species_at (after_lines 5 u) 0 (numbers_of symbols) /\ s2 = after_lines 2 (after_lines 5 u)) by (apply read_symbols_ok; eauto).
    destruct Q as [Q ->]. apply read_configs_ok in H as (rest & H & ST); [|lia].
    exists lat, (numbers_of symbols), rest. replace (List.length (numbers_of symbols)) with (List.length symbols) by (unfold numbers_of; rewrite map_length; auto).
    split; [exists scale, raw; auto 8|]. split; auto.
  - intros (lat & numbers & rest & (scale & raw & A & B & C & D & Q) & K & ST).
    exists (lat, after_lines 5 u). split; [apply read_lattice_ok; exists scale, raw; auto|]. cbv iota beta.
    destruct (proj2 (read_symbols_ok (after_lines 5 u) numbers _) (conj Q eq_refl)) as (symbols & RS & ->).
    apply rbind_ok. exists (symbols, after_lines 2 (after_lines 5 u)). split; auto. cbv iota beta. apply read_configs_ok; [lia|].
    unfold numbers_of in *. rewrite map_length in *. exists rest. auto.
Qed.

Lemma f_C53_failure E content e :
  read_positions_ts E content = Err e ->
  (exists m, e = InvalidFileException m) \/
  exists lat numbers ps s k,
    header_of E (universal content) lat numbers /\
    configurations E lat (List.length numbers) (after_lines 7 (universal content)) ps s /\ mode_line s k /\
    ((e = IndexError /\ k = 1%nat /\ after_lines 1 s = []) \/
     (starts (line k s) 99 /\ e = LinAlgError /\ forall m, finite33 lat = Some m -> mdet m = 0%R) \/
     (starts (line k s) 99 /\ e = ValueError /\ numbers = [])).
Proof.
  set (u := universal content). unfold read_positions_ts. fold u.
  destruct (read_lattice E u) as [[lat s1]|e1] eqn:RL; cbn [rbind].
  2: { intros H. injection H as <-. left. apply read_lattice_err in RL as (m & ->). eauto. }
  destruct (read_atomic_symbols s1) as [[symbols s2]|e2] eqn:RS; cbn [rbind].
  2: { intros H. injection H as <-. left. apply read_symbols_err in RS as (m & ->). eauto. }
  intros H. apply read_lattice_ok in RL as (scale & raw & A & B & C & D & ->).
  assert (Q : species_at (after_lines 5 u) 0 (numbers_of symbols) /\ s2 = after_lines 2 (after_lines 5 u)) by (apply read_symbols_ok; eauto).
  destruct Q as [Q ->]. apply read_configs_err in H as (ps & s' & K & ST & R); [|lia].
  assert (HD : header_of E u lat (numbers_of symbols)) by (exists scale, raw; auto 8).
  assert (LN : List.length (numbers_of symbols) = List.length symbols) by (unfold numbers_of; apply map_length).
  rewrite <- LN in K. apply read_positions_from_err in R. unfold outcome_ok in R.
  destruct e; try contradiction; try (left; eauto; fail); right; exists lat, (numbers_of symbols), ps, s'.
  - destruct R as (N & k & MK & S1). exists k. split; [exact HD|]. split; [exact K|]. split; [exact MK|]. right. right. split; auto. split; auto. destruct symbols; [reflexivity|discriminate].
  - destruct R as (k & MK & S1 & DD). exists k. split; [exact HD|]. split; [exact K|]. split; [exact MK|]. right. left. auto.
  - destruct R as (S1 & S2). exists 1%nat. split; [exact HD|]. split; [exact K|]. split; [right; auto|]. left. auto.
Qed.

(** * Grouping *)
Lemma get_symbols_cases numbers : Forall known numbers -> numbers <> [] ->
  (exists u ks, get_symbols_str numbers = Ok (symbols_text u ks) /\ numbers = expand u ks /\ NoDup u /\ Forall known u /\
     u <> [] /\ List.length u = List.length ks /\ contiguous numbers) \/
  (get_symbols_str numbers = Err ValueError /\ ~ contiguous numbers).
Proof.
  intros K NE. destruct numbers as [|n l]; [congruence|]. destruct (group_start n l) as [G1 G2].
  destruct (group_loop [] n (n :: l)) as [u|e] eqn:G.
  - left. destruct (G1 u eq_refl) as (ks & A & B & C & D). exists u, ks.
    destruct (get_symbols_ok (n :: l) u ks) as [S1 S2]; eauto.
    repeat split; auto; [|rewrite D; apply contiguous_expand; auto].
    intros ->. destruct ks; discriminate.
  - right. destruct (G2 e eq_refl) as [-> NC]. split; auto. unfold get_symbols_str. rewrite G. reflexivity.
Qed.

Lemma symbols_species u ks s : Forall known u -> u <> [] -> List.length u = List.length ks ->
  species_at (symbols_text u ks ++ s) 0 (expand u ks) /\ after_lines 2 (symbols_text u ks ++ s) = s.
Proof.
  intros K NE L. pose proof (read_symbols_text u ks s K NE L) as R.
  assert (N : numbers_of (map sym_text (expand u ks)) = expand u ks).
  { assert (KE : Forall known (expand u ks)).
    { apply Forall_forall. intros z I. apply in_expand in I. rewrite Forall_forall in K. auto. }
    clear -KE. unfold numbers_of. rewrite map_map. induction KE; cbn [map]; auto. destruct (sym_text_ok x H) as (_ & _ & ->). congruence. }
  pose proof (proj1 (read_symbols_ok (symbols_text u ks ++ s) (expand u ks) s)) as Q. destruct Q as [Q1 Q2]; [rewrite R; eauto|]. auto.
Qed.

Lemma f_C49_grouping numbers :
  match get_symbols_str numbers with
  | Ok t => species_at t 0 numbers /\ after_lines 2 t = [] /\ contiguous numbers
  | Err IndexError => numbers = []
  | Err ValueError => ~ contiguous numbers
  | Err KeyError => ~ Forall known numbers
  | Err _ => False
  end.
Proof.
  destruct numbers as [|n l]; [reflexivity|].
  assert (D : Forall known (n :: l) \/ ~ Forall known (n :: l)).
  { destruct (Forall_dec known ltac:(intros z; unfold known; destruct (Z_le_dec 1 z); destruct (Z_le_dec z 118); [left; lia|right; lia..]) (n :: l)); auto. }
  destruct D as [K|K].
  - destruct (get_symbols_cases (n :: l) K) as [(u & ks & -> & -> & ND & KU & NE & L & C)|(-> & C)]; [discriminate| |exact C].
    pose proof (symbols_species u ks [] KU NE L) as [A B]. rewrite app_nil_r in A, B. auto.
  - destruct (group_start n l) as [G1 G2]. unfold get_symbols_str. destruct (group_loop [] n (n :: l)) as [u|e] eqn:G; cbn [rbind].
    + destruct (G1 u eq_refl) as (ks & A & B & C & D).
      assert (NU : ~ Forall known u).
      { intros KU. apply K. rewrite D. apply Forall_forall. intros z I. apply in_expand in I. rewrite Forall_forall in KU. auto. }
      assert (M : mapM (fun n0 => rmap txt (atom_symbol n0)) u = Err KeyError).
      { clear -NU. induction u as [|z u IH]; [exfalso; apply NU; constructor|]. cbn [mapM]. unfold atom_symbol at 1.
        destruct (atom_symbol_opt z) as [s|] eqn:S; cbn [rmap rbind]; auto. rewrite IH; [reflexivity|]. intros KU. apply NU. constructor; auto.
        apply unknown_spec. unfold unknown_number. rewrite S. auto. }
      rewrite M. cbn [rbind]. exact K.
    + destruct (G2 e eq_refl) as [-> NC]. exact NC.
Qed.
Lemma f_C49_iff numbers : Forall known numbers -> numbers <> [] ->
  ((exists t, get_symbols_str numbers = Ok t) <-> contiguous numbers).
Proof.
  intros K NE. destruct (get_symbols_cases numbers K NE) as [(u & ks & -> & _ & _ & _ & _ & _ & C)|(-> & C)]; split; eauto; try discriminate.
  - intros (? & X); discriminate.
  - intros X. contradiction.
Qed.
Lemma f_C49_table :
  (forall n, known n <-> exists name, In (name, n) atomic_numbers) /\
  (forall a b n, In (a, n) atomic_numbers -> In (b, n) atomic_numbers -> a = b) /\
  (forall a m n, In (a, m) atomic_numbers -> In (a, n) atomic_numbers -> m = n) /\
  (forall a n, In (a, n) atomic_numbers <-> atom_symbol n = Ok a).
Proof.
  assert (AS : forall a n, In (a, n) atomic_numbers -> atom_symbol n = Ok a).
  { intros a n I. pose proof table_check as T. rewrite forallb_forall in T. specialize (T _ I). cbn [fst snd] in T. unfold atom_symbol.
    destruct (symbol_number (txt a)); [|discriminate]. destruct (atom_symbol_opt n); [|discriminate]. rewrite !andb_true_iff in T. destruct T as [[[_ T] _] _].
    apply String.eqb_eq in T. congruence. }
  split; [apply known_in|]. split; [|split].
  - intros a b n A B. apply AS in A, B. congruence.
  - intros a m n A B. assert (A' : symbol_number (txt a) = Some m) by (apply symbol_number_spec; eauto).
    assert (B' : symbol_number (txt a) = Some n) by (apply symbol_number_spec; eauto). congruence.
  - intros a n. split; [apply AS|]. unfold atom_symbol. destruct (atom_symbol_opt n) as [s|] eqn:S; [|discriminate]. intros H. injection H as <-.
    unfold atom_symbol_opt in S. destruct (find _ _) as [e|] eqn:F; [|discriminate]. injection S as <-. apply find_some in F as [I Q]. apply Z.eqb_eq in Q.
    destruct e; simpl in *; subst; auto.
Qed.
