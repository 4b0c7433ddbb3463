(** OUTCAR files as bytes: C57-C61. *)
From Coq Require Import String Ascii ZArith NArith QArith Qreals Reals Bool Arith List Lia.
From Verif Require Import Base LinAlg Constants M_Validate M_StructUtils M_Text M_Poscar M_Outcar M_Bytes M_BytesOutcar S_Bytes P_Bytes P_Bytes2.
Import ListNotations.
Local Open Scope nat_scope.

(** ** The lines of a file *)
Lemma readline_lines s : s <> [] -> lines_of s = fst (readline s) :: lines_of (snd (readline s)) /\ fst (readline s) <> [] /\ List.length (snd (readline s)) < List.length s.
Proof.
  induction s as [|c s IH]; intros H; [congruence|]. cbn [readline lines_of]. destruct (N.eqb c NL) eqn:E; cbn [fst snd].
  - repeat split; [discriminate|cbn; lia].
  - destruct s as [|d s].
    + cbn. repeat split; [discriminate|lia].
    + destruct IH as (A & B & C); [discriminate|]. rewrite A. destruct (readline (d :: s)) as [l r]. cbn [fst snd] in *. repeat split; [discriminate|cbn [List.length] in *; lia].
Qed.
Lemma sequence_ok : forall fuel st s, stands st s -> List.length s < fuel -> line_sequence fuel st = mkBF (lines_of s) false.
Proof.
  induction fuel as [|fuel IH]; intros st s H L; [lia|]. cbn [line_sequence]. destruct (stream_readline_ok st s H) as (st' & R & H'). rewrite R.
  destruct s as [|c s]; [reflexivity|]. destruct (readline_lines (c :: s)) as (A & B & C); [discriminate|]. rewrite A.
  destruct (fst (readline (c :: s))) as [|d l] eqn:F; [congruence|]. rewrite (IH st' _ H') by lia. reflexivity.
Qed.
Lemma stream_is blocks t : utf8_text t (concat blocks) -> outcar_stream blocks = mkBF (outcar_open t) false.
Proof.
  intros H. unfold outcar_stream, outcar_open. apply sequence_ok; [apply open_stands, H|].
  pose proof (utf8_text_length _ _ H). pose proof (universal_length t). lia.
Qed.

(** ** The readers on decodable files *)
Definition same {A} (r : res (A * file)) (b : bres (A * bfile)) : Prop :=
  match r with Ok (a, f) => b = BOk (a, mkBF f false) | Err e => b = BErr (Plain e) end.
Lemma skip_same m f : same (skip_until m f) (byte_skip m f false).
Proof. induction f as [|l f IH]; cbn; [reflexivity|]. destruct (contains m l); [reflexivity|exact IH]. Qed.
Lemma or_same {A} msg (r : res (A * file)) b : same r b -> same (or_invalid msg r) (byte_or_invalid msg b).
Proof. unfold same, or_invalid, byte_or_invalid. destruct r as [[a f]|e]; intros ->; [reflexivity|]. destruct e; reflexivity. Qed.
Lemma bind_same {A B} (r : res (A * file)) b (k : A * file -> res (B * file)) k' :
  same r b -> (forall a f, same (k (a, f)) (k' (a, mkBF f false))) -> same (rbind r k) (bbind b k').
Proof. intros H K. destruct r as [[a f]|e]; cbn in H; subst b; cbn; [apply K|reflexivity]. Qed.
Definition same0 {A} (r : res A) (b : bres A) : Prop := b = plain r.
Lemma bind_same0 {A B} (r : res (A * file)) b (k : A * file -> res B) k' :
  same r b -> (forall a f, same0 (k (a, f)) (k' (a, mkBF f false))) -> same0 (rbind r k) (bbind b k').
Proof. intros H K. destruct r as [[a f]|e]; cbn in H; subst b; cbn; [apply K|reflexivity]. Qed.
Lemma next_same f : byte_next (mkBF f false) = Some (fst (next_line f), mkBF (snd (next_line f)) false).
Proof. destruct f; reflexivity. Qed.
Lemma potcar_same f : forall line, match potcar_loop f with
  | Ok (ss, r) => exists line', byte_potcar line f false = BOk (ss, line', mkBF r false)
  | Err e => byte_potcar line f false = BErr (Plain e) end.
Proof.
  induction f as [|l f IH]; intros line; cbn [potcar_loop byte_potcar]; [eexists; reflexivity|]. destruct (contains _ l); [|eexists; reflexivity].
  destruct (potcar_symbol l) as [s|]; [|reflexivity]. specialize (IH l). destruct (potcar_loop f) as [[ss r]|e]; cbn [rbind].
  - destruct IH as [line' ->]. eexists. reflexivity.
  - rewrite IH. reflexivity.
Qed.
Lemma skip_same' m f : same (skip_until (txt m) f) (skip m (mkBF f false)).
Proof. apply skip_same. Qed.
Lemma symbols_same f : same (outcar_symbols f) (byte_outcar_symbols (mkBF f false)).
Proof.
  unfold outcar_symbols, byte_outcar_symbols. pose proof (or_same (txt "POTCAR block not found") _ _ (skip_same' "POTCAR:    " f)) as H.
  destruct (or_invalid (txt "POTCAR block not found") _) as [[l f1]|e]; cbn [same] in H; rewrite H; [|reflexivity]. cbn [rbind].
  destruct (potcar_symbol l) as [s|]; [|reflexivity]. cbn [bf_lines bf_broken]. pose proof (potcar_same f1 l) as P. destruct (potcar_loop f1) as [[ss f2]|e]; [|rewrite P; reflexivity].
  destruct P as [line' ->]. cbn [rbind bbind]. rewrite next_same. destruct (next_line f2) as [l3 f3]. cbn [fst snd].
  apply bind_same; [apply or_same, skip_same'|]. intros l4 f4. destruct (ints _); reflexivity.
Qed.
Lemma rows_same E msg n : forall line f, same (table_rows E msg n f) (byte_table_rows E msg n line (mkBF f false)).
Proof.
  induction n as [|n IH]; intros line f; cbn [table_rows byte_table_rows]; [reflexivity|]. rewrite next_same. destruct (next_line f) as [l f1]. cbn [fst snd].
  destruct (floats E _); [|reflexivity]. apply bind_same; [apply IH|]. reflexivity.
Qed.
Lemma table_same E msg n f : same (table E msg n f) (byte_table E msg n (mkBF f false)).
Proof. apply bind_same; [apply rows_same|]. intros rs f1. destruct (np_rows rs); reflexivity. Qed.
Lemma fractional_same E n f : same (outcar_fractional E n f) (byte_fractional E n (mkBF f false)).
Proof. apply bind_same; [apply or_same, skip_same'|]. intros l f1. apply table_same. Qed.
Lemma polarizability_same E f : same (outcar_polarizability E f) (byte_polarizability E (mkBF f false)).
Proof. apply bind_same; [apply or_same, skip_same'|]. intros l f1. unfold byte_line. rewrite next_same. apply table_same. Qed.
Lemma outcar_lattice_same E f : same (outcar_lattice E f) (byte_outcar_lattice E (mkBF f false)).
Proof. apply bind_same; [apply or_same, bind_same; [apply skip_same'|intros; apply skip_same']|]. intros l f1. apply table_same. Qed.
Lemma eigen_same E n lattice : forall f acc line, same (eigen_loop E n lattice acc f) (byte_eigen E n lattice acc line f false).
Proof.
  induction f as [|l f IH]; intros acc line; cbn [eigen_loop byte_eigen]; [reflexivity|]. destruct (Nat.eqb _ n); [reflexivity|]. destruct (contains _ l); [apply IH|].
  destruct (floats E _) as [[|a [|b [|c [|]]]]|]; try reflexivity. destruct (inv_arr E lattice); [apply IH|reflexivity].
Qed.
Lemma mode_line_same E f : same (read_mode_line E f) (byte_mode_line E (mkBF f false)).
Proof. apply bind_same; [apply or_same, skip_same'|]. intros l f1. destruct (contains _ l); destruct (word_float E _ _ l); reflexivity. Qed.
Lemma modes_same E k n lattice : forall f, same0 (mode_loop E k n lattice f) (byte_modes E k n lattice (mkBF f false)).
Proof.
  induction k as [|k IH]; intros f; cbn [mode_loop byte_modes]; [reflexivity|]. apply bind_same0; [apply mode_line_same|]. intros w f1. apply bind_same0; [apply eigen_same|]. intros v f2.
  rewrite IH. destruct (mode_loop E k n lattice f2) as [[ws vs]|]; reflexivity.
Qed.
Lemma timestep_same E f : same (outcar_timestep E f) (byte_timestep E (mkBF f false)).
Proof. apply bind_same; [apply or_same, skip_same'|]. intros l f1. destruct (word_float E _ _ l); reflexivity. Qed.
Lemma next_cart_same E n f : same (outcar_next_cart E n f) (byte_next_cart E n (mkBF f false)).
Proof. unfold outcar_next_cart, byte_next_cart, byte_line. rewrite next_same. apply table_same. Qed.
Lemma skip_only m f e : skip_until m f = Err e -> e = NoMatchingLineFoundException.
Proof. induction f as [|l f IH]; cbn; [congruence|]. destruct (contains m l); [discriminate|exact IH]. Qed.
Lemma blocks_same E n lattice fuel : forall ml f, same0 (blocks_loop E fuel n lattice ml f) (byte_blocks E fuel n lattice ml (mkBF f false)).
Proof.
  induction fuel as [|fuel IH]; intros ml f; cbn [blocks_loop byte_blocks]; [reflexivity|]. cbn [bf_lines bf_broken]. pose proof (skip_same position_marker f) as H.
  destruct (skip_until position_marker f) as [[l f1]|e] eqn:E1; cbn [same] in H; rewrite H.
  - destruct (ml && _); [apply IH|]. apply bind_same0; [apply next_cart_same|]. intros cart f2. destruct (inv_arr E lattice) as [i|]; [|reflexivity]. cbn [plain bbind rbind].
    destruct (matmul_inv cart i) as [p|]; [|reflexivity]. cbn [plain bbind rbind]. rewrite IH. destruct (blocks_loop E fuel n lattice _ f2); reflexivity.
  - apply skip_only in E1. subst e. reflexivity.
Qed.
Lemma f_outcar_bytes E blocks t : utf8_text t (concat blocks) ->
  outcar_positions_file E blocks = plain (outcar_read_positions E t) /\
  outcar_positions_and_polarizability_file E blocks = plain (outcar_read_positions_and_polarizability E t).
Proof.
  intros H. pose proof (stream_is _ _ H) as S. split.
  - unfold outcar_positions_file, outcar_read_positions. rewrite S. apply bind_same0; [apply symbols_same|]. intros s f. apply bind_same0; [apply fractional_same|]. reflexivity.
  - unfold outcar_positions_and_polarizability_file, outcar_read_positions_and_polarizability. rewrite S. apply bind_same0; [apply symbols_same|]. intros s f. apply bind_same0; [apply fractional_same|]. intros p f2. apply bind_same0; [apply polarizability_same|]. reflexivity.
Qed.
Lemma f_outcar_structure_bytes A (mk : list Z -> narr -> narr -> res A) E blocks t : utf8_text t (concat blocks) ->
  outcar_structure_and_polarizability_file E blocks = plain (outcar_read_structure_and_polarizability E t) /\
  outcar_ref_structure_file mk E blocks = plain (outcar_read_ref_structure mk E t).
Proof.
  intros H. pose proof (stream_is _ _ H) as S. split.
  - unfold outcar_structure_and_polarizability_file, outcar_read_structure_and_polarizability. rewrite S. apply bind_same0; [apply symbols_same|]. intros s f. apply bind_same0; [apply outcar_lattice_same|]. intros l f1. apply bind_same0; [apply fractional_same|]. intros p f2. apply bind_same0; [apply polarizability_same|]. reflexivity.
  - unfold outcar_ref_structure_file, outcar_read_ref_structure. rewrite S. apply bind_same0; [apply symbols_same|]. intros s f. apply bind_same0; [apply outcar_lattice_same|]. intros l f1. apply bind_same0; [apply fractional_same|]. reflexivity.
Qed.
Lemma f_outcar_phonons_bytes E blocks t : utf8_text t (concat blocks) -> outcar_phonons_file E blocks = plain (outcar_read_phonons E t).
Proof.
  intros H. unfold outcar_phonons_file, outcar_read_phonons. rewrite (stream_is _ _ H). apply bind_same0; [apply symbols_same|]. intros s f. destruct (mapM atomic_weight s) as [w|]; [|reflexivity]. cbn [plain bbind rbind].
  apply bind_same0; [apply outcar_lattice_same|]. intros l f1. apply bind_same0; [apply fractional_same|]. intros p f2. apply bind_same0; [apply or_same, skip_same'|]. intros l3 f3.
  rewrite modes_same. destruct (mode_loop E _ _ l f3) as [[ws vs]|]; [|reflexivity]. cbn [plain bbind rbind]. destruct (np_stack vs) as [ev|]; [|reflexivity]. cbn [plain bbind rbind]. destruct (div_weights ev w); reflexivity.
Qed.
Lemma f_outcar_trajectory_bytes E blocks t : utf8_text t (concat blocks) -> outcar_trajectory_file E blocks = plain (outcar_read_trajectory E t).
Proof.
  intros H. unfold outcar_trajectory_file, outcar_read_trajectory. rewrite (stream_is _ _ H). apply bind_same0; [apply symbols_same|]. intros s f. apply bind_same0; [apply timestep_same|]. intros ts f1.
  apply bind_same0; [apply outcar_lattice_same|]. intros l f2. cbn [bf_lines]. rewrite blocks_same. destruct (blocks_loop E _ _ l false f2) as [ps|]; [|reflexivity]. cbn [plain bbind rbind]. destruct ps; [reflexivity|].
  destruct (np_stack _); reflexivity.
Qed.

(** ** Files in another encoding *)
Lemma hopeless_stream b blocks : hopeless b -> outcar_stream (b :: blocks) = mkBF [] true.
Proof. intros H. unfold outcar_stream. cbn [line_sequence]. unfold stream_readline, open_file. cbn [st_text st_held st_cr st_blocks readline_from has_line app]. rewrite (hopeless_none _ H). reflexivity. Qed.
Lemma f_outcar_other A (mk : list Z -> narr -> narr -> res A) E b blocks : hopeless b ->
  outcar_positions_file E (b :: blocks) = BErr UnboundLocalError /\
  outcar_positions_and_polarizability_file E (b :: blocks) = BErr UnboundLocalError /\
  outcar_structure_and_polarizability_file E (b :: blocks) = BErr UnboundLocalError /\
  outcar_ref_structure_file mk E (b :: blocks) = BErr UnboundLocalError /\
  outcar_phonons_file E (b :: blocks) = BErr UnboundLocalError /\
  outcar_trajectory_file E (b :: blocks) = BErr UnboundLocalError.
Proof.
  intros H. unfold outcar_positions_file, outcar_positions_and_polarizability_file, outcar_structure_and_polarizability_file, outcar_ref_structure_file, outcar_phonons_file, outcar_trajectory_file.
  rewrite (hopeless_stream _ _ H). repeat split.
Qed.
