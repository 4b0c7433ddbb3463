(** OUTCAR readers on a stream that breaks: the same as on the text before the break, unless
    they get there (C58-C61). *)
From Coq Require Import String Ascii ZArith NArith QArith Qreals Reals Bool Arith List Lia.
From Verif Require Import Base LinAlg Constants M_Validate M_StructUtils M_Text M_Poscar M_Outcar M_Bytes M_BytesOutcar S_Bytes S_BytesOutcar S_Cut P_Bytes P_Bytes2 P_BytesOutcar P_BytesOutcar2 P_BytesOutcar4 P_Outcar P_Outcar4.
Import ListNotations.
Local Open Scope nat_scope.

(** [bt] reads lines that break off, [bf] the same lines followed by [more] *)
Section More.
Context (more : list text).
Definition near {A} (bt bf : bres (A * bfile)) : Prop :=
  (exists e, bt = BErr e /\ coded e) \/
  match bf with BOk (a, f) => exists ls, f = mkBF (ls ++ more) false /\ bt = BOk (a, mkBF ls true) | BErr e => bt = BErr e end.
Definition near0 {A} (bt bf : bres A) : Prop := (exists e, bt = BErr e /\ coded e) \/ bt = bf.
Lemma near_bind {A B} (bt bf : bres (A * bfile)) (kt kf : A * bfile -> bres (B * bfile)) :
  near bt bf -> (forall a ls, near (kt (a, mkBF ls true)) (kf (a, mkBF (ls ++ more) false))) -> near (bbind bt kt) (bbind bf kf).
Proof.
  intros [(e & -> & C)|H] K; [left; exists e; split; [reflexivity|exact C]|]. destruct bf as [[a f]|e].
  - destruct H as (ls & -> & ->). apply K.
  - subst bt. right. reflexivity.
Qed.
Lemma near_bind0 {A B} (bt bf : bres (A * bfile)) (kt kf : A * bfile -> bres B) :
  near bt bf -> (forall a ls, near0 (kt (a, mkBF ls true)) (kf (a, mkBF (ls ++ more) false))) -> near0 (bbind bt kt) (bbind bf kf).
Proof.
  intros [(e & -> & C)|H] K; [left; exists e; split; [reflexivity|exact C]|]. destruct bf as [[a f]|e].
  - destruct H as (ls & -> & ->). apply K.
  - subst bt. right. reflexivity.
Qed.
Lemma near0_bind {A B} (bt bf : bres A) (k : A -> bres B) (kt : A -> bres B) : near0 bt bf -> (forall a, near0 (kt a) (k a)) -> near0 (bbind bt kt) (bbind bf k).
Proof.
  intros [(e & -> & C)| ->] K; [left; exists e; split; [reflexivity|exact C]|]. destruct bf; [apply K|right; reflexivity].
Qed.
Lemma near_plain {A B} (r : res A) (kt kf : A -> bres (B * bfile)) : (forall a, near (kt a) (kf a)) -> near (bbind (plain r) kt) (bbind (plain r) kf).
Proof. intros K. destruct r; cbn [plain bbind]; [apply K|right; reflexivity]. Qed.
Lemma near_err {A} e : near (BErr e : bres (A * bfile)) (BErr e).
Proof. right. reflexivity. Qed.
Lemma near_ret {A} (a : A) ls : near (BOk (a, mkBF ls true)) (BOk (a, mkBF (ls ++ more) false)).
Proof. right. exists ls. split; reflexivity. Qed.
Lemma near_handler {A} msg line bf : near (@handler (A * bfile) msg line) bf.
Proof. left. destruct line; cbn; eexists; (split; [reflexivity|]); [right; right; eexists; reflexivity|right; left; reflexivity]. Qed.
Lemma near_invalid {A} msg l bf : near (plain (@invalid (A * bfile) msg l)) bf.
Proof. left. eexists. split; [reflexivity|]. right. right. eexists. reflexivity. Qed.
Lemma near_code {A} bf : near (BErr UnicodeDecodeError : bres (A * bfile)) bf.
Proof. left. eexists. split; [reflexivity|]. left. reflexivity. Qed.

Lemma near_skip_raw m ls : near (byte_skip m ls true) (byte_skip m (ls ++ more) false).
Proof. induction ls as [|l ls IH]; cbn [byte_skip app]; [apply near_code|]. destruct (contains m l); [apply near_ret|exact IH]. Qed.
Lemma near_or {A} msg (bt bf : bres (A * bfile)) : near bt bf -> near (byte_or_invalid msg bt) (byte_or_invalid msg bf).
Proof.
  intros [(e & -> & C)|H].
  - left. destruct C as [->|[->|[m ->]]]; cbn; eexists; (split; [reflexivity|]); unfold coded; eauto.
  - destruct bf as [[a f]|e].
    + destruct H as (ls & -> & ->). right. exists ls. split; reflexivity.
    + subst bt. right. destruct e as [[]| |]; reflexivity.
Qed.
Lemma near_skip msg m ls : near (byte_or_invalid msg (skip m (mkBF ls true))) (byte_or_invalid msg (skip m (mkBF (ls ++ more) false))).
Proof. apply near_or. apply near_skip_raw. Qed.
Lemma near_potcar ls : forall line, near (byte_potcar line ls true) (byte_potcar line (ls ++ more) false).
Proof.
  induction ls as [|l ls IH]; intros line; cbn [byte_potcar app]; [apply near_invalid|]. destruct (contains _ l); [|apply near_ret].
  destruct (potcar_symbol l); [|apply near_err]. apply near_bind; [apply IH|]. intros [ss l'] ls'. apply near_ret.
Qed.
Lemma near_symbols ls : near (byte_outcar_symbols (mkBF ls true)) (byte_outcar_symbols (mkBF (ls ++ more) false)).
Proof.
  unfold byte_outcar_symbols. destruct (near_skip (txt "POTCAR block not found") "POTCAR:    " ls) as [(e & -> & C)|H].
  - destruct C as [->|[->|[m ->]]]; left; eexists; (split; [reflexivity|]); unfold coded; eauto.
  - destruct (byte_or_invalid _ (skip _ (mkBF (ls ++ more) false))) as [[l f1]|e].
    + destruct H as (ls1 & -> & ->). cbn [bf_broken bf_lines]. destruct (potcar_symbol l); [|apply near_err].
      apply near_bind; [apply near_potcar|]. intros [ss line] ls2. unfold byte_next. cbn [bf_lines bf_broken]. destruct ls2 as [|l3 ls3]; cbn [app]; [apply near_invalid|].
      apply near_bind; [apply near_skip|]. intros l4 ls4. destruct (ints _); [apply near_ret|apply near_err].
    + rewrite H. destruct e; apply near_err.
Qed.
Lemma near_rows E msg n : forall line ls, near (byte_table_rows E msg n line (mkBF ls true)) (byte_table_rows E msg n line (mkBF (ls ++ more) false)).
Proof.
  induction n as [|n IH]; intros line ls; cbn [byte_table_rows]; [apply near_ret|]. unfold byte_next. cbn [bf_lines bf_broken]. destruct ls as [|l ls]; cbn [app]; [apply near_handler|].
  destruct (floats E _); [|apply near_err]. apply near_bind; [apply IH|]. intros rs ls'. apply near_ret.
Qed.
Lemma near_table E msg n ls : near (byte_table E msg n (mkBF ls true)) (byte_table E msg n (mkBF (ls ++ more) false)).
Proof. apply near_bind; [apply near_rows|]. intros rs ls'. apply near_plain. intros a. apply near_ret. Qed.
Lemma near_line ls : near (byte_line (mkBF ls true)) (byte_line (mkBF (ls ++ more) false)).
Proof. unfold byte_line, byte_next. cbn [bf_lines bf_broken]. destruct ls; cbn [app]; [apply near_code|apply near_ret]. Qed.
Lemma near_fractional E n ls : near (byte_fractional E n (mkBF ls true)) (byte_fractional E n (mkBF (ls ++ more) false)).
Proof. apply near_bind; [apply near_skip|]. intros l ls'. apply near_table. Qed.
Lemma near_polarizability E ls : near (byte_polarizability E (mkBF ls true)) (byte_polarizability E (mkBF (ls ++ more) false)).
Proof. apply near_bind; [apply near_skip|]. intros l ls'. apply near_bind; [apply near_line|]. intros l2 ls2. apply near_table. Qed.
Lemma near_lattice E ls : near (byte_outcar_lattice E (mkBF ls true)) (byte_outcar_lattice E (mkBF (ls ++ more) false)).
Proof.
  apply near_bind; [|intros l ls'; apply near_table]. apply near_or. apply near_bind; [apply near_skip_raw|]. intros l ls'. apply near_skip_raw.
Qed.
Lemma near_eigen E n lattice ls : forall acc line, near (byte_eigen E n lattice acc line ls true) (byte_eigen E n lattice acc line (ls ++ more) false).
Proof.
  induction ls as [|l ls IH]; intros acc line; cbn [byte_eigen app]; [apply near_handler|]. destruct (Nat.eqb _ n); [apply near_ret|].
  destruct (contains _ l); [apply IH|]. destruct (floats E _) as [[|a [|b [|c [|]]]]|]; try apply near_err. destruct (inv_arr E lattice); [apply IH|apply near_err].
Qed.
Lemma near_mode_line E ls : near (byte_mode_line E (mkBF ls true)) (byte_mode_line E (mkBF (ls ++ more) false)).
Proof. apply near_bind; [apply near_skip|]. intros l ls'. destruct (contains _ l); apply near_plain; intros x; apply near_ret. Qed.
Lemma near_modes E k n lattice : forall ls, near0 (byte_modes E k n lattice (mkBF ls true)) (byte_modes E k n lattice (mkBF (ls ++ more) false)).
Proof.
  induction k as [|k IH]; intros ls; cbn [byte_modes]; [right; reflexivity|]. apply near_bind0; [apply near_mode_line|]. intros w ls1. cbn [bf_lines bf_broken].
  apply near_bind0; [apply near_eigen|]. intros v ls2. apply near0_bind; [apply IH|]. intros [ws vs]. right. reflexivity.
Qed.
Lemma near0_refl {A} (b : bres A) : near0 b b. Proof. right. reflexivity. Qed.
Lemma near_timestep E ls : near (byte_timestep E (mkBF ls true)) (byte_timestep E (mkBF (ls ++ more) false)).
Proof. apply near_bind; [apply near_skip|]. intros l ls'. apply near_plain. intros x. apply near_ret. Qed.
Lemma near_next_cart E n ls : near (byte_next_cart E n (mkBF ls true)) (byte_next_cart E n (mkBF (ls ++ more) false)).
Proof. apply near_bind; [apply near_line|]. intros l ls'. apply near_table. Qed.
End More.

(** a trajectory is read to the end of the file *)
Lemma skip_shortens m ls l f b : byte_skip m ls b = BOk (l, f) -> List.length (bf_lines f) < List.length ls /\ bf_broken f = b.
Proof.
  induction ls as [|x ls IH]; cbn [byte_skip]; [discriminate|]. destruct (contains m x).
  - intros H. injection H as _ <-. cbn [bf_lines bf_broken List.length]. split; [lia|reflexivity].
  - intros H. destruct (IH H). cbn [List.length]. split; [lia|assumption].
Qed.
Lemma rows_shorten E msg n : forall line f rs f', byte_table_rows E msg n line f = BOk (rs, f') -> List.length (bf_lines f') <= List.length (bf_lines f) /\ bf_broken f' = bf_broken f.
Proof.
  induction n as [|n IH]; intros line f rs f'; cbn [byte_table_rows]; [intros H; injection H as _ <-; split; [lia|reflexivity]|].
  destruct (byte_next f) as [[l f1]|] eqn:NX; [|destruct line; discriminate]. destruct (floats E _); [|discriminate].
  destruct (byte_table_rows E msg n (Some l) f1) as [[rs2 f2]|] eqn:R; cbn [bbind]; [|discriminate]. intros H. injection H as _ <-. destruct (IH _ _ _ _ R) as [L B].
  unfold byte_next in NX. destruct (bf_lines f) as [|lx lsx] eqn:F.
  - destruct (bf_broken f) eqn:FB; [discriminate|]. injection NX as <- <-. rewrite F in L. split; [exact L|congruence].
  - injection NX as <- <-. cbn [bf_lines bf_broken List.length] in *. split; [lia|exact B].
Qed.
Lemma cart_shortens E n f a f' : byte_next_cart E n f = BOk (a, f') -> List.length (bf_lines f') <= List.length (bf_lines f) /\ bf_broken f' = bf_broken f.
Proof.
  unfold byte_next_cart, byte_line, byte_table. destruct (byte_next f) as [[l f1]|] eqn:NX; cbn [bbind]; [|discriminate].
  destruct (byte_table_rows E _ n None f1) as [[rs f2]|] eqn:R; cbn [bbind]; [|discriminate]. destruct (np_rows rs); cbn [plain bbind]; [|discriminate].
  intros H. injection H as _ <-. destruct (rows_shorten _ _ _ _ _ _ _ R) as [L B].
  unfold byte_next in NX. destruct (bf_lines f) as [|lx lsx] eqn:F.
  - destruct (bf_broken f) eqn:FB; [discriminate|]. injection NX as <- <-. rewrite F in L. split; [exact L|congruence].
  - injection NX as <- <-. cbn [bf_lines bf_broken List.length] in *. split; [lia|exact B].
Qed.
Lemma blocks_break E n lattice fuel : forall ml f ps, bf_broken f = true -> List.length (bf_lines f) < fuel -> byte_blocks E fuel n lattice ml f <> BOk ps.
Proof.
  induction fuel as [|fuel IH]; intros ml f ps B L; [lia|]. cbn [byte_blocks]. rewrite B. destruct (byte_skip position_marker (bf_lines f) true) as [[l f1]|e] eqn:K.
  - destruct (skip_shortens _ _ _ _ _ K) as [L1 B1]. destruct (ml && negb _); [apply IH; [exact B1|lia]|].
    destruct (byte_next_cart E n f1) as [[cart f2]|] eqn:C; cbn [bbind]; [|discriminate]. destruct (cart_shortens _ _ _ _ _ C) as [L2 B2].
    destruct (inv_arr E lattice); cbn [plain bbind]; [|discriminate]. destruct (matmul_inv cart a); cbn [plain bbind]; [|discriminate].
    destruct (byte_blocks E fuel n lattice (contains (txt "(ML)") l) f2) as [ps2|] eqn:R; cbn [bbind]; [|discriminate].
    exfalso. apply (IH (contains (txt "(ML)") l) f2 ps2); [congruence|lia|exact R].
  - destruct e as [e| |]; try discriminate. destruct e; try discriminate. exfalso. clear - K. induction (bf_lines f) as [|x ls IH]; cbn [byte_skip] in K; [discriminate|]. destruct (contains _ x); [discriminate|auto].
Qed.

Section Blocks.
Context (more : list text).
Lemma near_blocks E n lattice fuel : forall ml ls fuel', List.length ls < fuel -> List.length (ls ++ more) < fuel' ->
  near0 (byte_blocks E fuel n lattice ml (mkBF ls true)) (byte_blocks E fuel' n lattice ml (mkBF (ls ++ more) false)).
Proof.
  induction fuel as [|fuel IH]; intros ml ls fuel' L L'; [lia|]. destruct fuel' as [|fuel']; [lia|]. cbn [byte_blocks bf_lines bf_broken].
  destruct (near_skip_raw more position_marker ls) as [(e & -> & C)|H].
  - left. destruct C as [->|[->|[m ->]]]; eexists; (split; [reflexivity|]); unfold coded; eauto.
  - destruct (byte_skip position_marker (ls ++ more) false) as [[l f1]|e] eqn:K.
    + destruct H as (ls1 & -> & H). destruct (skip_shortens _ _ _ _ _ K) as [K1 _]. destruct (skip_shortens _ _ _ _ _ H) as [K2 _]. rewrite H. cbn [bf_lines] in *.
      destruct (ml && negb _); [apply IH; lia|]. destruct (near_next_cart more E n ls1) as [(e & -> & C)|N]; [left; exists e; split; [reflexivity|exact C]|].
      destruct (byte_next_cart E n (mkBF (ls1 ++ more) false)) as [[cart f2]|e] eqn:Q; [|rewrite N; apply near0_refl].
      destruct N as (ls2 & -> & N). destruct (cart_shortens _ _ _ _ _ Q) as [Q1 _]. destruct (cart_shortens _ _ _ _ _ N) as [Q2 _]. cbn [bf_lines] in *. rewrite N. cbn [bbind].
      apply near0_bind; [apply near0_refl|]. intros i. apply near0_bind; [apply near0_refl|]. intros p. apply near0_bind; [apply IH; lia|]. intros ps. apply near0_refl.
    + rewrite H. destruct e as [[]| |]; apply near0_refl.
Qed.
End Blocks.

(** ** The public readers *)
Lemma open_more t u : ends_line (universal t) -> exists more, outcar_open (t ++ u) = (outcar_open t ++ more)%list.
Proof. intros H. destruct (universal_more t u H) as [w W]. unfold outcar_open. rewrite W, (lines_more _ _ H). eauto. Qed.
Lemma usual_lines {A} blocks t u bytes (k : bfile -> bres A) (r : res A) : utf8_text (t ++ u) bytes -> ends_line (universal t) -> outcar_stream blocks = mkBF (outcar_open t) true ->
  (forall more ls, near0 (k (mkBF ls true)) (k (mkBF (ls ++ more) false))) -> k (outcar_stream [bytes]) = plain r -> usual (k (outcar_stream blocks)) r.
Proof.
  intros T L -> N R. assert (P : outcar_stream [bytes] = mkBF (outcar_open (t ++ u)) false) by (apply stream_is; cbn [concat]; rewrite app_nil_r; exact T).
  destruct (open_more t u L) as [more M]. rewrite P, M in R. destruct (N more (outcar_open t)) as [C|H]; [left; exact C|right]. now rewrite H.
Qed.
Ltac near_step := first [eapply near_bind0; [first [eapply near_symbols|apply near_fractional|apply near_polarizability|apply near_lattice|apply near_timestep|apply near_skip]|intros ? ?]
  | apply near0_bind; [first [apply near0_refl|apply near_modes]|intros ?] | apply near0_refl].

Definition traj_of (E : env) (f : bfile) : bres ntrajectory :=
  let^ (symbols, f1) := byte_outcar_symbols f in
  let^ (timestep, f2) := byte_timestep E f1 in
  let^ (lattice, f3) := byte_outcar_lattice E f2 in
  let^ ps := byte_blocks E (S (List.length (bf_lines f3))) (List.length symbols) lattice false f3 in
  match ps with
  | [] => plain (Err (InvalidFileException (txt "no trajectory found")))
  | _ => let^ ts := plain (np_stack ps) in plain (trajectory_of ts timestep)
  end.
Definition keeps {A} (b : bres (A * bfile)) : Prop := match b with BOk (_, f) => bf_broken f = true | BErr _ => True end.
Lemma near_keeps {A} more (bt bf : bres (A * bfile)) : near more bt bf -> keeps bt.
Proof. intros [(e & -> & _)|H]; [exact I|]. destruct bf as [[a f]|e]; [destruct H as (ls & _ & ->); reflexivity|subst; exact I]. Qed.
Lemma traj_breaks E ls r : traj_of E (mkBF ls true) <> BOk r.
Proof.
  unfold traj_of. pose proof (near_keeps _ _ _ (near_symbols [] ls)) as K. destruct (byte_outcar_symbols (mkBF ls true)) as [[ss [l1 b1]]|]; cbn [bbind]; [|discriminate]. cbn in K; subst b1.
  pose proof (near_keeps _ _ _ (near_timestep [] E l1)) as K. destruct (byte_timestep E (mkBF l1 true)) as [[dt [l2 b2]]|]; cbn [bbind]; [|discriminate]. cbn in K; subst b2.
  pose proof (near_keeps _ _ _ (near_lattice [] E l2)) as K. destruct (byte_outcar_lattice E (mkBF l2 true)) as [[la [l3 b3]]|]; cbn [bbind]; [|discriminate]. cbn in K; subst b3.
  destruct (byte_blocks E _ _ la false (mkBF l3 true)) as [ps|] eqn:B; cbn [bbind]; [|discriminate]. exfalso. revert B. apply blocks_break; [reflexivity|cbn; lia].
Qed.

Lemma f_outcar_undecodable A (mk : list Z -> narr -> narr -> res A) blocks : (forall t, ~ utf8_text t (concat blocks)) ->
  exists t, begins t (concat blocks) /\ forall E u bytes, utf8_text u bytes ->
    usual (outcar_positions_file E blocks) (outcar_read_positions E (t ++ u)) /\
    usual (outcar_positions_and_polarizability_file E blocks) (outcar_read_positions_and_polarizability E (t ++ u)) /\
    usual (outcar_structure_and_polarizability_file E blocks) (outcar_read_structure_and_polarizability E (t ++ u)) /\
    usual (outcar_ref_structure_file mk E blocks) (outcar_read_ref_structure mk E (t ++ u)) /\
    usual (outcar_phonons_file E blocks) (outcar_read_phonons E (t ++ u)) /\
    usual (outcar_trajectory_file E blocks) (outcar_read_trajectory E (t ++ u)) /\
    forall r, outcar_trajectory_file E blocks <> BOk r.
Proof.
  intros NT. destruct (stream_cases blocks) as [(t & T & _)|(_ & t & B & L & S)]; [elim (NT t T)|]. exists t. split; [exact B|]. intros E u more X.
  destruct B as (pre & rest & _ & T). assert (T0 : utf8_text (t ++ u) (pre ++ more)) by (apply utf8_text_app; assumption). assert (T1 : utf8_text (t ++ u) (concat [pre ++ more])) by (cbn [concat]; rewrite app_nil_r; exact T0). clear T.
  destruct (f_outcar_bytes E [pre ++ more] (t ++ u) T1) as [R1 R2]. destruct (f_outcar_structure_bytes A mk E [pre ++ more] (t ++ u) T1) as [R3 R4].
  pose proof (f_outcar_phonons_bytes E [pre ++ more] (t ++ u) T1) as R5. pose proof (f_outcar_trajectory_bytes E [pre ++ more] (t ++ u) T1) as R6.
  split; [|split; [|split; [|split; [|split; [|split]]]]].
  - refine (usual_lines blocks t u (pre ++ more) (fun f => let^ (symbols, f1) := byte_outcar_symbols f in
      let^ (positions, _) := byte_fractional E (List.length symbols) f1 in BOk positions) _ T0 L S _ R1). intros w ls. repeat near_step.
  - refine (usual_lines blocks t u (pre ++ more) (fun f => let^ (symbols, f1) := byte_outcar_symbols f in
      let^ (positions, f2) := byte_fractional E (List.length symbols) f1 in
      let^ (polarizability, _) := byte_polarizability E f2 in BOk (positions, polarizability)) _ T0 L S _ R2). intros w ls. repeat near_step.
  - refine (usual_lines blocks t u (pre ++ more) (fun f => let^ (symbols, f1) := byte_outcar_symbols f in
      let^ (lattice, f2) := byte_outcar_lattice E f1 in
      let^ (positions, f3) := byte_fractional E (List.length symbols) f2 in
      let^ (polarizability, _) := byte_polarizability E f3 in BOk (lattice, numbers_of symbols, positions, polarizability)) _ T0 L S _ R3). intros w ls. repeat near_step.
  - refine (usual_lines blocks t u (pre ++ more) (fun f => let^ (symbols, f1) := byte_outcar_symbols f in
      let^ (lattice, f2) := byte_outcar_lattice E f1 in
      let^ (positions, _) := byte_fractional E (List.length symbols) f2 in plain (mk (numbers_of symbols) lattice positions)) _ T0 L S _ R4). intros w ls. repeat near_step.
  - refine (usual_lines blocks t u (pre ++ more) (fun f => let^ (symbols, f1) := byte_outcar_symbols f in
      let^ weights := plain (mapM atomic_weight symbols) in
      let n := List.length symbols in
      let^ (lattice, f2) := byte_outcar_lattice E f1 in
      let^ (ref, f3) := byte_fractional E n f2 in
      let^ (_, f4) := byte_or_invalid (txt "eigenvector/eigenvalues block not found") (skip "Eigenvectors and eigenvalues of the dynamical matrix" f3) in
      let^ (ws, vs) := byte_modes E (n * 3) n lattice f4 in
      let^ ev := plain (np_stack vs) in
      let^ disp := plain (div_weights ev weights) in
      plain (phonons_of ref (mkNarr [List.length ws] ws) disp)) _ T0 L S _ R5).
    intros w ls. near_step. near_step. near_step. near_step. near_step. near_step. match goal with p : list num * list narr |- _ => destruct p end. repeat near_step.
  - refine (usual_lines blocks t u (pre ++ more) (traj_of E) _ T0 L S _ R6). intros w ls. unfold traj_of. repeat near_step. cbn [bf_lines]. apply near0_bind; [apply near_blocks; lia|intros ps]. repeat near_step.
  - intros r. change (outcar_trajectory_file E blocks) with (traj_of E (outcar_stream blocks)). rewrite S. apply traj_breaks.
Qed.

(** ** Consequences for files of any bytes *)
Lemma text_or_not blocks : (exists t, utf8_text t (concat blocks)) \/ forall t, ~ utf8_text t (concat blocks).
Proof. destruct (stream_cases blocks) as [(t & T & _)|(N & _)]; [left; exists t; exact T|right; exact N]. Qed.
Lemma begins_all t bs : utf8_text t bs -> begins t bs.
Proof. intros H. exists bs, []. split; [symmetry; apply app_nil_r|exact H]. Qed.
Lemma usual_ok {A} (b : bres A) r a : usual b r -> b = BOk a -> r = Ok a.
Proof. intros [(e & -> & _)| ->] H; [discriminate|]. destruct r; [injection H as ->; reflexivity|discriminate]. Qed.
Lemma plain_ok {A} (r : res A) a : plain r = BOk a -> r = Ok a.
Proof. destruct r; [intros H; injection H as ->; reflexivity|discriminate]. Qed.
Lemma f_outcar_sound A (mk : list Z -> narr -> narr -> res A) blocks : exists t, begins t (concat blocks) /\ forall E,
  (forall p, outcar_positions_file E blocks = BOk p -> outcar_read_positions E t = Ok p) /\
  (forall p, outcar_positions_and_polarizability_file E blocks = BOk p -> outcar_read_positions_and_polarizability E t = Ok p) /\
  (forall p, outcar_structure_and_polarizability_file E blocks = BOk p -> outcar_read_structure_and_polarizability E t = Ok p) /\
  (forall p, outcar_ref_structure_file mk E blocks = BOk p -> outcar_read_ref_structure mk E t = Ok p) /\
  (forall p, outcar_phonons_file E blocks = BOk p -> outcar_read_phonons E t = Ok p).
Proof.
  destruct (text_or_not blocks) as [(t & T)|N].
  - exists t. split; [apply begins_all, T|]. intros E. destruct (f_outcar_bytes E _ _ T) as [-> ->]. destruct (f_outcar_structure_bytes A mk E _ _ T) as [-> ->]. rewrite (f_outcar_phonons_bytes E _ _ T).
    repeat split; intros p; apply plain_ok.
  - destruct (f_outcar_undecodable A mk blocks N) as (t & B & H). exists t. split; [exact B|]. intros E. destruct (H E [] [] utf8_empty) as (H1 & H2 & H3 & H4 & H5 & _). rewrite app_nil_r in *.
    repeat split; intros p; apply usual_ok; assumption.
Qed.
Lemma f_trajectory_whole E blocks r : outcar_trajectory_file E blocks = BOk r -> exists t, utf8_text t (concat blocks) /\ outcar_read_trajectory E t = Ok r.
Proof.
  intros H. destruct (text_or_not blocks) as [(t & T)|N].
  - exists t. split; [exact T|]. rewrite (f_outcar_trajectory_bytes E _ _ T) in H. apply plain_ok, H.
  - destruct (f_outcar_undecodable unit (fun _ _ _ => Err ValueError) blocks N) as (t & _ & K). destruct (K E [] [] utf8_empty) as (_ & _ & _ & _ & _ & _ & NO). elim (NO r H).
Qed.
Lemma f_phonons_bytes_errors E blocks e : outcar_phonons_file E blocks = BErr e ->
  (exists m, e = Plain (InvalidFileException m)) \/ e = Plain ValueError \/ e = UnicodeDecodeError \/ e = UnboundLocalError.
Proof.
  intros H. assert (K : exists t, usual (outcar_phonons_file E blocks) (outcar_read_phonons E t)).
  { destruct (text_or_not blocks) as [(t & T)|N]; [exists t; right; apply (f_outcar_phonons_bytes E _ _ T)|].
    destruct (f_outcar_undecodable unit (fun _ _ _ => Err ValueError) blocks N) as (t & _ & K). exists (t ++ []). apply (K E [] [] utf8_empty). }
  destruct K as (t & [(e' & H' & C)|K]).
  - rewrite H in H'. injection H' as <-. destruct C as [->|[->|C]]; auto.
  - rewrite H in K. destruct (outcar_read_phonons E t) as [|x] eqn:R; [discriminate|]. injection K as ->. destruct (f_phonon_errors _ _ _ R) as [[m ->]| ->]; eauto.
Qed.
Lemma f_trajectory_bytes_errors E blocks e : outcar_trajectory_file E blocks = BErr e ->
  (exists m, e = Plain (InvalidFileException m)) \/ e = Plain ValueError \/ e = Plain LinAlgError \/ e = UnicodeDecodeError \/ e = UnboundLocalError.
Proof.
  intros H. assert (K : exists t, usual (outcar_trajectory_file E blocks) (outcar_read_trajectory E t)).
  { destruct (text_or_not blocks) as [(t & T)|N]; [exists t; right; apply (f_outcar_trajectory_bytes E _ _ T)|].
    destruct (f_outcar_undecodable unit (fun _ _ _ => Err ValueError) blocks N) as (t & _ & K). exists (t ++ []). apply (K E [] [] utf8_empty). }
  destruct K as (t & [(e' & H' & C)|K]).
  - rewrite H in H'. injection H' as <-. destruct C as [->|[->|C]]; auto.
  - rewrite H in K. destruct (outcar_read_trajectory E t) as [|x] eqn:R; [discriminate|]. injection K as ->. destruct (f_trajectory_errors _ _ _ R) as [[m ->]|[->| ->]]; eauto 6.
Qed.
