(** Errors of the OUTCAR readers for files of any bytes (C58), and concrete files. *)
From Coq Require Import String Ascii ZArith NArith QArith Qreals Reals Bool Arith List Lia.
From Verif Require Import Base LinAlg Constants M_Validate M_StructUtils M_Text M_Poscar M_Outcar M_Bytes M_BytesOutcar S_Bytes S_Cut S_Outcar P_Bytes P_Bytes2 P_Bytes3 P_BytesOutcar P_BytesOutcar2
  P_Outcar P_Outcar2 P_Outcar3 P_Outcar4 P_Examples7.
Import ListNotations.
Local Open Scope nat_scope.

Definition expected (e : byte_exn) : Prop := (exists m, e = Plain (InvalidFileException m)) \/ e = Plain ValueError \/ e = UnicodeDecodeError \/ e = UnboundLocalError.
Definition fine {A} (b : bres A) : Prop := match b with BOk _ => True | BErr e => expected e end.
Lemma fine_bind {A B} (b : bres A) (k : A -> bres B) : fine b -> (forall a, fine (k a)) -> fine (bbind b k).
Proof. destruct b; cbn; auto. Qed.
Lemma fine_invalid {A} msg l : fine (plain (@invalid A msg l)).
Proof. left. eexists. reflexivity. Qed.
Lemma fine_handler {A} msg l : fine (@handler A msg l).
Proof. destruct l; [apply fine_invalid|]. right. right. right. reflexivity. Qed.
Lemma skip_cases m ls b : match byte_skip m ls b with BOk _ => True | BErr e => e = UnicodeDecodeError \/ e = Plain NoMatchingLineFoundException end.
Proof. induction ls as [|l ls IH]; cbn; [destruct b; auto|]. destruct (contains m l); [exact I|exact IH]. Qed.
Lemma fine_skip msg m f : fine (byte_or_invalid msg (skip m f)).
Proof.
  unfold skip. pose proof (skip_cases (txt m) (bf_lines f) (bf_broken f)) as H. destruct (byte_skip _ _ _) as [|e]; [exact I|]. destruct H as [->| ->]; cbn; [right; right; left; reflexivity|left; eexists; reflexivity].
Qed.
Lemma fine_potcar ls b : forall line, fine (byte_potcar line ls b).
Proof.
  induction ls as [|l ls IH]; intros line; cbn [byte_potcar]; [destruct b; [apply fine_invalid|exact I]|]. destruct (contains _ l); [|exact I]. destruct (potcar_symbol l); [|apply fine_invalid].
  apply fine_bind; [apply IH|]. intros [[? ?] ?]. exact I.
Qed.
Lemma fine_symbols f : fine (byte_outcar_symbols f).
Proof.
  unfold byte_outcar_symbols. pose proof (fine_skip (txt "POTCAR block not found") "POTCAR:    " f) as H. destruct (byte_or_invalid _ _) as [[l f1]|e].
  - destruct (potcar_symbol l); [|apply fine_invalid]. apply fine_bind; [apply fine_potcar|]. intros [[ss line] f2]. destruct (byte_next f2) as [[l3 f3]|]; [|apply fine_invalid].
    apply fine_bind; [apply fine_skip|]. intros [l4 f4]. destruct (ints _); [exact I|right; left; reflexivity].
  - destruct e; try exact H. right. right. right. reflexivity.
Qed.
Lemma fine_rows E msg n : forall line f, fine (byte_table_rows E msg n line f).
Proof.
  induction n as [|n IH]; intros line f; cbn [byte_table_rows]; [exact I|]. destruct (byte_next f) as [[l f1]|]; [|apply fine_handler]. destruct (floats E _); [|apply fine_invalid].
  apply fine_bind; [apply IH|]. intros [? ?]. exact I.
Qed.
Lemma fine_table E msg n f : fine (byte_table E msg n f).
Proof.
  apply fine_bind; [apply fine_rows|]. intros [rs f1]. apply fine_bind; [|intros; exact I]. destruct rs as [|r rs]; cbn [np_rows]; [exact I|]. destruct (forallb _ rs); [exact I|right; left; reflexivity].
Qed.
Lemma fine_line f : fine (byte_line f).
Proof. unfold byte_line. destruct (byte_next f); [exact I|right; right; left; reflexivity]. Qed.
Lemma fine_fractional E n f : fine (byte_fractional E n f).
Proof. apply fine_bind; [apply fine_skip|]. intros [l f1]. apply fine_table. Qed.
Lemma fine_polarizability E f : fine (byte_polarizability E f).
Proof. apply fine_bind; [apply fine_skip|]. intros [l f1]. apply fine_bind; [apply fine_line|]. intros [l2 f2]. apply fine_table. Qed.
Lemma fine_lattice E f : fine (byte_outcar_lattice E f).
Proof.
  apply fine_bind; [|intros [l f1]; apply fine_table]. unfold skip. pose proof (skip_cases (txt "Write flags") (bf_lines f) (bf_broken f)) as H. destruct (byte_skip _ _ _) as [[l0 f0]|e]; cbn [bbind].
  - apply (fine_skip _ "direct lattice vectors      " f0).
  - destruct H as [->| ->]; cbn; [right; right; left; reflexivity|left; eexists; reflexivity].
Qed.
Lemma f_outcar_bytes_errors E blocks e :
  outcar_positions_file E blocks = BErr e \/ outcar_positions_and_polarizability_file E blocks = BErr e \/
  outcar_structure_and_polarizability_file E blocks = BErr e ->
  (exists m, e = Plain (InvalidFileException m)) \/ e = Plain ValueError \/ e = UnicodeDecodeError \/ e = UnboundLocalError.
Proof.
  assert (F : forall A (b : bres A), fine b -> b = BErr e -> expected e) by (intros A b H ->; exact H).
  intros [H|[H|H]]; revert H; apply F.
  - apply fine_bind; [apply fine_symbols|]. intros [s f]. apply fine_bind; [apply fine_fractional|]. intros [p f2]. exact I.
  - apply fine_bind; [apply fine_symbols|]. intros [s f]. apply fine_bind; [apply fine_fractional|]. intros [p f2]. apply fine_bind; [apply fine_polarizability|]. intros [a f3]. exact I.
  - apply fine_bind; [apply fine_symbols|]. intros [s f]. apply fine_bind; [apply fine_lattice|]. intros [l f1]. apply fine_bind; [apply fine_fractional|]. intros [p f2]. apply fine_bind; [apply fine_polarizability|]. intros [a f3]. exact I.
Qed.

(** An OUTCAR followed by a Latin-1 letter *)
Definition o_bytes : list N := concat o_file.
Lemma o_utf8 : utf8_text o_bytes (concat [o_bytes]).
Proof. cbn [concat]. rewrite app_nil_r. apply decode_iff. vm_compute. reflexivity. Qed.
Lemma o_ends : at_line_end o_bytes.
Proof. exists (removelast o_bytes). vm_compute. reflexivity. Qed.
Lemma o_positions : exists p, outcar_read_positions oE o_bytes = Ok p /\ na_shape p = [2; 3].
Proof.
  destruct ex_C58 as (r & H1 & H2 & H3 & H4 & H5 & H6). eexists. split; [apply (f_C58_complete oE o_bytes _ _ _ _ _ _ _ H1 H2 H3 H4 H5 H6)|reflexivity].
Qed.
Lemma ex_outcar_prefix : utf8_text o_bytes (concat [o_bytes]) /\ at_line_end o_bytes /\ exists p, outcar_read_positions oE o_bytes = Ok p /\ na_shape p = [2; 3].
Proof. split; [exact o_utf8|]. split; [exact o_ends|exact o_positions]. Qed.
Lemma o_hopeless : hopeless (o_bytes ++ [233; 10]%N).
Proof. intros more t U. apply decode_iff in U. rewrite <- app_assoc in U. cbn [app] in U. rewrite decode_app in U. rewrite (decode_text _ _ ltac:(pose proof o_utf8 as Q; cbn [concat] in Q; rewrite app_nil_r in Q; exact Q)) in U. cbn [app utf8_decode] in U. vm_compute in U. discriminate. Qed.
Lemma f_outcar_blocks_matter : exists E blocks blocks' p, concat blocks = concat blocks' /\
  outcar_positions_file E blocks = BOk p /\ outcar_positions_file E blocks' = BErr UnboundLocalError.
Proof.
  destruct o_positions as (p & R & S). exists oE, [o_bytes; [233; 10]%N], [o_bytes ++ [233; 10]%N], p. split; [cbn [concat]; rewrite !app_nil_r; reflexivity|]. split.
  - apply (f_prefix_positions oE [o_bytes] [[233; 10]%N] o_bytes p 2 o_utf8 o_ends R S).
  - apply (f_outcar_other unit (fun _ _ _ => Err ValueError) oE _ [] o_hopeless).
Qed.
