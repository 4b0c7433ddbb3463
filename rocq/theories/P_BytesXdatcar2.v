(** Errors and concrete XDATCAR files for C53. *)
From Coq Require Import String Ascii ZArith NArith QArith Qreals Reals Bool Arith List Lia.
From Verif Require Import Base LinAlg Constants M_Validate M_StructUtils M_Text M_Poscar M_Outcar M_Bytes M_BytesOutcar S_Bytes S_BytesOutcar S_Cut
  P_Bytes P_Bytes2 P_BytesOutcar P_BytesOutcar5 P_BytesXdatcar P_Examples22.
Import ListNotations.
Local Open Scope nat_scope.

Definition xdatcar_error (e : byte_exn) : Prop := coded e \/ e = Plain ValueError \/ e = Plain IndexError \/ e = Plain LinAlgError.
Lemma invalid_error {A} msg d e : plain (@invalid A msg d) = BErr e -> xdatcar_error e.
Proof. intros H. injection H as <-. left. right. right. eexists. reflexivity. Qed.
Lemma handler_error {A} msg line e : @handler A msg line = BErr e -> xdatcar_error e.
Proof. destruct line; [apply invalid_error|]. intros H. injection H as <-. left. right. left. reflexivity. Qed.
Lemma raw_error st e : raw_line st = BErr e -> xdatcar_error e.
Proof. unfold raw_line. destruct (stream_readline st); [discriminate|]. intros H. injection H as <-. left. left. reflexivity. Qed.
Lemma rows_error E msg n : forall line st e, byte_rows E msg n line st = BErr e -> xdatcar_error e.
Proof.
  induction n as [|n IH]; intros line st e R; cbn [byte_rows] in R; [discriminate|]. unfold byte_row in R. destruct (stream_readline st) as [[l st1]|].
  - destruct (floats E (firstn 3 (split l))) as [[|a [|b [|c [|d z]]]]|]; cbn [bbind] in R; try (injection R as <-; left; right; right; eexists; reflexivity).
    destruct (byte_rows E msg n (Some l) st1) as [[vs st2]|e'] eqn:R1; [discriminate|]. cbn [bbind] in R. injection R as <-. eapply IH, R1.
  - destruct line; cbn [handler plain invalid bbind] in R; injection R as <-; left; right; [right; eexists|left]; reflexivity.
Qed.
Lemma lattice_error E st e : byte_lattice E st = BErr e -> xdatcar_error e.
Proof.
  unfold byte_lattice. destruct (stream_readline st) as [[l st1]|]; [|apply handler_error]. destruct (stream_readline st1) as [[l2 st2]|]; [|apply handler_error].
  destruct (float_of (e_fl E) l2); [|apply invalid_error]. destruct (byte_rows E _ 3 (Some l2) st2) as [[vs st3]|e'] eqn:R; [discriminate|]. cbn [bbind]. intros H. injection H as <-. eapply rows_error, R.
Qed.
Lemma symbols_error st e : byte_symbols st = BErr e -> xdatcar_error e.
Proof.
  unfold byte_symbols. destruct (raw_line st) as [[l st1]|e'] eqn:R; cbn [bbind]; [|intros H; injection H as <-; eapply raw_error, R]. destruct (split l); [apply invalid_error|]. destruct (find _ _); [apply invalid_error|].
  destruct (raw_line st1) as [[l2 st2]|e'] eqn:R2; cbn [bbind]; [|intros H; injection H as <-; eapply raw_error, R2]. destruct (negb _); [apply invalid_error|]. destruct (ints _); [discriminate|apply invalid_error].
Qed.
Lemma mode_error st e : byte_mode st = BErr e -> xdatcar_error e.
Proof.
  unfold byte_mode. destruct (raw_line st) as [[l st1]|e'] eqn:R; cbn [bbind]; [|intros H; injection H as <-; eapply raw_error, R]. destruct l as [|c l]; [apply invalid_error|]. destruct (is_space c); [apply invalid_error|].
  destruct (N.eqb (lower c) 115).
  - destruct (raw_line st1) as [[l2 st2]|e'] eqn:R2; cbn [bbind]; [|intros H; injection H as <-; eapply raw_error, R2]. destruct l2 as [|c' l2]; [intros H; injection H as <-; right; right; left; reflexivity|].
    destruct (N.eqb (lower c') 99); [discriminate|]. destruct (N.eqb (lower c') 100); [discriminate|apply invalid_error].
  - cbn [bbind]. destruct (N.eqb (lower c) 99); [discriminate|]. destruct (N.eqb (lower c) 100); [discriminate|apply invalid_error].
Qed.
Lemma inv_error E l e : np_inv E l = Err e -> e = LinAlgError.
Proof. unfold np_inv. destruct (finite33 l) as [m|]; [unfold minv; destruct (Req_EM_T _ _); cbn; congruence|destruct (e_inv E l); congruence]. Qed.
Lemma positions_error E lattice n st e : byte_positions E lattice n st = BErr e -> xdatcar_error e.
Proof.
  unfold byte_positions. destruct (byte_mode st) as [[cart st1]|e'] eqn:R; cbn [bbind]; [|intros H; injection H as <-; eapply mode_error, R].
  destruct (byte_rows E _ n None st1) as [[rows st2]|e'] eqn:R2; cbn [bbind]; [|intros H; injection H as <-; eapply rows_error, R2]. destruct cart; [|discriminate].
  destruct (np_inv E lattice) as [i|e'] eqn:R3; cbn [plain bbind]; [|apply inv_error in R3; subst e'; intros H; injection H as <-; right; right; right; reflexivity].
  destruct rows; [|discriminate]. intros H. injection H as <-. right. left. reflexivity.
Qed.
Lemma configs_error E lattice n : forall f st e, byte_configs E f lattice n st = BErr e -> xdatcar_error e.
Proof.
  induction f as [|f IH]; intros st e; cbn [byte_configs]; [discriminate|]. destruct (byte_positions E lattice n st) as [[p st1]|e'] eqn:R.
  - destruct (byte_configs E f lattice n st1) eqn:R1; [discriminate|]. cbn [bbind]. intros H. injection H as <-. eapply IH, R1.
  - apply positions_error in R. destruct e' as [e'| |]; [destruct e'| |]; try (intros H; injection H as <-; exact R). destruct (contains _ _); [discriminate|]. intros H. injection H as <-. exact R.
Qed.
Lemma f_C53_bytes_errors E blocks e : read_trajectory_file E blocks = BErr e ->
  (exists m, e = Plain (InvalidFileException m)) \/ e = Plain ValueError \/ e = Plain IndexError \/ e = Plain LinAlgError \/ e = UnicodeDecodeError \/ e = UnboundLocalError.
Proof.
  intros R. assert (H : xdatcar_error e).
  { unfold read_trajectory_file in R. destruct (byte_lattice E (open_file blocks)) as [[lat st1]|e'] eqn:R1; cbn [bbind] in R; [|injection R as <-; eapply lattice_error, R1].
    destruct (byte_symbols st1) as [[sym st2]|e'] eqn:R2; cbn [bbind] in R; [|injection R as <-; eapply symbols_error, R2]. eapply configs_error, R. }
  destruct H as [[H | [H | H]] | [H | [H | H]]]; auto 7.
Qed.

(** ** A file of one atom, two configurations *)
Definition x_lines (l : list string) : text := flat_map (fun s => txt s ++ [10%N])%list l.
Definition x_head : text := x_lines ["x"; "1"; "1 0 0"; "0 1 0"; "0 0 1"; "H"; "2"; "Direct configuration= 1"; "0 0 0"; "1 1 1"; "Direct configuration= 2"]%string.
Definition x_good : text := x_lines ["0 0 0"; "1 1 1"; ""]%string.
Definition x_odd : text := x_lines ["0 0 0 missing first character in coordinate format:"]%string.
Lemma x_bad t : Forall (fun c => (c < 128)%N) t -> forall u, ~ utf8_text u (concat [t; [233; 10]%N]).
Proof.
  intros H u U. apply decode_iff in U. cbn [concat] in U. revert u U. induction H as [|c t Hc _ IH]; intros u U; [vm_compute in U; discriminate|].
  cbn [app utf8_decode] in U. apply N.ltb_lt in Hc. rewrite Hc in U. cbn [app] in IH. destruct (utf8_decode _) as [[w h]|] eqn:D; [|discriminate]. cbn [emit] in U. injection U as <- ->. apply (IH w). reflexivity.
Qed.
Lemma ascii_ok t : forallb (fun c => (c <? 128)%N) t = true -> Forall (fun c => (c < 128)%N) t.
Proof. intros H. apply Forall_forall. intros c Hc. apply N.ltb_lt. rewrite forallb_forall in H. apply H, Hc. Qed.
Definition count {A} (r : bres (list A)) : option nat := match r with BOk l => Some (List.length l) | BErr _ => None end.
Lemma count_ok {A} (r : bres (list A)) n : count r = Some n -> exists l, r = BOk l /\ List.length l = n.
Proof. destruct r as [l|]; [|discriminate]. intros H. injection H as <-. exists l. auto. Qed.
Lemma ex_C53_sound : (forall u, ~ utf8_text u (concat [x_head ++ x_good; [233; 10]%N])) /\
  exists ps, read_trajectory_file byE [x_head ++ x_good; [233; 10]%N] = BOk ps /\ List.length ps = 2.
Proof. split; [apply x_bad, ascii_ok; vm_compute; reflexivity|]. apply count_ok. vm_compute. reflexivity. Qed.
Lemma f_C53_lost : (forall u, ~ utf8_text u (concat [x_head ++ x_odd; [233; 10]%N])) /\
  exists ps, read_trajectory_file byE [x_head ++ x_odd; [233; 10]%N] = BOk ps /\ List.length ps = 1.
Proof. split; [apply x_bad, ascii_ok; vm_compute; reflexivity|]. apply count_ok. vm_compute. reflexivity. Qed.
Lemma ex_C53_error : read_trajectory_file byE [x_head ++ txt "0 0 0" ++ [10%N] ++ txt "1 1 1" ++ [10%N]; [233; 10]%N] = BErr UnicodeDecodeError.
Proof. vm_compute. reflexivity. Qed.
