(** Proofs about files as bytes: what is written can always be encoded and is read back. *)
From Coq Require Import String Ascii ZArith NArith Reals Bool Arith List Lia.
From Verif Require Import Base LinAlg Constants M_Validate M_Text M_Poscar M_Files M_Bytes S_Text S_Files S_Cut S_Bytes P_Text P_Poscar P_Poscar2 P_Poscar3 P_Poscar4 P_Cut P_Cut2 P_Cut3 P_Bytes P_Bytes2.
Import ListNotations.
Local Open Scope N_scope.

Definition low (t : text) : Prop := Forall (fun c => c < 128) t.
Lemma low_app a b : low a -> low b -> low (a ++ b). Proof. intros H1 H2. apply Forall_app. auto. Qed.
Lemma low_flat {A} (f : A -> text) l : (forall x, low (f x)) -> low (flat_map f l).
Proof. intros H. induction l as [|x l IH]; [constructor|]. cbn [flat_map]. apply low_app; auto. Qed.
Lemma low_digits ds : Forall digit ds -> low (map digit_char ds).
Proof. induction 1 as [|d ds H _ IH]; [constructor|]. cbn [map]. constructor; [unfold digit_char, digit in *; lia|exact IH]. Qed.
Lemma low_spaces n : low (repeat 32 n). Proof. induction n; constructor; [lia|assumption]. Qed.
Lemma low_fmt x : low (fmt_f16 x).
Proof.
  unfold fmt_f16, pad_left. apply low_app; [apply low_spaces|]. destruct x as [r|b|]; cbn [fmt_body].
  - set (n := Z.to_N _). clearbody n. repeat apply low_app.
    + destruct (Rltb r 0); repeat constructor.
    + apply low_digits. apply dec_digits_spec.
    + constructor; [reflexivity|]. apply low_digits. apply fixed_digits.
  - apply low_app; [destruct b; repeat constructor|repeat constructor].
  - repeat constructor.
Qed.
Local Opaque fmt_f16.
Lemma low_row i v : low i -> low (row_str i v).
Proof. intros H. unfold row_str. repeat apply low_app; auto using low_fmt; repeat constructor. Qed.
Lemma low_lattice l : low (lattice_str l). Proof. apply low_flat. intros v. apply low_row. repeat constructor. Qed.
Lemma low_positions l : low (positions_str l). Proof. apply low_flat. intros v. apply low_row. repeat constructor. Qed.
Local Opaque lattice_str positions_str.
Lemma low_int z : low (str_int z).
Proof. unfold str_int. apply low_app; [destruct (z <? 0)%Z; repeat constructor|]. apply low_digits. apply dec_digits_spec. Qed.
Local Opaque str_int.
Lemma low_table : forallb (fun e => forallb (fun c => c <? 128) (txt (fst e))) atomic_numbers = true.
Proof. vm_compute. reflexivity. Qed.
Lemma low_symbol n s : atom_symbol n = Ok s -> low (txt s).
Proof.
  unfold atom_symbol, atom_symbol_opt. destruct (find _ atomic_numbers) as [e|] eqn:F; [|discriminate]. intros H. injection H as <-.
  apply find_some in F. destruct F as [F _]. pose proof low_table as T. rewrite forallb_forall in T. specialize (T e F). rewrite forallb_forall in T.
  apply Forall_forall. intros c I. apply N.ltb_lt. auto.
Qed.
Lemma low_join sep l : low sep -> Forall low l -> low (join sep l).
Proof.
  intros S. induction 1 as [|a l H F IH]; [constructor|]. cbn [join]. destruct l; [exact H|]. repeat apply low_app; auto.
Qed.
Lemma low_mapM l : forall r, mapM (fun n => rmap txt (atom_symbol n)) l = Ok r -> Forall low r.
Proof.
  induction l as [|n l IH]; intros r H; cbn [mapM] in H; [injection H as <-; constructor|].
  destruct (atom_symbol n) as [s|] eqn:A; cbn [rmap rbind] in H; [|discriminate]. destruct (mapM _ l) as [r'|]; cbn [rbind] in H; [|discriminate].
  injection H as <-. constructor; [eapply low_symbol; exact A|auto].
Qed.
Lemma low_symbols numbers s : get_symbols_str numbers = Ok s -> low s.
Proof.
  unfold get_symbols_str. destruct numbers as [|n l]; [discriminate|]. destruct (group_loop [] n (n :: l)) as [u|]; cbn [rbind]; [|discriminate].
  destruct (mapM _ u) as [r|] eqn:M; cbn [rbind]; [|discriminate]. intros H. apply (f_equal (fun r => match r with Ok x => x | Err _ => [] end)) in H. rewrite <- H.
  apply low_mapM in M. repeat apply low_app; try (repeat constructor; fail).
  - apply low_join; [repeat constructor|exact M].
  - apply low_join; [repeat constructor|]. apply Forall_forall. intros t I. apply in_map_iff in I. destruct I as (x & <- & _). apply low_int.
Qed.
Lemma low_frames fs : forall i, low (concat (config_pieces i fs)).
Proof.
  induction fs as [|f fs IH]; intros i; cbn [config_pieces concat]; [constructor|]. apply low_app; [|apply low_app; [apply low_positions|apply IH]].
  unfold config_label, pad_left. repeat apply low_app; auto using low_spaces, low_int; repeat constructor.
Qed.
(** every file written is a first line made from the label, then ASCII *)
Lemma structure_parts E lattice numbers positions label pieces : structure_pieces E lattice numbers positions label = Ok pieces ->
  exists tail, concat pieces = (repr_body (e_printable E) label ++ NL :: tail)%list /\ low tail.
Proof.
  unfold structure_pieces. destruct (verify_structure _ _ _); cbn [rbind]; [|discriminate].
  destruct (get_symbols_str numbers) as [sym|] eqn:G; cbn [rbind]; [|discriminate]. intros H.
  apply (f_equal (fun r => match r with Ok x => x | Err _ => [] end)) in H. rewrite <- H. unfold header. cbn [app concat].
  rewrite <- app_assoc. cbn [app]. eexists. split; [reflexivity|]. apply low_symbols in G.
  repeat apply low_app; auto using low_lattice, low_positions; repeat constructor.
Qed.
Lemma trajectory_parts E lattice numbers pts label pieces : trajectory_pieces E lattice numbers pts label = Ok pieces ->
  exists tail, concat pieces = (repr_body (e_printable E) label ++ NL :: tail)%list /\ low tail.
Proof.
  unfold trajectory_pieces. destruct (verify_trajectory _ _ _); cbn [rbind]; [|discriminate].
  destruct (get_symbols_str numbers) as [sym|] eqn:G; cbn [rbind]; [|discriminate]. intros H.
  apply (f_equal (fun r => match r with Ok x => x | Err _ => [] end)) in H. rewrite <- H. unfold header. cbn [app concat].
  rewrite <- app_assoc. cbn [app]. eexists. split; [reflexivity|]. apply low_symbols in G.
  repeat apply low_app; auto using low_lattice, low_frames; repeat constructor.
Qed.
Lemma low_scalar t : low t -> Forall scalar t.
Proof. apply Forall_impl. intros c H. left. lia. Qed.
Lemma low_hex w : forall n, low (hex w n).
Proof.
  induction w as [|w IH]; intros n; [constructor|]. cbn [hex]. apply low_app; [apply IH|]. constructor; [|constructor].
  unfold hex_char. pose proof (N.mod_lt n 16 ltac:(discriminate)). destruct (n mod 16 <? 10); lia.
Qed.
Lemma char_scalar pr q c : (forall c, pr c = true -> scalar c) -> q = 39 \/ q = 34 -> Forall scalar (repr_char pr q c).
Proof.
  intros P Q. unfold repr_char. assert (LQ : low [92; q]) by (destruct Q; subst; repeat constructor).
  destruct (N.eqb_spec c 92) as [->|]; [apply low_scalar; repeat constructor|]. destruct (N.eqb_spec c q) as [->|]; [apply low_scalar; exact LQ|]. cbn [orb].
  destruct (c =? 9); [apply low_scalar; repeat constructor|]. destruct (c =? 10); [apply low_scalar; repeat constructor|]. destruct (c =? 13); [apply low_scalar; repeat constructor|].
  assert (H : forall e w, low e -> Forall scalar (e ++ hex w c)) by (intros e w L; apply low_scalar, low_app; [exact L|apply low_hex]).
  destruct ((c <? 32) || (c =? 127)); [apply H; repeat constructor|]. destruct (N.ltb_spec c 127); [apply low_scalar; constructor; [lia|constructor]|].
  destruct (pr c) eqn:PC; [constructor; [auto|constructor]|]. destruct (c <? 256); [apply H; repeat constructor|]. destruct (c <? 65536); apply H; repeat constructor.
Qed.
Lemma repr_scalar pr label : (forall c, pr c = true -> scalar c) -> Forall scalar (repr_body pr label).
Proof.
  intros P. unfold repr_body. apply Forall_forall. intros x I. apply in_flat_map in I. destruct I as (c & _ & I).
  pose proof (char_scalar pr (repr_quote label) c P) as H. rewrite Forall_forall in H. apply H; [|exact I]. unfold repr_quote. destruct (_ && _); auto.
Qed.
Lemma parts_encode E label tail : sound_printable E -> low tail -> exists bytes, utf8_encode (repr_body (e_printable E) label ++ NL :: tail) = Some bytes.
Proof.
  intros S L. apply encode_total. apply Forall_app. split; [apply repr_scalar; exact S|]. constructor; [left; reflexivity|apply low_scalar; exact L].
Qed.
Lemma f_C48_encodable E lattice numbers label : sound_printable E ->
  (forall positions pieces, structure_pieces E lattice numbers positions label = Ok pieces -> exists bytes, file_bytes pieces = Some bytes /\ utf8_text (concat pieces) bytes) /\
  (forall pts pieces, trajectory_pieces E lattice numbers pts label = Ok pieces -> exists bytes, file_bytes pieces = Some bytes /\ utf8_text (concat pieces) bytes).
Proof.
  intros S. split; intros q pieces H.
  - destruct (structure_parts _ _ _ _ _ _ H) as (tail & E' & L). destruct (parts_encode E label tail S L) as (bytes & B). exists bytes. unfold file_bytes. rewrite E'. split; [exact B|apply encode_sound; exact B].
  - destruct (trajectory_parts _ _ _ _ _ _ H) as (tail & E' & L). destruct (parts_encode E label tail S L) as (bytes & B). exists bytes. unfold file_bytes. rewrite E'. split; [exact B|apply encode_sound; exact B].
Qed.
Lemma f_C46_bytes E lattice numbers positions label pieces : sound_printable E -> e_fl E 1%R = Fin 1 -> narr_wf lattice -> narr_wf positions ->
  structure_pieces E lattice numbers positions label = Ok pieces ->
  exists bytes lat pos, file_bytes pieces = Some bytes /\
    (forall blocks, concat blocks = bytes -> read_structure_file E blocks = BOk (lat, numbers, pos)) /\
    List.length lat = 3%nat /\ Forall2 (reread (e_fl E)) (na_data lattice) (entries lat) /\
    List.length pos = List.length numbers /\ Forall2 (reread (e_fl E)) (na_data positions) (entries pos).
Proof.
  intros S F WL WP H. destruct (proj1 (f_C48_encodable E lattice numbers label S) _ _ H) as (bytes & B & U).
  destruct (f_C46_roundtrip _ _ _ _ _ _ F WL WP H) as (lat & pos & R & K). exists bytes, lat, pos. split; [exact B|]. split; [|exact K].
  intros blocks <-. rewrite (proj1 (f_C50_bytes E blocks _ U)), R. reflexivity.
Qed.
Lemma f_C52_bytes E lattice numbers pts label pieces : sound_printable E -> e_fl E 1%R = Fin 1 -> narr_wf lattice -> narr_wf pts ->
  trajectory_pieces E lattice numbers pts label = Ok pieces ->
  exists bytes ps, file_bytes pieces = Some bytes /\
    (forall blocks, concat blocks = bytes -> read_trajectory_file E blocks = BOk ps) /\
    na_shape pts = [List.length ps; List.length numbers; 3]%nat /\
    Forall (fun p => List.length p = List.length numbers) ps /\
    Forall2 (reread (e_fl E)) (na_data pts) (flat_map entries ps).
Proof.
  intros S F WL WP H. destruct (proj2 (f_C48_encodable E lattice numbers label S) _ _ H) as (bytes & B & U).
  destruct (f_C52_roundtrip _ _ _ _ _ _ F WL WP H) as (ps & R & K). exists bytes, ps. split; [exact B|]. split; [|exact K].
  intros blocks <-. rewrite (f_C53_bytes E blocks _ U), R. reflexivity.
Qed.

(** ** Cutting *)
Lemma held_high h : utf8_decode h = Some ([], h) -> Forall (fun b => 128 <= b) h.
Proof.
  intros H. destruct h as [|a r]; [constructor|]. cbn [utf8_decode] in H. destruct (N.ltb_spec a 128).
  { destruct (utf8_decode r) as [[? ?]|]; discriminate. }
  destruct (between 194 223 a).
  { destruct r as [|b r]; [repeat constructor; assumption|]. destruct (continuation b); [|discriminate]. destruct (utf8_decode r) as [[? ?]|]; discriminate. }
  destruct (between 224 239 a).
  { destruct r as [|b r]; [repeat constructor; assumption|]. destruct (second3 a b) eqn:S; [|discriminate].
    assert (128 <= b) by (unfold second3, continuation in S; destruct (a =? 224); [|destruct (a =? 237)]; apply between_iff in S; lia).
    destruct r as [|c r]; [repeat constructor; assumption|]. destruct (continuation c); [|discriminate]. destruct (utf8_decode r) as [[? ?]|]; discriminate. }
  destruct (between 240 244 a); [|discriminate].
  destruct r as [|b r]; [repeat constructor; assumption|]. destruct (second4 a b) eqn:S; [|discriminate].
  assert (128 <= b) by (unfold second4, continuation in S; destruct (a =? 240); [|destruct (a =? 244)]; apply between_iff in S; lia).
  destruct r as [|c r]; [repeat constructor; assumption|]. destruct (continuation c) eqn:C; [|discriminate]. apply between_iff in C.
  destruct r as [|d r]; [repeat constructor; (assumption || lia)|]. destruct (continuation d); [|discriminate]. destruct (utf8_decode r) as [[? ?]|]; discriminate.
Qed.
Lemma cut_bytes line tail bytes cut rest : ~ In 10 line -> ~ In 13 line -> low tail -> utf8_text (line ++ NL :: tail) bytes -> bytes = (cut ++ rest)%list ->
  (exists c d, utf8_text c cut /\ (line ++ NL :: tail = c ++ d)%list) \/ (~ In 10 cut /\ ~ In 13 cut /\ forall t, ~ utf8_text t cut).
Proof.
  intros N10 N13 L U ->. apply decode_iff in U. rewrite decode_app in U. destruct (utf8_decode cut) as [[t h]|] eqn:D; [|discriminate].
  destruct (utf8_decode (h ++ rest)) as [[y h']|] eqn:D'; [|discriminate]. injection U as U ->. pose proof (decode_sound _ _ _ D) as (b1 & T & E & P & _).
  destruct h as [|a h]; [left; exists t, y; split; [apply decode_iff; exact D|symmetry; exact U]|]. right.
  pose proof (held_high _ P) as HH. apply decode_iff in D'.
  assert (Y : exists c y', y = c :: y' /\ 128 <= c).
  { inversion D' as [E1 E2|c b y' bs Uc _ E1 E2]; subst. exists c, y'. split; [reflexivity|]. inversion HH; subst.
    destruct Uc; cbn [app] in E2; try lia. injection E2 as E2 _. subst. assumption. }
  destruct Y as (c & y' & -> & Hc).
  assert (IN : exists z, line = (t ++ z)%list).
  { clear - U L Hc. revert U. revert line. induction t as [|x t IH]; intros line U; [exists line; reflexivity|].
    destruct line as [|l line]; cbn [app] in U.
    - injection U as -> U. exfalso. rewrite <- U in L. apply Forall_app in L. destruct L as [_ L]. inversion L; subst. lia.
    - injection U as -> U. destruct (IH line U) as (z & ->). exists z. reflexivity. }
  destruct IN as (z & ->). rewrite in_app_iff in N10, N13. subst cut. rewrite Forall_forall in HH.
  repeat split.
  - rewrite in_app_iff. intros [I|I]; [apply (in_utf8 _ _ T) in I; [tauto|lia]|apply HH in I; lia].
  - rewrite in_app_iff. intros [I|I]; [apply (in_utf8 _ _ T) in I; [tauto|lia]|apply HH in I; lia].
  - intros t' H. apply decode_iff in H. congruence.
Qed.
Lemma f_C54_structure_bytes E lattice numbers positions label pieces bytes cut rest blocks :
  structure_pieces E lattice numbers positions label = Ok pieces ->
  file_bytes pieces = Some bytes -> bytes = (cut ++ rest)%list -> concat blocks = cut ->
  (exists c, prefix_of c (concat pieces) /\ read_structure_file E blocks = plain (read_structure E c)) \/
  (~ In 10 cut /\ read_structure_file E blocks = BErr UnboundLocalError).
Proof.
  intros H B C K. destruct (structure_parts _ _ _ _ _ _ H) as (tail & P & L). unfold file_bytes in B. apply encode_sound in B. rewrite P in B |- *.
  destruct (repr_single (e_printable E) label) as [N1 N2].
  destruct (cut_bytes _ _ _ _ _ N1 N2 L B C) as [(c & d & U & Q)|(A1 & A2 & A3)]; rewrite <- K in *.
  - left. exists c. split; [exists d; exact Q|]. apply (proj1 (f_C50_bytes E blocks c U)).
  - right. split; [exact A1|]. apply unfinished_file; assumption.
Qed.
Lemma f_C54_trajectory_bytes E lattice numbers pts label pieces bytes cut rest blocks :
  trajectory_pieces E lattice numbers pts label = Ok pieces ->
  file_bytes pieces = Some bytes -> bytes = (cut ++ rest)%list -> concat blocks = cut ->
  (exists c, prefix_of c (concat pieces) /\ read_trajectory_file E blocks = plain (read_positions_ts E c)) \/
  (~ In 10 cut /\ read_trajectory_file E blocks = BErr UnboundLocalError).
Proof.
  intros H B C K. destruct (trajectory_parts _ _ _ _ _ _ H) as (tail & P & L). unfold file_bytes in B. apply encode_sound in B. rewrite P in B |- *.
  destruct (repr_single (e_printable E) label) as [N1 N2].
  destruct (cut_bytes _ _ _ _ _ N1 N2 L B C) as [(c & d & U & Q)|(A1 & A2 & A3)]; rewrite <- K in *.
  - left. exists c. split; [exists d; exact Q|]. apply (f_C53_bytes E blocks c U).
  - right. split; [exact A1|]. apply unfinished_file; assumption.
Qed.
(** the encoding is a function of the text, and decoding its inverse *)
Lemma utf8_det c b : utf8 c b -> forall c' b', utf8 c' b' -> c = c' -> b = b'.
Proof.
  intros U c' b' U' E.
  destruct U as [a|a b|a b c|a b c d]; destruct U' as [a'|a' b'|a' b' c'|a' b' c' d']; try (exfalso; lia).
  - congruence.
  - assert (a = a') by lia. assert (b = b') by lia. congruence.
  - assert (a = a') by lia. assert (b = b') by lia. assert (c = c') by lia. congruence.
  - assert (a = a') by lia. assert (b = b') by lia. assert (c = c') by lia. assert (d = d') by lia. congruence.
Qed.
Lemma f_C46_codec t bs : (utf8_encode t = Some bs <-> utf8_text t bs) /\ (utf8_decode bs = Some (t, []) <-> utf8_text t bs).
Proof.
  split; [|apply decode_iff]. split; [apply encode_sound|]. intros H. revert bs H. induction t as [|c t IH]; intros bs H; inversion H as [|c' b t' bs' U T]; subst; [reflexivity|].
  cbn [utf8_encode]. rewrite (IH _ T).
  assert (S : scalar c) by (unfold scalar; destruct U; lia). destruct (char_encodes c S) as [b' B]. rewrite B. pose proof (char_sound _ _ B) as U'.
  rewrite (utf8_det _ _ U _ _ U' eq_refl). reflexivity.
Qed.
Lemma line_end_bytes c bs : utf8_text c bs -> at_line_end bs -> at_line_end c.
Proof.
  intros U (t & H). assert (L : bs <> [] /\ last bs 0 = 10) by (subst; split; [intros E; destruct t; discriminate|apply last_last]). clear t H.
  assert (K : c <> [] /\ last c 0 = 10).
  { induction U as [|c b t bs U T IH]; [tauto|]. split; [discriminate|]. destruct bs as [|b' bs].
    - inversion T as [|c' b'' t' bs' U' _ E1 E2]; subst; [|destruct U'; discriminate]. rewrite app_nil_r in L. destruct L as [_ L].
      destruct U; cbn [last] in L |- *; lia.
    - assert (IL : t <> [] /\ last t 0 = 10). { apply IH. split; [discriminate|]. destruct L as [_ L]. rewrite <- L. clear. induction b as [|x b IH]; [reflexivity|].
        rewrite IH. destruct b; reflexivity. }
      destruct IL as [I1 I2]. destruct t; [congruence|]. exact I2. }
  destruct K as [K1 K2]. exists (removelast c). rewrite <- K2. apply app_removelast_last. exact K1.
Qed.
Lemma f_C54_cut_structure_bytes E lattice numbers positions label pieces bytes cut rest blocks :
  e_fl E 1%R = M_Text.Fin 1 -> narr_wf lattice -> narr_wf positions ->
  structure_pieces E lattice numbers positions label = Ok pieces ->
  file_bytes pieces = Some bytes -> bytes = (cut ++ rest)%list -> concat blocks = cut ->
  (exists m, read_structure_file E blocks = BErr (Plain (InvalidFileException m))) \/
  (~ In 10 cut /\ read_structure_file E blocks = BErr UnboundLocalError) \/
  exists lat pos,
    read_structure_file E blocks = BOk (lat, numbers, pos) /\
    List.length lat = 3%nat /\ Forall2 (reread (e_fl E)) (na_data lattice) (entries lat) /\ List.length pos = List.length numbers /\
    (Forall2 (reread (e_fl E)) (na_data positions) (entries pos) \/
     (~ at_line_end cut /\ reread_but_last (e_fl E) (na_data positions) (entries pos))).
Proof.
  intros F WL WP H B C K. destruct (structure_parts _ _ _ _ _ _ H) as (tail & P & L). pose proof B as B'. unfold file_bytes in B'. apply encode_sound in B'. rewrite P in B'.
  destruct (repr_single (e_printable E) label) as [N1 N2].
  destruct (cut_bytes _ _ _ _ _ N1 N2 L B' C) as [(c & d & U & Q)|(A1 & A2 & A3)]; rewrite <- K in *.
  - assert (PC : prefix_of c (concat pieces)) by (exists d; congruence).
    rewrite (proj1 (f_C50_bytes E blocks c U)).
    destruct (f_cut_structure E _ _ _ _ _ _ F WL WP H PC) as [(m & ->)|(lat & pos & A1 & A2 & A3 & A4 & A5)]; [left; exists m; reflexivity|].
    right. right. exists lat, pos. rewrite A1. split; [reflexivity|]. pose proof (line_end_bytes _ _ U). tauto.
  - right. left. split; [exact A1|]. apply unfinished_file; assumption.
Qed.
Lemma f_C54_cut_trajectory_bytes E lattice numbers positions label pieces bytes cut rest blocks s :
  e_fl E 1%R = M_Text.Fin 1 -> narr_wf lattice -> narr_wf positions -> na_shape positions = [s; List.length numbers; 3%nat] ->
  trajectory_pieces E lattice numbers positions label = Ok pieces ->
  file_bytes pieces = Some bytes -> bytes = (cut ++ rest)%list -> concat blocks = cut ->
  (exists m, read_trajectory_file E blocks = BErr (Plain (InvalidFileException m))) \/
  (~ In 10 cut /\ read_trajectory_file E blocks = BErr UnboundLocalError) \/
  exists ps,
    read_trajectory_file E blocks = BOk ps /\ (List.length ps <= s)%nat /\ Forall (fun q => List.length q = List.length numbers) ps /\
    let written := firstn (List.length ps * (List.length numbers * 3)) (na_data positions) in
    (Forall2 (reread (e_fl E)) written (flat_map entries ps) \/
     (~ at_line_end cut /\ reread_but_last (e_fl E) written (flat_map entries ps))).
Proof.
  intros F WL WP SP H B C K. destruct (trajectory_parts _ _ _ _ _ _ H) as (tail & P & L). pose proof B as B'. unfold file_bytes in B'. apply encode_sound in B'. rewrite P in B'.
  destruct (repr_single (e_printable E) label) as [N1 N2].
  destruct (cut_bytes _ _ _ _ _ N1 N2 L B' C) as [(c & d & U & Q)|(A1 & A2 & A3)]; rewrite <- K in *.
  - assert (PC : prefix_of c (concat pieces)) by (exists d; congruence).
    rewrite (f_C53_bytes E blocks c U).
    destruct (f_cut_trajectory E lattice numbers positions label pieces c s) as [(m & ->)|(ps & A1 & A2 & A3 & A4)]; auto; [left; exists m; reflexivity|].
    right. right. exists ps. rewrite A1. split; [reflexivity|]. split; [exact A2|]. split; [exact A3|]. cbv zeta in *. pose proof (line_end_bytes _ _ U). tauto.
  - right. left. split; [exact A1|]. apply unfinished_file; assumption.
Qed.
