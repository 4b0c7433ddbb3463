(** Proofs about the generic readers on files of bytes. *)
From Coq Require Import String ZArith NArith Reals Bool Arith List.
From Verif Require Import Base LinAlg M_Validate M_Text M_Poscar M_Outcar M_Vasprun M_Files M_Dataset M_Generic M_Bytes M_BytesOutcar M_GenericBytes
  S_Text S_Cut S_Bytes S_BytesOutcar S_GenericBytes P_Bytes P_Bytes2 P_BytesOutcar P_BytesOutcar2 P_BytesOutcar3 P_BytesOutcar5 P_BytesPoscar.
Import ListNotations.
Local Open Scope string_scope.

(** ** Tables *)
Definition same_reader {A P Q} (x : P) (y : Q) (e : string * (P -> bres A)) (e' : string * (Q -> res A)) : Prop := fst e = fst e' /\ snd e x = plain (snd e' y).
Lemma same_tables {A P Q} (x : P) (y : Q) (tb : list (string * (P -> bres A))) tt fmt k : Forall2 (same_reader x y) tb tt -> bdispatch tb fmt x k = BG (dispatch tt fmt y k).
Proof.
  intros H. unfold bdispatch, dispatch, lookup. induction H as [|[n r] [n' r'] tb tt [H1 H2] _ IH]; [reflexivity|]. cbn in H1, H2. subst n'. cbn [find fst snd].
  destruct (String.eqb n fmt); [|exact IH]. cbn. rewrite H2. destruct (r' y) as [a|e]; [reflexivity|]. cbn. destruct e; reflexivity.
Qed.
Lemma backed_tables {A P Q} (x : P) (y : Q) (tb : list (string * (P -> bres A))) tt fmt k :
  Forall2 (fun e e' => fst e = fst e' /\ (fst e = fmt -> forall a, snd e x = BOk a -> snd e' y = Ok a)) tb tt -> backed (bdispatch tb fmt x k) (dispatch tt fmt y k).
Proof.
  intros H a. unfold bdispatch, dispatch, lookup. induction H as [|[n r] [n' r'] tb tt [H1 H2] _ IH]; [discriminate|]. cbn in H1, H2. subst n'. cbn [find fst snd].
  destruct (String.eqb_spec n fmt) as [-> | N]; [|exact IH]. cbn. specialize (H2 eq_refl). destruct (r x) as [b|e] eqn:Er; [|destruct e as [e| |]; try discriminate; destruct e; discriminate].
  intros X. injection X as ->. rewrite (H2 a eq_refl). reflexivity.
Qed.

(** ** Files that are text *)
Section Text.
Context (E : env) (parse : text -> parsed) (early : list (list N) -> bool) (f : fs) (bf : bfs) (p : path) (H : holds (f p) (bf p)).
Lemma same_file {A} (rb : list (list N) -> bres A) (rt : text -> res A) : (forall blocks t, utf8_text t (concat blocks) -> rb blocks = plain (rt t)) ->
  from_bytes bf rb p = plain (from_file f rt p).
Proof.
  intros HR. unfold from_bytes, from_file. unfold holds in H. destruct (f p) as [|t|e], (bf p) as [|blocks|e']; try contradiction; cbn; [reflexivity|apply HR, H|subst; reflexivity].
Qed.
Lemma same_xml {A} (rt : (text -> parsed) -> text -> res A) blocks t : utf8_text t (concat blocks) -> as_xml parse early rt blocks = plain (rt parse t).
Proof. intros U. unfold as_xml. apply decode_iff in U. rewrite U. reflexivity. Qed.
Lemma same_poscar_positions blocks t : utf8_text t (concat blocks) -> poscar_positions_file E blocks = plain (poscar_read_positions E t).
Proof. intros U. unfold poscar_positions_file, poscar_read_positions. rewrite (proj2 (f_C50_bytes E blocks t U)). destruct (read_positions E t); reflexivity. Qed.
Lemma same_poscar_structure {A} (mk : list Z -> narr -> narr -> res A) blocks t : utf8_text t (concat blocks) -> poscar_ref_structure_file E mk blocks = plain (poscar_read_ref_structure E mk t).
Proof. intros U. unfold poscar_ref_structure_file, poscar_read_ref_structure. rewrite (proj1 (f_C50_bytes E blocks t U)). destruct (read_structure E t) as [[[l z] x]|e]; reflexivity. Qed.
Ltac same := constructor; cbn; auto; apply same_file; intros; first [apply same_xml|apply same_poscar_positions|apply same_poscar_structure|eapply f_outcar_bytes|eapply f_outcar_structure_bytes|eapply f_outcar_phonons_bytes|eapply f_outcar_trajectory_bytes]; eassumption.
Lemma f_C63_bytes A (mk : list Z -> narr -> narr -> res A) fmt :
  byte_read_phonons E parse early bf p fmt = BG (generic_read_phonons E parse f p fmt) /\
  byte_read_trajectory E parse early bf p fmt = BG (generic_read_trajectory E parse f p fmt) /\
  byte_read_positions_and_polarizability E parse early bf p fmt = BG (generic_read_positions_and_polarizability E parse f p fmt) /\
  byte_read_structure_and_polarizability E parse early bf p fmt = BG (generic_read_structure_and_polarizability E parse f p fmt) /\
  byte_read_positions E parse early bf p fmt = BG (generic_read_positions E parse f p fmt) /\
  byte_read_ref_structure E parse early mk bf p fmt = BG (generic_read_ref_structure E parse mk f p fmt).
Proof. repeat split; apply same_tables; repeat (apply Forall2_cons; [same|]); apply Forall2_nil. Qed.
End Text.
Lemma plain_bind {A B} (r : res A) (k : A -> res B) (k' : A -> bres B) : (forall a, k' a = plain (k a)) -> bbind (plain r) k' = plain (rbind r k).
Proof. intros H. destruct r; cbn; [apply H|reflexivity]. Qed.
Lemma same_loop {P} (rb : P -> bres (narr * list Z * narr * narr)) rt ps : Forall (fun p => rb p = plain (rt p)) ps ->
  forall i l z x a, byte_dataset_loop rb i l z x a ps = plain (dataset_loop rt i l z x a ps).
Proof.
  induction 1 as [|p ps Hp _ IH]; intros i l z x a; [reflexivity|]. cbn [byte_dataset_loop dataset_loop]. rewrite Hp. apply plain_bind. intros [[[l' z'] x'] a']. apply plain_bind. intros _. apply IH.
Qed.
Lemma same_dataset {P} (rb : P -> bres (narr * list Z * narr * narr)) rt torch cast ps : Forall (fun p => rb p = plain (rt p)) ps ->
  byte_dataset rb torch cast ps = plain (read_dataset rt torch cast ps).
Proof.
  intros H. unfold byte_dataset, read_dataset. destruct torch; [|reflexivity]. cbn [negb]. destruct ps as [|p ps]; [reflexivity|]. rewrite (same_loop rb rt _ H). apply plain_bind. intros [[[l z] x] a].
  apply plain_bind. intros s. apply plain_bind. intros s'. reflexivity.
Qed.
Lemma f_C63_dataset_bytes E parse early f bf ps torch cast fmt : Forall (fun p => holds (f p) (bf p)) ps ->
  byte_read_dataset E parse early torch cast bf ps fmt = BG (generic_read_dataset E parse torch cast f ps fmt).
Proof.
  intros H. unfold byte_read_dataset, generic_read_dataset. destruct torch; [|reflexivity]. cbn [negb]. apply same_tables.
  constructor; [split; [reflexivity|]|constructor; [split; [reflexivity|]|constructor]]; apply same_dataset; (eapply Forall_impl; [|exact H]); cbv beta; intros p Hp; apply (same_file _ _ _ Hp); intros blocks t U.
  - apply (f_outcar_structure_bytes unit (fun _ _ _ => Err ValueError) E blocks t U).
  - apply same_xml, U.
Qed.

(** ** Files of any bytes *)
Section Any.
Context (bf : bfs) (p : path) (blocks : list (list N)) (HP : bf p = BPresent blocks).
Lemma any_file {A} (rb : list (list N) -> bres A) : from_bytes bf rb p = rb blocks.
Proof. unfold from_bytes. rewrite HP. reflexivity. Qed.
Lemma text_file {A} (f : fs) t (rt : text -> res A) : f p = Present t -> from_file f rt p = rt t.
Proof. unfold from_file. intros ->. reflexivity. Qed.
Lemma xml_backed {A} parse early (rt : (text -> parsed) -> text -> res A) a : (forall a, rt (fun _ => ParseError) [] <> Ok a) -> as_xml parse early rt blocks = BOk a ->
  exists t, utf8_decode (concat blocks) = Some (t, []) /\ rt parse t = Ok a.
Proof.
  intros HN. unfold as_xml. assert (K : forall b : bool, (if b then plain (rt (fun _ => ParseError) []) else BErr UnicodeDecodeError) <> BOk a).
  { intros [|]; [|discriminate]. destruct (rt (fun _ => ParseError) []) eqn:Er; [destruct (HN _ eq_refl)|discriminate]. }
  destruct (utf8_decode (concat blocks)) as [[t [|x l]]|]; [|intros X; destruct (K _ X)|intros X; destruct (K _ X)].
  intros X. exists t. split; [reflexivity|]. destruct (rt parse t); cbn in X; congruence.
Qed.
Lemma prefix_text fmt A (mk : list Z -> narr -> narr -> res A) : exists t, begins t (concat blocks) /\ forall E,
  ((fmt = "poscar" \/ fmt = "xdatcar") -> (forall a, poscar_positions_file E blocks = BOk a -> poscar_read_positions E t = Ok a) /\ (forall a, poscar_ref_structure_file E mk blocks = BOk a -> poscar_read_ref_structure E mk t = Ok a)) /\
  (fmt = "outcar" -> (forall p, outcar_positions_file E blocks = BOk p -> outcar_read_positions E t = Ok p) /\
    (forall p, outcar_positions_and_polarizability_file E blocks = BOk p -> outcar_read_positions_and_polarizability E t = Ok p) /\
    (forall p, outcar_structure_and_polarizability_file E blocks = BOk p -> outcar_read_structure_and_polarizability E t = Ok p) /\
    (forall p, outcar_ref_structure_file mk E blocks = BOk p -> outcar_read_ref_structure mk E t = Ok p) /\
    (forall p, outcar_phonons_file E blocks = BOk p -> outcar_read_phonons E t = Ok p)) /\
  (fmt = "vasprun.xml" -> forall u, utf8_decode (concat blocks) = Some (u, []) -> u = t).
Proof.
  destruct (String.eqb_spec fmt "outcar") as [-> | NO].
  - destruct (f_outcar_sound A mk blocks) as (t & HB & H). exists t. split; [exact HB|]. intros E. split; [intros [X | X]; discriminate X|]. split; [intros _; apply H|intros X; discriminate X].
  - destruct (String.eqb_spec fmt "vasprun.xml") as [-> | NV].
    + destruct (utf8_decode (concat blocks)) as [[t [|x l]]|] eqn:D.
      * exists t. split; [exists (concat blocks), []; rewrite app_nil_r; split; [reflexivity|apply decode_iff, D]|]. intros E. split; [intros [X | X]; discriminate X|]. split; [intros X; discriminate X|]. intros _ u X. congruence.
      * exists []. split; [exists [], (concat blocks); split; [reflexivity|apply decode_iff; reflexivity]|]. intros E. split; [intros [X | X]; discriminate X|]. split; [intros X; discriminate X|]. intros _ u X. discriminate.
      * exists []. split; [exists [], (concat blocks); split; [reflexivity|apply decode_iff; reflexivity]|]. intros E. split; [intros [X | X]; discriminate X|]. split; [intros X; discriminate X|]. intros _ u X. discriminate.
    + destruct (f_poscar_sound blocks) as (t & HB & H). exists t. split; [exact HB|]. intros E. split; [|split; intros X; contradiction]. intros _. destruct (H E) as [H1 H2]. split.
      * intros a. unfold poscar_positions_file, poscar_read_positions. destruct (read_positions_file E blocks) as [r|]; [|discriminate]. cbn. intros X. injection X as <-. rewrite (H2 r eq_refl). reflexivity.
      * intros a. unfold poscar_ref_structure_file, poscar_read_ref_structure. destruct (read_structure_file E blocks) as [[[l z] x]|]; [|discriminate]. cbn. intros X. rewrite (H1 _ eq_refl). cbn. destruct (mk z _ _); cbn in X; congruence.
Qed.
Ltac back Ef HX := split; [reflexivity|]; intros <- a; cbn [snd]; rewrite any_file, (text_file _ _ _ Ef);
  first [ apply HX; auto; fail | let t' := fresh "u" in let D := fresh "D" in let Y := fresh "Y" in intros X; apply xml_backed in X; [|intros ? Z; discriminate Z]; destruct X as (t' & D & Y); rewrite <- (proj2 (proj2 HX) eq_refl t' D); exact Y ].
Lemma f_C63_backed A (mk : list Z -> narr -> narr -> res A) fmt : exists t, begins t (concat blocks) /\ forall E parse early f, f p = Present t ->
  backed (byte_read_phonons E parse early bf p fmt) (generic_read_phonons E parse f p fmt) /\
  backed (byte_read_positions_and_polarizability E parse early bf p fmt) (generic_read_positions_and_polarizability E parse f p fmt) /\
  backed (byte_read_structure_and_polarizability E parse early bf p fmt) (generic_read_structure_and_polarizability E parse f p fmt) /\
  backed (byte_read_positions E parse early bf p fmt) (generic_read_positions E parse f p fmt) /\
  backed (byte_read_ref_structure E parse early mk bf p fmt) (generic_read_ref_structure E parse mk f p fmt).
Proof.
  destruct (prefix_text fmt A mk) as (t & HB & H). exists t. split; [exact HB|]. intros E parse early f Ef. specialize (H E).
  repeat split; apply backed_tables; repeat (apply Forall2_cons; [back Ef H|]); apply Forall2_nil.
Qed.
Lemma f_C63_trajectory_whole E parse early fmt r : byte_read_trajectory E parse early bf p fmt = BG (GOk r) ->
  exists t, utf8_text t (concat blocks) /\ forall f, f p = Present t -> generic_read_trajectory E parse f p fmt = GOk r.
Proof.
  unfold byte_read_trajectory, generic_read_trajectory, bdispatch, dispatch, lookup, trajectory_readers. cbn [find fst snd].
  destruct (String.eqb "outcar" fmt); [|destruct (String.eqb "vasprun.xml" fmt); [|discriminate]]; cbn [snd]; rewrite any_file.
  - destruct (outcar_trajectory_file E blocks) as [a|e] eqn:Er; [|destruct e as [e| |]; try discriminate; destruct e; discriminate]. intros X. injection X as ->.
    apply f_trajectory_whole in Er. destruct Er as (t & U & Rt). exists t. split; [exact U|]. intros f Ef. rewrite (text_file _ _ _ Ef), Rt. reflexivity.
  - destruct (as_xml parse early (vasprun_read_trajectory E) blocks) as [a|e] eqn:Er; [|destruct e as [e| |]; try discriminate; destruct e; discriminate]. intros X. injection X as ->.
    apply xml_backed in Er; [|intros ? Z; discriminate Z]. destruct Er as (t & D & Rt). exists t. split; [apply decode_iff, D|]. intros f Ef. rewrite (text_file _ _ _ Ef), Rt. reflexivity.
Qed.
(** Encoding errors come from files that are not UTF-8 only. *)
Lemma coding_kinds {A P} (tb : list (string * (P -> bres A))) fmt x k e : bdispatch tb fmt x k = Coding e -> e = UnicodeDecodeError \/ e = UnboundLocalError.
Proof. unfold bdispatch. destruct (lookup tb fmt) as [r|]; [|discriminate]. destruct (r x) as [a|[e'| |]]; try discriminate; [destruct e'; discriminate| |]; intros X; injection X as <-; auto. Qed.
Lemma f_C63_coding A (mk : list Z -> narr -> narr -> res A) E parse early fmt e :
  byte_read_phonons E parse early bf p fmt = Coding e \/ byte_read_trajectory E parse early bf p fmt = Coding e \/
  byte_read_positions_and_polarizability E parse early bf p fmt = Coding e \/ byte_read_structure_and_polarizability E parse early bf p fmt = Coding e \/
  byte_read_positions E parse early bf p fmt = Coding e \/ byte_read_ref_structure E parse early mk bf p fmt = Coding e ->
  (e = UnicodeDecodeError \/ e = UnboundLocalError) /\ forall t, ~ utf8_text t (concat blocks).
Proof.
  intros H. split.
  - destruct H as [H | [H | [H | [H | [H | H]]]]]; eapply coding_kinds; exact H.
  - intros t U. assert (HH : holds (Present t) (bf p)) by (rewrite HP; exact U).
    destruct (f_C63_bytes E parse early (fun _ => Present t) bf p HH A mk fmt) as (H1 & H2 & H3 & H4 & H5 & H6).
    destruct H as [H | [H | [H | [H | [H | H]]]]]; congruence.
Qed.
End Any.
(** Datasets: the first file that cannot be decoded *)
Lemma loop_coding {P} (rb : P -> bres (narr * list Z * narr * narr)) e ps : (forall x, e <> Plain x) -> forall i l z x a, byte_dataset_loop rb i l z x a ps = BErr e -> exists p, In p ps /\ rb p = BErr e.
Proof.
  intros He. induction ps as [|p ps IH]; intros i l z x a; [discriminate|]. cbn [byte_dataset_loop]. destruct (rb p) as [[[[l' z'] x'] a']|e'] eqn:Er; cbn [bbind].
  - match goal with |- context [plain ?c] => destruct c end; cbn [plain bbind]; [|intros X; injection X as <-; destruct (He e0 eq_refl)]. intros X. apply IH in X. destruct X as (q & Hq & Eq). exists q. split; [right; exact Hq|exact Eq].
  - intros X. injection X as <-. exists p. split; [left; reflexivity|exact Er].
Qed.
Lemma dataset_coding {P} (rb : P -> bres (narr * list Z * narr * narr)) e torch cast ps : (forall x, e <> Plain x) -> byte_dataset rb torch cast ps = BErr e -> exists p, In p ps /\ rb p = BErr e.
Proof.
  intros He. unfold byte_dataset. destruct torch; cbn [negb]; [|intros X; injection X as <-; destruct (He _ eq_refl)]. destruct ps as [|p ps]; [intros X; injection X as <-; destruct (He _ eq_refl)|].
  destruct (byte_dataset_loop rb 0 _ [] [] [] (p :: ps)) as [[[[l z] x] a]|e'] eqn:Er; cbn [bbind].
  - destruct (np_stack x) as [s|]; cbn [plain bbind]; [|intros X; injection X as <-; destruct (He _ eq_refl)]. destruct (np_stack a) as [s'|]; cbn [plain bbind]; [|intros X; injection X as <-; destruct (He _ eq_refl)].
    destruct (dataset_new cast l z s s'); cbn [plain]; [discriminate|intros X; injection X as <-; destruct (He _ eq_refl)].
  - intros X. injection X as <-. eapply loop_coding; [exact He|exact Er].
Qed.
Lemma f_C63_dataset_coding E parse early bf ps torch cast fmt e : byte_read_dataset E parse early torch cast bf ps fmt = Coding e ->
  (e = UnicodeDecodeError \/ e = UnboundLocalError) /\ exists p blocks, In p ps /\ bf p = BPresent blocks /\ forall t, ~ utf8_text t (concat blocks).
Proof.
  unfold byte_read_dataset. destruct torch; [|discriminate]. cbn [negb]. intros H. pose proof (coding_kinds _ _ _ _ _ H) as K. split; [exact K|].
  assert (He : forall x, e <> Plain x) by (intros x ->; destruct K; discriminate).
  revert H. unfold bdispatch, lookup. cbn [find fst snd]. destruct (String.eqb "outcar" fmt); [|destruct (String.eqb "vasprun.xml" fmt); [|discriminate]]; cbn [snd].
  - destruct (byte_dataset _ _ _ _) as [a|[x| |]] eqn:Er; try discriminate; [destruct x; discriminate| |]; intros X; injection X as <-; apply dataset_coding in Er; try exact He; destruct Er as (p & Hp & Ep);
      unfold from_bytes in Ep; destruct (bf p) as [|blocks|] eqn:Eb; try discriminate; exists p, blocks; (split; [exact Hp|split; [exact Eb|]]); intros t U;
      rewrite (proj1 (f_outcar_structure_bytes unit (fun _ _ _ => Err ValueError) E blocks t U)) in Ep; destruct (outcar_read_structure_and_polarizability E t); discriminate.
  - destruct (byte_dataset _ _ _ _) as [a|[x| |]] eqn:Er; try discriminate; [destruct x; discriminate| |]; intros X; injection X as <-; apply dataset_coding in Er; try exact He; destruct Er as (p & Hp & Ep);
      unfold from_bytes in Ep; destruct (bf p) as [|blocks|] eqn:Eb; try discriminate; exists p, blocks; (split; [exact Hp|split; [exact Eb|]]); intros t U;
      rewrite (same_xml parse early _ _ _ U) in Ep; destruct (vasprun_read_structure_and_polarizability E parse t); discriminate.
Qed.
(** Files in another encoding *)
Lemma f_C63_other bf p b blocks A (mk : list Z -> narr -> narr -> res A) E parse early : bf p = BPresent (b :: blocks) -> hopeless b ->
  byte_read_phonons E parse early bf p "outcar" = Coding UnboundLocalError /\
  byte_read_trajectory E parse early bf p "outcar" = Coding UnboundLocalError /\
  byte_read_positions_and_polarizability E parse early bf p "outcar" = Coding UnboundLocalError /\
  byte_read_structure_and_polarizability E parse early bf p "outcar" = Coding UnboundLocalError /\
  (forall fmt, In fmt ["poscar"; "outcar"; "xdatcar"] ->
     byte_read_positions E parse early bf p fmt = Coding UnboundLocalError /\ byte_read_ref_structure E parse early mk bf p fmt = Coding UnboundLocalError) /\
  (early (b :: blocks) = false -> byte_read_phonons E parse early bf p "vasprun.xml" = Coding UnicodeDecodeError /\ byte_read_trajectory E parse early bf p "vasprun.xml" = Coding UnicodeDecodeError /\
     byte_read_positions_and_polarizability E parse early bf p "vasprun.xml" = Coding UnicodeDecodeError /\ byte_read_structure_and_polarizability E parse early bf p "vasprun.xml" = Coding UnicodeDecodeError /\
     byte_read_positions E parse early bf p "vasprun.xml" = Coding UnicodeDecodeError /\ byte_read_ref_structure E parse early mk bf p "vasprun.xml" = Coding UnicodeDecodeError).
Proof.
  intros HP HH. destruct (f_outcar_other A mk E b blocks HH) as (O1 & O2 & O3 & O4 & O5 & O6). destruct (f_C50_other_encoding E b blocks HH) as (P1 & P2 & _).
  assert (D : forall t, utf8_decode (concat (b :: blocks)) <> Some (t, [])). { intros t D. apply decode_iff in D. exact (HH (concat blocks) t D). }
  assert (X : early (b :: blocks) = false -> forall B (rt : (text -> parsed) -> text -> res B), as_xml parse early rt (b :: blocks) = BErr UnicodeDecodeError).
  { intros Ee B rt. unfold as_xml. rewrite Ee. destruct (utf8_decode (concat (b :: blocks))) as [[t [|y l]]|] eqn:Q; [destruct (D t eq_refl)|reflexivity|reflexivity]. }
  assert (Q1 : poscar_positions_file E (b :: blocks) = BErr UnboundLocalError) by (unfold poscar_positions_file; rewrite P2; reflexivity).
  assert (Q2 : poscar_ref_structure_file E mk (b :: blocks) = BErr UnboundLocalError) by (unfold poscar_ref_structure_file; rewrite P1; reflexivity).
  unfold byte_read_phonons, byte_read_trajectory, byte_read_positions_and_polarizability, byte_read_structure_and_polarizability, byte_read_positions, byte_read_ref_structure, bdispatch, lookup.
  split; [cbn; rewrite (any_file _ _ _ HP), O5; reflexivity|]. split; [cbn; rewrite (any_file _ _ _ HP), O6; reflexivity|]. split; [cbn; rewrite (any_file _ _ _ HP), O2; reflexivity|]. split; [cbn; rewrite (any_file _ _ _ HP), O3; reflexivity|]. split.
  - intros fmt [<- | [<- | [<- | []]]]; cbn; rewrite !(any_file _ _ _ HP), ?Q1, ?Q2, ?O1, ?O4; split; reflexivity.
  - intros Ee. repeat split; cbn; rewrite (any_file _ _ _ HP), (X Ee); reflexivity.
Qed.
