(** Proofs about files as bytes: the codec and the text layer. *)
From Coq Require Import String ZArith NArith Reals Bool Arith List Lia.
From Verif Require Import Base LinAlg M_Text M_Poscar M_Bytes S_Bytes.
Import ListNotations.
Local Open Scope N_scope.

Lemma digits64 c : exists m0 m1 m2 q, c / 64 = 64 * (64 * q + m2) + m1 /\ c mod 64 = m0 /\ (c / 64) mod 64 = m1 /\ c / 4096 = 64 * q + m2 /\
  (c / 4096) mod 64 = m2 /\ c / 262144 = q /\ m0 < 64 /\ m1 < 64 /\ m2 < 64 /\ c = 64 * (64 * (64 * q + m2) + m1) + m0.
Proof.
  assert (E1 : c / 4096 = c / 64 / 64) by (rewrite N.div_div by discriminate; reflexivity).
  assert (E2 : c / 262144 = c / 64 / 64 / 64) by (rewrite !N.div_div by discriminate; reflexivity). rewrite E1, E2.
  exists (c mod 64), ((c / 64) mod 64), ((c / 64 / 64) mod 64), (c / 64 / 64 / 64).
  rewrite <- !N.div_mod'. repeat split; apply N.mod_lt; discriminate.
Qed.
Lemma between_iff a b c : between a b c = true <-> a <= c <= b.
Proof. unfold between. rewrite andb_true_iff, !N.leb_le. tauto. Qed.
Lemma between_false a b c : between a b c = false <-> ~ (a <= c <= b).
Proof. rewrite <- between_iff. destruct (between a b c); split; congruence. Qed.
Lemma emit_bind c r (b : list N) :
  match emit c r with None => None | Some (x, h) => match utf8_decode (h ++ b) with None => None | Some (y, h') => Some ((x ++ y)%list, h') end end =
  emit c (match r with None => None | Some (x, h) => match utf8_decode (h ++ b) with None => None | Some (y, h') => Some ((x ++ y)%list, h') end end).
Proof. destruct r as [[x h]|]; [|reflexivity]. cbn [emit]. destruct (utf8_decode (h ++ b)) as [[y h']|]; reflexivity. Qed.
Lemma some_nil (r : option (text * list N)) : r = match r with None => None | Some (y, h) => Some (([] ++ y)%list, h) end.
Proof. destruct r as [[y h]|]; reflexivity. Qed.

(** Decoding in two steps *)
Lemma decode_app_aux n : forall a b, (List.length a <= n)%nat ->
  utf8_decode (a ++ b) = match utf8_decode a with
                         | None => None
                         | Some (x, h) => match utf8_decode (h ++ b) with None => None | Some (y, h') => Some ((x ++ y)%list, h') end
                         end.
Proof.
  induction n as [|n IH]; intros a b L; destruct a as [|x r]; cbn [List.length] in L; try lia; [apply some_nil|apply some_nil|].
  cbn [app utf8_decode]. destruct (x <? 128) eqn:E1.
  { rewrite IH by lia. symmetry. apply emit_bind. }
  destruct (between 194 223 x) eqn:E2.
  { destruct r as [|y r1]; cbn [app].
    - cbn [utf8_decode]. rewrite E1, E2. destruct b as [|y b]; [reflexivity|]. destruct (continuation y); [|reflexivity]. destruct (utf8_decode b) as [[? ?]|]; reflexivity.
    - destruct (continuation y); [|reflexivity]. cbn [List.length] in L. rewrite IH by lia. symmetry. apply emit_bind. }
  destruct (between 224 239 x) eqn:E3.
  { destruct r as [|y r1]; cbn [app].
    - cbn [utf8_decode]. rewrite E1, E2, E3. apply some_nil.
    - destruct (second3 x y) eqn:E4; [|reflexivity]. destruct r1 as [|z r2]; cbn [app].
      + cbn [utf8_decode]. rewrite E1, E2, E3, E4. apply some_nil.
      + destruct (continuation z); [|reflexivity]. cbn [List.length] in L. rewrite IH by lia. symmetry. apply emit_bind. }
  destruct (between 240 244 x) eqn:E4; [|reflexivity].
  destruct r as [|y r1]; cbn [app].
  - cbn [utf8_decode]. rewrite E1, E2, E3, E4. apply some_nil.
  - destruct (second4 x y) eqn:E5; [|reflexivity]. destruct r1 as [|z r2]; cbn [app].
    + cbn [utf8_decode]. rewrite E1, E2, E3, E4, E5. apply some_nil.
    + destruct (continuation z) eqn:E6; [|reflexivity]. destruct r2 as [|w r3]; cbn [app].
      * cbn [utf8_decode]. rewrite E1, E2, E3, E4, E5, E6. apply some_nil.
      * destruct (continuation w); [|reflexivity]. cbn [List.length] in L. rewrite IH by lia. symmetry. apply emit_bind.
Qed.
Lemma decode_app a b : utf8_decode (a ++ b) = match utf8_decode a with
  | None => None
  | Some (x, h) => match utf8_decode (h ++ b) with None => None | Some (y, h') => Some ((x ++ y)%list, h') end
  end.
Proof. apply (decode_app_aux (List.length a)). lia. Qed.

(** ** Against table 3-7 *)
Lemma second3_iff a b : 224 <= a <= 239 -> second3 a b = true <->
  (a = 224 /\ 160 <= b <= 191) \/ (225 <= a <= 236 /\ 128 <= b <= 191) \/ (a = 237 /\ 128 <= b <= 159) \/ (238 <= a <= 239 /\ 128 <= b <= 191).
Proof. intros H. unfold second3, continuation. destruct (N.eqb_spec a 224); [|destruct (N.eqb_spec a 237)]; rewrite between_iff; lia. Qed.
Lemma second4_iff a b : 240 <= a <= 244 -> second4 a b = true <->
  (a = 240 /\ 144 <= b <= 191) \/ (241 <= a <= 243 /\ 128 <= b <= 191) \/ (a = 244 /\ 128 <= b <= 143).
Proof. intros H. unfold second4, continuation. destruct (N.eqb_spec a 240); [|destruct (N.eqb_spec a 244)]; rewrite between_iff; lia. Qed.
Lemma decode_char c b r : utf8 c b -> utf8_decode (b ++ r) = emit c (utf8_decode r).
Proof.
  intros [a H|a b' H1 H2|a b' c' H1 H2|a b' c' d' H1 H2 H3]; cbn [app utf8_decode].
  - destruct (N.ltb_spec a 128); [reflexivity|lia].
  - destruct (N.ltb_spec a 128); [lia|]. rewrite (proj2 (between_iff 194 223 a)) by lia. unfold continuation. rewrite (proj2 (between_iff 128 191 b')) by lia. reflexivity.
  - assert (A : 224 <= a <= 239) by lia. destruct (N.ltb_spec a 128); [lia|]. rewrite (proj2 (between_false 194 223 a)) by lia.
    rewrite (proj2 (between_iff 224 239 a)) by lia. rewrite (proj2 (second3_iff a b' A) H1). unfold continuation. rewrite (proj2 (between_iff 128 191 c')) by lia. reflexivity.
  - assert (A : 240 <= a <= 244) by lia. destruct (N.ltb_spec a 128); [lia|]. rewrite (proj2 (between_false 194 223 a)), (proj2 (between_false 224 239 a)) by lia.
    rewrite (proj2 (between_iff 240 244 a)) by lia. rewrite (proj2 (second4_iff a b' A) H1). unfold continuation. rewrite (proj2 (between_iff 128 191 c')), (proj2 (between_iff 128 191 d')) by lia. reflexivity.
Qed.
Lemma decode_text t bs : utf8_text t bs -> utf8_decode bs = Some (t, []).
Proof. induction 1 as [|c b t bs H _ IH]; [reflexivity|]. rewrite (decode_char c b bs H), IH. reflexivity. Qed.
(** bytes that begin a character, or none *)
Definition partial (h : list N) : Prop := utf8_decode h = Some ([], h) /\ exists more t, utf8_text t (h ++ more).
Lemma utf8_single c b : utf8 c b -> utf8_text [c] b.
Proof. intros H. rewrite <- (app_nil_r b). constructor; [exact H|constructor]. Qed.
Lemma partial_nil : partial [].
Proof. split; [reflexivity|]. exists [], []. constructor. Qed.
Lemma partial2 a : 194 <= a <= 223 -> partial [a].
Proof.
  intros H. split.
  - cbn [utf8_decode]. destruct (N.ltb_spec a 128); [lia|]. rewrite (proj2 (between_iff 194 223 a)) by lia. reflexivity.
  - exists [128], [64 * (a - 192) + (128 - 128)]. apply utf8_single. apply (utf8_2 a 128); lia.
Qed.
Lemma exists_second3 a : 224 <= a <= 239 -> exists b, second3 a b = true.
Proof. intros H. destruct (N.eq_dec a 224) as [->|]; [exists 160; reflexivity|]. exists 128. apply second3_iff; [exact H|]. lia. Qed.
Lemma exists_second4 a : 240 <= a <= 244 -> exists b, second4 a b = true.
Proof. intros H. destruct (N.eq_dec a 240) as [->|]; [exists 144; reflexivity|]. exists 128. apply second4_iff; [exact H|]. lia. Qed.
Lemma partial3b a b : 224 <= a <= 239 -> second3 a b = true -> partial [a; b].
Proof.
  intros H S. split.
  - cbn [utf8_decode]. destruct (N.ltb_spec a 128); [lia|]. rewrite (proj2 (between_false 194 223 a)) by lia. rewrite (proj2 (between_iff 224 239 a)) by lia. rewrite S. reflexivity.
  - exists [128]. eexists. apply utf8_single. apply (utf8_3 a b 128); [apply second3_iff; assumption|lia].
Qed.
Lemma partial3a a : 224 <= a <= 239 -> partial [a].
Proof.
  intros H. destruct (exists_second3 a H) as (b & S). split.
  - cbn [utf8_decode]. destruct (N.ltb_spec a 128); [lia|]. rewrite (proj2 (between_false 194 223 a)) by lia. rewrite (proj2 (between_iff 224 239 a)) by lia. reflexivity.
  - destruct (partial3b a b H S) as (_ & m & t & K). exists (b :: m), t. exact K.
Qed.
Lemma partial4c a b c : 240 <= a <= 244 -> second4 a b = true -> 128 <= c <= 191 -> partial [a; b; c].
Proof.
  intros H S C. split.
  - cbn [utf8_decode]. destruct (N.ltb_spec a 128); [lia|]. rewrite (proj2 (between_false 194 223 a)), (proj2 (between_false 224 239 a)) by lia.
    rewrite (proj2 (between_iff 240 244 a)) by lia. rewrite S. unfold continuation. rewrite (proj2 (between_iff 128 191 c)) by lia. reflexivity.
  - exists [128]. eexists. apply utf8_single. apply (utf8_4 a b c 128); [apply second4_iff; assumption|lia|lia].
Qed.
Lemma partial4b a b : 240 <= a <= 244 -> second4 a b = true -> partial [a; b].
Proof.
  intros H S. split.
  - cbn [utf8_decode]. destruct (N.ltb_spec a 128); [lia|]. rewrite (proj2 (between_false 194 223 a)), (proj2 (between_false 224 239 a)) by lia.
    rewrite (proj2 (between_iff 240 244 a)) by lia. rewrite S. reflexivity.
  - destruct (partial4c a b 128 H S ltac:(lia)) as (_ & m & t & K). exists (128 :: m), t. exact K.
Qed.
Lemma partial4a a : 240 <= a <= 244 -> partial [a].
Proof.
  intros H. destruct (exists_second4 a H) as (b & S). split.
  - cbn [utf8_decode]. destruct (N.ltb_spec a 128); [lia|]. rewrite (proj2 (between_false 194 223 a)), (proj2 (between_false 224 239 a)) by lia.
    rewrite (proj2 (between_iff 240 244 a)) by lia. reflexivity.
  - destruct (partial4b a b H S) as (_ & m & t & K). exists (b :: m), t. exact K.
Qed.
Lemma decode_sound_aux n : forall bs t h, (List.length bs <= n)%nat -> utf8_decode bs = Some (t, h) ->
  exists b1, utf8_text t b1 /\ bs = (b1 ++ h)%list /\ partial h.
Proof.
  assert (NIL : forall h : list N, partial h -> exists b1, utf8_text [] b1 /\ h = (b1 ++ h)%list /\ partial h).
  { intros h P. exists []. repeat split; try apply P. constructor. }
  assert (MORE : forall c b r t h, utf8 c b ->
     (forall t h, utf8_decode r = Some (t, h) -> exists b1, utf8_text t b1 /\ r = (b1 ++ h)%list /\ partial h) ->
     emit c (utf8_decode r) = Some (t, h) -> exists b1, utf8_text t b1 /\ (b ++ r)%list = (b1 ++ h)%list /\ partial h).
  { intros c b r t h U K H. destruct (utf8_decode r) as [[t' h']|] eqn:D; [|discriminate]. cbn [emit] in H. injection H as <- <-.
    destruct (K _ _ eq_refl) as (b1 & T & -> & P). exists (b ++ b1)%list. split; [constructor; assumption|]. split; [apply app_assoc|exact P]. }
  induction n as [|n IH]; intros bs t h L H; destruct bs as [|x r]; cbn [List.length] in L; try lia.
  - injection H as <- <-. apply NIL, partial_nil.
  - injection H as <- <-. apply NIL, partial_nil.
  - cbn [utf8_decode] in H. destruct (N.ltb_spec x 128) as [X|X].
    { apply (MORE x [x]); [constructor; lia| |exact H]. intros ? ? D. apply IH; [lia|exact D]. }
    destruct (between 194 223 x) eqn:E2; [apply between_iff in E2|].
    { destruct r as [|y r1]; [injection H as <- <-; apply NIL, partial2; exact E2|]. destruct (continuation y) eqn:C; [|discriminate]. apply between_iff in C.
      apply (MORE _ [x; y]) in H; [exact H|constructor; lia|]. cbn [List.length] in L. intros ? ? D. apply IH; [lia|exact D]. }
    destruct (between 224 239 x) eqn:E3; [apply between_iff in E3|].
    { destruct r as [|y r1]; [injection H as <- <-; apply NIL, partial3a; exact E3|]. destruct (second3 x y) eqn:S; [|discriminate].
      destruct r1 as [|z r2]; [injection H as <- <-; apply NIL, partial3b; assumption|]. destruct (continuation z) eqn:C; [|discriminate]. apply between_iff in C.
      apply (MORE _ [x; y; z]) in H; [exact H|constructor; [apply second3_iff; assumption|lia]|]. cbn [List.length] in L. intros ? ? D. apply IH; [lia|exact D]. }
    destruct (between 240 244 x) eqn:E4; [apply between_iff in E4|discriminate].
    destruct r as [|y r1]; [injection H as <- <-; apply NIL, partial4a; exact E4|]. destruct (second4 x y) eqn:S; [|discriminate].
    destruct r1 as [|z r2]; [injection H as <- <-; apply NIL, partial4b; assumption|]. destruct (continuation z) eqn:C; [|discriminate]. apply between_iff in C.
    destruct r2 as [|w r3]; [injection H as <- <-; apply NIL, partial4c; assumption|]. destruct (continuation w) eqn:C'; [|discriminate]. apply between_iff in C'.
    apply (MORE _ [x; y; z; w]) in H; [exact H|constructor; [apply second4_iff; assumption|lia|lia]|]. cbn [List.length] in L. intros ? ? D. apply IH; [lia|exact D].
Qed.
Lemma decode_sound bs t h : utf8_decode bs = Some (t, h) -> exists b1, utf8_text t b1 /\ bs = (b1 ++ h)%list /\ partial h.
Proof. apply (decode_sound_aux (List.length bs)). lia. Qed.
Lemma decode_iff bs t : utf8_decode bs = Some (t, []) <-> utf8_text t bs.
Proof.
  split; [|apply decode_text]. intros H. apply decode_sound in H. destruct H as (b1 & H & -> & _). rewrite app_nil_r. exact H.
Qed.
Lemma utf8_text_app t bs t' bs' : utf8_text t bs -> utf8_text t' bs' -> utf8_text (t ++ t') (bs ++ bs').
Proof. induction 1 as [|c b t bs U _ IH]; intros H; [exact H|]. cbn [app]. rewrite <- app_assoc. constructor; auto. Qed.
Lemma hopeless_none bs : hopeless bs -> utf8_decode bs = None.
Proof.
  intros H. destruct (utf8_decode bs) as [[t h]|] eqn:D; [|reflexivity]. exfalso. apply decode_sound in D.
  destruct D as (b1 & T & -> & _ & more & t' & P). apply (H more (t ++ t')%list). rewrite <- app_assoc. apply utf8_text_app; assumption.
Qed.
Lemma utf8_text_length t bs : utf8_text t bs -> (List.length t <= List.length bs)%nat.
Proof. induction 1 as [|c b t bs U _ IH]; [cbn; lia|]. rewrite app_length. destruct U; cbn [List.length]; lia. Qed.

(** ** Encoding *)
Lemma char_encodes c : scalar c -> exists b, utf8_char c = Some b.
Proof.
  intros H. unfold utf8_char. destruct (c <? 128); [eauto|]. destruct (c <? 2048); [eauto|]. destruct (surrogate c) eqn:S.
  { unfold surrogate in S. apply between_iff in S. unfold scalar in H. lia. }
  destruct (c <? 65536); [eauto|]. destruct (N.ltb_spec c 1114112); [eauto|]. unfold scalar in H. lia.
Qed.
Lemma some_inj {A} (x y : A) : Some x = Some y -> x = y. Proof. congruence. Qed.
Lemma put2 c a b : c = 64 * (a - 192) + (b - 128) -> 194 <= a <= 223 -> 128 <= b <= 191 -> utf8 c [a; b].
Proof. intros ->. apply utf8_2. Qed.
Lemma put3 c a b d : c = 4096 * (a - 224) + 64 * (b - 128) + (d - 128) ->
  (a = 224 /\ 160 <= b <= 191) \/ (225 <= a <= 236 /\ 128 <= b <= 191) \/ (a = 237 /\ 128 <= b <= 159) \/ (238 <= a <= 239 /\ 128 <= b <= 191) ->
  128 <= d <= 191 -> utf8 c [a; b; d].
Proof. intros ->. apply utf8_3. Qed.
Lemma put4 c a b d e : c = 262144 * (a - 240) + 4096 * (b - 128) + 64 * (d - 128) + (e - 128) ->
  (a = 240 /\ 144 <= b <= 191) \/ (241 <= a <= 243 /\ 128 <= b <= 191) \/ (a = 244 /\ 128 <= b <= 143) ->
  128 <= d <= 191 -> 128 <= e <= 191 -> utf8 c [a; b; d; e].
Proof. intros ->. apply utf8_4. Qed.
Lemma char_sound c b : utf8_char c = Some b -> utf8 c b.
Proof.
  unfold utf8_char. intros H. destruct (digits64 c) as (m0 & m1 & m2 & q & D1 & D2 & D3 & D4 & D5 & D6 & B0 & B1 & B2 & D). rewrite D3, D5, D2, D4, D6, D1 in H. clear D1 D2 D3 D4 D5 D6. destruct (N.ltb_spec c 128) as [L1|L1]; [apply some_inj in H; subst b; constructor; lia|].
  destruct (N.ltb_spec c 2048) as [L2|L2].
  { apply some_inj in H; subst b. apply put2; lia. }
  destruct (surrogate c) eqn:S; [discriminate|]. unfold surrogate in S. apply between_false in S.
  destruct (N.ltb_spec c 65536) as [L3|L3].
  { apply some_inj in H; subst b. apply put3; lia. }
  destruct (N.ltb_spec c 1114112) as [L4|L4]; [|discriminate]. apply some_inj in H; subst b.
  apply put4; lia.
Qed.
Lemma encode_sound t : forall bs, utf8_encode t = Some bs -> utf8_text t bs.
Proof.
  induction t as [|c t IH]; intros bs H; cbn [utf8_encode] in H; [injection H as <-; constructor|].
  destruct (utf8_char c) as [b|] eqn:C; [|discriminate]. destruct (utf8_encode t) as [bs'|]; [|discriminate]. injection H as <-. constructor; [apply char_sound; exact C|auto].
Qed.
Lemma encode_total t : Forall scalar t -> exists bs, utf8_encode t = Some bs.
Proof.
  induction 1 as [|c t H _ [bs IH]]; [exists []; reflexivity|]. cbn [utf8_encode]. destruct (char_encodes c H) as [b ->]. rewrite IH. eauto.
Qed.
