(** Proofs about the OUTCAR readers, part 2: the public functions. *)
From Coq Require Import String Ascii ZArith NArith QArith Qreals Reals Bool Arith List Lia Lra Sorted.
From Verif Require Import Base LinAlg Constants M_Validate M_StructUtils M_Text M_Poscar M_Outcar S_Text S_Lattice S_Outcar
  P_StructUtils P_Text P_Poscar P_Poscar2 P_Poscar4 P_Outcar.
Import ListNotations.
Local Open Scope nat_scope.

Lemma f2len {A B} {P : A -> B -> Prop} {l m} : Forall2 P l m -> List.length l = List.length m.
Proof. induction 1; cbn; congruence. Qed.

(** ** Lines *)
Lemma lines_of_are s : lines_are s (lines_of s).
Proof.
  induction s as [|c s (Hc & Hn & Hl & Hi)].
  - split; [reflexivity|]. split; [constructor|]. split; [intros l a b []|].
    intros g l l' h H. destruct g; discriminate.
  - cbn [lines_of]. destruct (N.eqb_spec c NL) as [-> | Hc'].
    + split; [cbn; rewrite Hc; reflexivity|]. split; [constructor; [discriminate|exact Hn]|]. split.
      * intros l a b [<- | H] Hab; [|eapply Hl; eassumption]. destruct a as [|x a]; cbn in Hab; [congruence|].
        injection Hab as _ Hab. destruct a; discriminate.
      * intros g l l' h H. destruct g as [|x g]; cbn in H; injection H as <- H; [exists []; reflexivity|].
        eapply Hi. exact H.
    + destruct (lines_of s) as [|l0 ls] eqn:He.
      * cbn in Hc. subst s. split; [reflexivity|]. split; [constructor; [discriminate|constructor]|]. split.
        { intros l a b [<- | []] Hab. destruct a as [|x a]; cbn in Hab; [congruence|].
          injection Hab as _ Hab. destruct a; discriminate. }
        { intros g l l' h H. destruct g as [|x [|y g]]; discriminate. }
      * split; [cbn in *; congruence|]. split.
        { inversion Hn; subst. constructor; [discriminate|assumption]. } split.
        { intros l a b [<- | H] Hab; [|eapply Hl; [right; exact H|exact Hab]].
          destruct a as [|x a]; cbn in Hab; [congruence|]. injection Hab as _ Hab. eapply Hl; [left; reflexivity|exact Hab]. }
        { intros g l l' h H. destruct g as [|x g]; cbn in H; injection H as <- H.
          - destruct (Hi [] l0 l' h) as [a ->]; [cbn; congruence|]. exists (c :: a). reflexivity.
          - apply (Hi (l0 :: g) l l' h). cbn. congruence. }
Qed.
Lemma lines_unique : forall s f, lines_are s f -> f = lines_of s.
Proof.
  induction s as [|c s IH]; intros f (Hc & Hn & Hl & Hi).
  - destruct f as [|l f]; [reflexivity|]. inversion Hn; subst. destruct l; [congruence|discriminate].
  - destruct f as [|l f]; [discriminate|]. inversion Hn as [|? ? Hl0 Hn']; subst. destruct l as [|c' l']; [congruence|].
    cbn in Hc. injection Hc as -> Hc. cbn [lines_of]. destruct (N.eqb_spec c NL) as [-> | Hne].
    + assert (l' = []) as -> by (eapply (Hl _ []); [left; reflexivity|reflexivity]). cbn in Hc. f_equal. apply IH.
      split; [exact Hc|]. split; [exact Hn'|]. split; [intros l a b H; apply Hl; right; exact H|].
      intros g l l' h ->. eapply (Hi ([NL] :: g)). reflexivity.
    + destruct l' as [|d l'].
      * destruct f as [|l2 f]; [cbn in Hc; subst s; reflexivity|]. destruct (Hi [] [c] l2 f eq_refl) as [a Ha].
        destruct a as [|x a]; [cbn in Ha; congruence|]. injection Ha as _ Ha. destruct a; discriminate.
      * assert (H : (d :: l') :: f = lines_of s).
        { apply IH. split; [cbn; exact Hc|]. split; [constructor; [discriminate|exact Hn']|]. split.
          - intros l a b [<- | H] Hab; [|eapply Hl; [right; exact H|exact Hab]].
            eapply (Hl _ (c :: a)); [left; reflexivity|]. cbn. rewrite Hab. reflexivity.
          - intros g l l2 h H. destruct g as [|x g]; cbn in H; injection H as <- H.
            + destruct (Hi [] (c :: d :: l') l2 h) as [a Ha]; [cbn; congruence|].
              destruct a as [|x a]; [discriminate|]. injection Ha as -> Ha. exists a. exact Ha.
            + apply (Hi ((c :: d :: l') :: g) l l2 h). cbn. congruence. }
        rewrite <- H. reflexivity.
Qed.
Lemma file_lines_open content f : file_lines content f <-> f = outcar_open content.
Proof. split; [apply lines_unique|intros ->; apply lines_of_are]. Qed.
(** C57 *)
Lemma f_C57_lines content : exists f, file_lines content f /\ forall g, file_lines content g -> g = f.
Proof. exists (outcar_open content). split; [apply file_lines_open; reflexivity|]. intros g. apply file_lines_open. Qed.

(** ** C58, C60: positions and structures *)
Lemma f_C58_positions E content f a : file_lines content f ->
  outcar_read_positions E content = Ok a <->
  exists symbols r r', species f symbols r /\ fractional_block E (List.length symbols) r a r'.
Proof.
  intros Hf. apply file_lines_open in Hf. unfold outcar_read_positions. rewrite <- Hf, bind_ok. split.
  - intros ([s r] & Hs & H). apply symbols_ok in Hs. apply bind_ok in H. destruct H as ([b r'] & Hb & H). injection H as ->.
    apply fractional_ok in Hb. eauto.
  - intros (s & r & r' & Hs & Hb). exists (s, r). split; [apply symbols_ok; exact Hs|]. apply bind_ok. exists (a, r').
    split; [apply fractional_ok; exact Hb|reflexivity].
Qed.
Lemma f_C58_positions_polarizability E content f a t : file_lines content f ->
  outcar_read_positions_and_polarizability E content = Ok (a, t) <->
  exists symbols r r' r'', species f symbols r /\ fractional_block E (List.length symbols) r a r' /\
    tensor_block E r' t r''.
Proof.
  intros Hf. apply file_lines_open in Hf. unfold outcar_read_positions_and_polarizability. rewrite <- Hf, bind_ok. split.
  - intros ([s r] & Hs & H). apply symbols_ok in Hs. apply bind_ok in H. destruct H as ([b r'] & Hb & H).
    apply bind_ok in H. destruct H as ([t' r''] & Ht & H). injection H as -> ->.
    apply fractional_ok in Hb. apply polarizability_ok in Ht. exists s, r, r', r''. auto.
  - intros (s & r & r' & r'' & Hs & Hb & Ht). exists (s, r). split; [apply symbols_ok; exact Hs|]. apply bind_ok. exists (a, r').
    split; [apply fractional_ok; exact Hb|]. apply bind_ok. exists (t, r''). split; [apply polarizability_ok; exact Ht|reflexivity].
Qed.
Lemma species_numbers f symbols r : species f symbols r -> numbers_are symbols (numbers_of symbols).
Proof. intros H. apply numbers_of_spec. eapply species_known. exact H. Qed.
Lemma names_fun : forall w z z', (exists n, In (n, z) atomic_numbers /\ w = txt n) ->
  (exists n, In (n, z') atomic_numbers /\ w = txt n) -> z = z'.
Proof.
  assert (D : forallb (fun p => forallb (fun q => negb (teqb (txt (fst p)) (txt (fst q))) || Z.eqb (snd p) (snd q)) atomic_numbers) atomic_numbers = true)
    by (vm_compute; reflexivity).
  intros w z z' (n & Hn & ->) (n' & Hn' & E). rewrite forallb_forall in D. specialize (D _ Hn).
  rewrite forallb_forall in D. specialize (D _ Hn'). cbn [fst snd] in D. apply orb_prop in D. destruct D as [D | D].
  - rewrite E, teqb_refl in D. discriminate.
  - apply Z.eqb_eq. exact D.
Qed.
Lemma numbers_are_fun symbols l l' : numbers_are symbols l -> numbers_are symbols l' -> l = l'.
Proof.
  intros H. revert l'. induction H as [|w z ws zs Hz _ IH]; intros l' H'; inversion H'; subst; [reflexivity|].
  f_equal; [eapply names_fun; eassumption|apply IH; assumption].
Qed.
Lemma f_C60_structure E content f lat numbers a t : file_lines content f ->
  outcar_read_structure_and_polarizability E content = Ok (lat, numbers, a, t) <->
  exists symbols r0 r1 r2 r3, species f symbols r0 /\ numbers_are symbols numbers /\
    lattice_block E r0 lat r1 /\ fractional_block E (List.length symbols) r1 a r2 /\ tensor_block E r2 t r3.
Proof.
  intros Hf. apply file_lines_open in Hf. unfold outcar_read_structure_and_polarizability. rewrite <- Hf, bind_ok. split.
  - intros ([s r] & Hs & H). apply symbols_ok in Hs. apply bind_ok in H. destruct H as ([l r'] & Hl & H).
    apply bind_ok in H. destruct H as ([b r''] & Hb & H). apply bind_ok in H. destruct H as ([t' r3] & Ht & H).
    injection H as -> <- -> ->. apply lattice_ok in Hl. apply fractional_ok in Hb. apply polarizability_ok in Ht.
    exists s, r, r', r'', r3. split; [exact Hs|]. split; [eapply species_numbers; exact Hs|]. auto.
  - intros (s & r & r' & r'' & r3 & Hs & Hn & Hl & Hb & Ht).
    rewrite <- (numbers_are_fun _ _ _ (species_numbers _ _ _ Hs) Hn).
    exists (s, r). split; [apply symbols_ok; exact Hs|]. apply bind_ok. exists (lat, r').
    split; [apply lattice_ok; exact Hl|]. apply bind_ok. exists (a, r''). split; [apply fractional_ok; exact Hb|].
    apply bind_ok. exists (t, r3). split; [apply polarizability_ok; exact Ht|reflexivity].
Qed.
Lemma f_C60_ref_structure {A} (mk : list Z -> narr -> narr -> res A) E content f s : file_lines content f ->
  outcar_read_ref_structure mk E content = Ok s <->
  exists symbols numbers lat a r0 r1 r2, species f symbols r0 /\ numbers_are symbols numbers /\
    lattice_block E r0 lat r1 /\ fractional_block E (List.length symbols) r1 a r2 /\ mk numbers lat a = Ok s.
Proof.
  intros Hf. apply file_lines_open in Hf. unfold outcar_read_ref_structure. rewrite <- Hf, bind_ok. split.
  - intros ([ss r] & Hs & H). apply symbols_ok in Hs. apply bind_ok in H. destruct H as ([l r'] & Hl & H).
    apply bind_ok in H. destruct H as ([b r''] & Hb & H). apply lattice_ok in Hl. apply fractional_ok in Hb.
    exists ss, (numbers_of ss), l, b, r, r', r''. split; [exact Hs|]. split; [eapply species_numbers; exact Hs|]. auto.
  - intros (ss & ns & l & b & r & r' & r'' & Hs & Hn & Hl & Hb & Hm).
    rewrite <- (numbers_are_fun _ _ _ (species_numbers _ _ _ Hs) Hn) in Hm.
    exists (ss, r). split; [apply symbols_ok; exact Hs|]. apply bind_ok. exists (l, r').
    split; [apply lattice_ok; exact Hl|]. apply bind_ok. exists (b, r''). split; [apply fractional_ok; exact Hb|exact Hm].
Qed.

(** Complete tables *)
Lemma concat_length_rows {A} k (l : list (list A)) : Forall (fun r => List.length r = k) l -> List.length (concat l) = List.length l * k.
Proof. induction 1 as [|r l H _ IH]; [reflexivity|]. cbn. rewrite app_length, H, IH. reflexivity. Qed.
Lemma rows3_rows E : forall f vs, rows3_at E f vs -> forall f', rows_are E (List.length f) (f ++ f') (map (fun v => entries3 (fin3 v)) vs).
Proof.
  intros f vs H f'. split; [rewrite map_length; symmetry; eapply f2len; exact H|].
  induction H as [|l v f vs Hl _ IH]; intros i x Hx; [destruct i; discriminate|].
  destruct i as [|i]; [injection Hx as <-; exact Hl|]. cbn in Hx. cbn. apply IH. exact Hx.
Qed.
Lemma concat_entries vs : concat (map (fun v => entries3 (fin3 v)) vs) = flat_map entries3 (map fin3 vs).
Proof. induction vs as [|v vs IH]; [reflexivity|]. cbn. rewrite IH. reflexivity. Qed.
Lemma rows3_table E body vs f' : vs <> [] -> rows3_at E body vs ->
  table_at E (List.length body) (body ++ f') (array2 vs) f'.
Proof.
  intros Hv H. exists (map (fun v => entries3 (fin3 v)) vs). split; [apply rows3_rows; exact H|]. split.
  - right. split; [destruct vs; [congruence|discriminate]|]. exists 3. split.
    + apply Forall_forall. intros x Hx. apply in_map_iff in Hx. destruct Hx as (v & <- & _). reflexivity.
    + unfold array2. rewrite map_length, concat_entries. reflexivity.
  - rewrite skipn_app, skipn_all, Nat.sub_diag. reflexivity.
Qed.
Lemma f_C58_complete E content f symbols r l body r' vs : file_lines content f ->
  species f symbols r ->
  first_with (txt "position of ions in fractional coordinates (direct lattice)") r l (body ++ r') ->
  rows3_at E body vs -> List.length body = List.length symbols -> symbols <> [] ->
  outcar_read_positions E content = Ok (array2 vs).
Proof.
  intros Hf Hs Hm Hb Hl Hne. apply (f_C58_positions _ _ _ _ Hf). exists symbols, r, r'. split; [exact Hs|].
  exists l, (body ++ r'). split; [exact Hm|]. rewrite <- Hl. apply rows3_table; [|exact Hb].
  apply f2len in Hb. destruct vs; [|discriminate]. destruct symbols; [congruence|]. cbn in *. lia.
Qed.

(** Truncated files *)
Lemma split_nil : split [] = []. Proof. reflexivity. Qed.
Lemma row_of_nil E : row_of E [] []. Proof. constructor. Qed.
Lemma concat_nils {A} k : concat (repeat (@nil A) k) = []. Proof. induction k; auto. Qed.
Lemma f_C58_truncated_header E content f symbols r l : file_lines content f ->
  species f symbols r ->
  first_with (txt "position of ions in fractional coordinates (direct lattice)") r l [] ->
  symbols <> [] ->
  outcar_read_positions E content = Ok (mkNarr [List.length symbols; 0] []).
Proof.
  intros Hf Hs Hm Hne. apply (f_C58_positions _ _ _ _ Hf). exists symbols, r, []. split; [exact Hs|].
  exists l, []. split; [exact Hm|]. exists (repeat [] (List.length symbols)). split; [|split].
  - split; [apply repeat_length|]. intros i x Hx. apply nth_error_In, repeat_spec in Hx. subst. destruct i; apply row_of_nil.
  - right. split; [destruct symbols; [congruence|discriminate]|]. exists 0. split.
    + apply Forall_forall. intros x Hx. apply repeat_spec in Hx. subst. reflexivity.
    + rewrite repeat_length, concat_nils. reflexivity.
  - destruct (List.length symbols); reflexivity.
Qed.
Lemma f_C58_truncated_table E content f symbols r l body vs : file_lines content f ->
  species f symbols r ->
  first_with (txt "position of ions in fractional coordinates (direct lattice)") r l body ->
  rows3_at E body vs -> body <> [] -> List.length body < List.length symbols ->
  outcar_read_positions E content = Err ValueError.
Proof.
  intros Hf Hs Hm Hb Hne Hl. apply file_lines_open in Hf. unfold outcar_read_positions. rewrite <- Hf.
  apply symbols_ok in Hs. rewrite Hs. cbn [rbind]. unfold outcar_fractional. apply skip_until_ok in Hm. rewrite Hm. cbn [or_invalid rbind].
  unfold table.
  set (rs := map (fun v => entries3 (fin3 v)) vs ++ repeat [] (List.length symbols - List.length body)).
  assert (Hr : table_rows E "fractional positions could not be parsed: " (List.length symbols) body = Ok (rs, skipn (List.length symbols) body)).
  { apply table_rows_ok. split; [|reflexivity]. pose proof (f2len Hb) as Hbl. split.
    - unfold rs. rewrite app_length, map_length, repeat_length. lia.
    - intros i x Hx. unfold rs in Hx. destruct (lt_dec i (List.length body)) as [Hi | Hi].
      + rewrite nth_error_app1 in Hx by (rewrite map_length; lia). pose proof (rows3_rows E body vs Hb []) as [_ H].
        rewrite app_nil_r in H. apply H. exact Hx.
      + rewrite nth_error_app2 in Hx by (rewrite map_length; lia). apply nth_error_In, repeat_spec in Hx. subst.
        rewrite nth_overflow by lia. apply row_of_nil. }
  rewrite Hr. cbn [rbind].
  assert (He : np_rows rs = Err ValueError).
  { apply np_rows_err. split; [reflexivity|]. inversion Hb as [|l0 v0 b0 v' Hl0 Hb0]; subst; [congruence|].
    exists (entries3 (fin3 v0)), []. split; [left; reflexivity|]. split; [|discriminate].
    apply in_or_app. right. destruct (List.length symbols - List.length (l0 :: b0)) eqn:Hd; [lia|]. left. reflexivity. }
  rewrite He. reflexivity.
Qed.
