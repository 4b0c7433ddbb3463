(** Proofs about the file-system effects of the writers. *)
From Coq Require Import String Ascii ZArith NArith Reals Bool Arith List Lia.
From Verif Require Import Base M_Text M_Poscar M_Files S_Text S_Files P_Text P_Poscar P_Poscar2 P_Poscar3 P_Poscar4.
Import ListNotations.

Lemma teqb_eq a b : teqb a b = true <-> a = b.
Proof. unfold teqb. destruct (list_eq_dec N.eq_dec a b); split; intros; congruence. Qed.
Lemma teqb_refl a : teqb a a = true. Proof. now apply teqb_eq. Qed.
Lemma upd_same f p x : upd f p x p = x. Proof. unfold upd. now rewrite teqb_refl. Qed.
Lemma upd_other f p x q : q <> p -> upd f p x q = f q.
Proof. intros H. unfold upd. destruct (teqb p q) eqn:E; auto. apply teqb_eq in E. congruence. Qed.

Lemma open_ok f p ow f1 : open_write f p ow = Ok f1 ->
  f1 = upd f p (Present []) /\ (f p = Absent \/ exists c, f p = Present c /\ ow = true).
Proof. unfold open_write. destruct (f p) as [|c|e]; [|destruct ow|]; intros [= <-]; eauto. Qed.

(** invariant of the writing loop *)
Definition winv (p : path) (f1 : fs) (whole : text) (s : wstate) : Prop :=
  same_except p f1 (w_fs s) /\
  exists c, w_fs s p = Present c /\ c ++ w_buffer s ++ concat (w_todo s) = whole.
Lemma winv_step p f1 whole s t : winv p f1 whole s -> wstep p s t -> winv p f1 whole t.
Proof.
  intros [Hs (c & Hc & Hw)] H. destruct H as [f b x ts|f c' a b ts Hp]; cbn in *.
  - split; [exact Hs|]. exists c. split; [exact Hc|]. cbn. rewrite <- app_assoc. exact Hw.
  - split.
    + intros q Hq. cbn. rewrite upd_other by exact Hq. now apply Hs.
    + exists (c' ++ a). cbn. rewrite upd_same. split; auto.
      rewrite Hp in Hc. injection Hc as <-. rewrite <- Hw, <- !app_assoc. reflexivity.
Qed.
Lemma winv_steps p f1 whole s t : winv p f1 whole s -> wsteps p s t -> winv p f1 whole t.
Proof. intros H Hs. induction Hs; auto. eapply winv_step; [apply IHHs, H|eassumption]. Qed.
Lemma winv_init p f ts : winv p f (concat ts) (mkW (upd f p (Present [])) [] ts).
Proof. split.
  - intros q Hq. cbn. now apply upd_other.
  - exists []. cbn. now rewrite upd_same. Qed.

Lemma run_ok f p ow ts o g : write_run f p ow (Ok ts) o g ->
  wrote p (concat ts) f o g.
Proof.
  intros H. destruct H as [e H|ts' e H Ho|ts' f1 f2 H Ho Hs|ts' f1 s H Ho Hs]; try discriminate;
    injection H as <-.
  - split; [intros q _|]; reflexivity.
  - apply open_ok in Ho as [-> Hp]. pose proof (winv_steps _ _ _ _ _ (winv_init p f ts) Hs) as [H1 (c & H2 & H3)].
    cbn in *. rewrite app_nil_r in H3. split; [exact H1|cbn; congruence].
  - apply open_ok in Ho as [-> Hp]. pose proof (winv_steps _ _ _ _ _ (winv_init p f ts) Hs) as [H1 (c & H2 & H3)].
    split; [exact H1|]. exists c. split; auto. exists (w_buffer s ++ concat (w_todo s)). now rewrite H3.
Qed.
Lemma run_err f p ow e o g : write_run f p ow (Err e) o g -> o = Raised e /\ g = f.
Proof. intros H. destruct H; try discriminate. split; congruence. Qed.
Lemma run_exists f p ow ts o g c : f p = Present c -> ow = false -> write_run f p ow (Ok ts) o g ->
  o = Raised FileExistsError /\ g = f.
Proof.
  intros Hp -> H. destruct H as [e H|ts' e H Ho|ts' f1 f2 H Ho Hs|ts' f1 s H Ho Hs]; try discriminate;
    unfold open_write in Ho; rewrite Hp in Ho; try discriminate.
  injection Ho as <-. auto.
Qed.
Lemma run_raised f p ow r e g : write_run f p ow r (Raised e) g -> g = f.
Proof. intros H. inversion H; auto. Qed.

(** progress *)
Lemma wsteps_trans p a b c : wsteps p a b -> wsteps p b c -> wsteps p a c.
Proof. intros H1 H2. induction H2; auto. econstructor; [apply IHwsteps, H1|eassumption]. Qed.
Lemma finish_steps p s : forall c, w_fs s p = Present c -> exists f2, wsteps p s (mkW f2 [] []).
Proof.
  destruct s as [f b ts]. revert f b. induction ts as [|t ts IH]; intros f b c Hc; cbn in Hc.
  - exists (upd f p (Present (c ++ b))). econstructor; [apply w_refl|].
    pose proof (w_flush p f c b [] [] Hc) as H. now rewrite app_nil_r in H.
  - destruct (IH f (b ++ t) c Hc) as [f2 H]. exists f2. eapply wsteps_trans; [|exact H].
    econstructor; [apply w_refl|]. constructor.
Qed.
Lemma run_progress f p ow ts : writable f ow p ->
  exists g, write_run f p ow (Ok ts) Done g.
Proof.
  intros H.
  assert (Ho : open_write f p ow = Ok (upd f p (Present []))).
  { unfold open_write. destruct H as [-> | (c & -> & ->)]; reflexivity. }
  destruct (finish_steps p (mkW (upd f p (Present [])) [] ts) [] (upd_same _ _ _)) as [g Hg].
  exists g. eapply run_done; eauto.
Qed.
Lemma buffer_all p f b ts : wsteps p (mkW f b ts) (mkW f (b ++ concat ts) []).
Proof.
  revert b. induction ts as [|t ts IH]; intros b; cbn.
  - rewrite app_nil_r. apply w_refl.
  - rewrite app_assoc. eapply wsteps_trans; [|apply IH]. econstructor; [apply w_refl|constructor].
Qed.
Lemma run_prefix f p ow ts c : writable f ow p ->
  prefix_of c (concat ts) -> exists g, write_run f p ow (Ok ts) Interrupted g /\ g p = Present c.
Proof.
  intros H [d Hd].
  assert (Ho : open_write f p ow = Ok (upd f p (Present []))).
  { unfold open_write. destruct H as [-> | (c' & -> & ->)]; reflexivity. }
  exists (upd (upd f p (Present [])) p (Present ([] ++ c))). split; [|cbn; apply upd_same].
  apply (run_interrupted _ _ _ _ ts (upd f p (Present [])) (mkW (upd (upd f p (Present [])) p (Present ([] ++ c))) d [])); auto.
  econstructor; [apply buffer_all|]. cbn [app]. rewrite Hd.
  apply (w_flush p (upd f p (Present [])) [] c d []). apply upd_same.
Qed.
Lemma run_blocked f p ow ts e o g : f p = Blocked e -> write_run f p ow (Ok ts) o g -> o = Raised e /\ g = f.
Proof.
  intros Hp H. destruct H as [e' H|ts' e' H Ho|ts' f1 f2 H Ho Hs|ts' f1 s H Ho Hs]; try discriminate;
    unfold open_write in Ho; rewrite Hp in Ho; try discriminate.
  injection Ho as <-. auto.
Qed.

(** * C54 *)
Lemma f_C54_invalid E f lattice numbers positions p overwrite label o g :
    ~ (valid_structure lattice numbers positions /\ numbers <> [] /\ contiguous numbers) ->
    write_structure E f lattice numbers positions p overwrite label o g -> (exists e, o = Raised e /\ (e = ValueError \/ e = IndexError)) /\ same_fs f g.
Proof.
    intros Hn H. unfold write_structure in H.
    destruct (structure_pieces E lattice numbers positions label) as [ts|e] eqn:Ep.
    - exfalso. apply Hn. apply (proj1 (f_C46_success E lattice numbers positions label)). eauto.
    - apply run_err in H as [-> ->]. split; [|intros q; reflexivity].
      exists e. split; auto. apply f_C46_failure in Ep. tauto.
Qed.
Lemma f_C54_invalid_ts E f lattice numbers positions p overwrite label o g :
    ~ (valid_trajectory lattice numbers positions /\ numbers <> [] /\ contiguous numbers) ->
    write_trajectory E f lattice numbers positions p overwrite label o g -> (exists e, o = Raised e /\ (e = ValueError \/ e = IndexError)) /\ same_fs f g.
Proof.
    intros Hn H. unfold write_trajectory in H.
    destruct (trajectory_pieces E lattice numbers positions label) as [ts|e] eqn:Ep.
    - exfalso. apply Hn. apply (proj1 (f_C52_success E lattice numbers positions label)). eauto.
    - apply run_err in H as [-> ->]. split; [|intros q; reflexivity].
      exists e. split; auto. apply f_C52_failure in Ep. tauto.
Qed.

(** a valid call with the text it is to write *)
Lemma f_C54_valid E lattice numbers positions label :
  valid_structure lattice numbers positions -> numbers <> [] -> contiguous numbers ->
  exists whole,
    (e_fl E 1%R = Fin 1 -> narr_wf lattice -> narr_wf positions ->
     exists lat pos, read_structure E whole = Ok (lat, numbers, pos) /\
       Forall2 (reread (e_fl E)) (na_data lattice) (entries lat) /\
       Forall2 (reread (e_fl E)) (na_data positions) (entries pos)) /\
    forall f p overwrite,
      (forall o g, write_structure E f lattice numbers positions p overwrite label o g -> wrote p whole f o g) /\
      (writable f overwrite p ->
        (exists g, write_structure E f lattice numbers positions p overwrite label Done g) /\
        forall c, prefix_of c whole ->
          exists g, write_structure E f lattice numbers positions p overwrite label Interrupted g /\ g p = Present c) /\
      (forall c o g, f p = Present c -> overwrite = false ->
         write_structure E f lattice numbers positions p overwrite label o g -> o = Raised FileExistsError /\ same_fs f g) /\
      (forall e o g, f p = Blocked e ->
         write_structure E f lattice numbers positions p overwrite label o g -> o = Raised e /\ same_fs f g).
Proof.
  intros H1 H2 H3.
  destruct (proj2 (f_C46_success E lattice numbers positions label) (conj H1 (conj H2 H3))) as [ts Hts].
  exists (concat ts). split.
  - intros Hf Hl Hp. destruct (f_C46_roundtrip E _ _ _ _ _ Hf Hl Hp Hts) as (lat & pos & Hr & _ & Ha & _ & Hb). eauto.
  - intros f p ow. unfold write_structure. rewrite Hts. split; [|split; [|split]].
    + intros o g. apply run_ok.
    + intros Ho. split; [now apply run_progress|]. intros c. now apply run_prefix.
    + intros c o g Hc Ho H. apply (run_exists _ _ _ _ _ _ c) in H as [-> ->]; auto. split; auto. intros q; reflexivity.
    + intros e o g Hb H. apply (run_blocked _ _ _ _ e) in H as [-> ->]; auto. split; auto. intros q; reflexivity.
Qed.
Lemma f_C54_valid_ts E lattice numbers positions label :
  valid_trajectory lattice numbers positions -> numbers <> [] -> contiguous numbers ->
  exists whole,
    (e_fl E 1%R = Fin 1 -> narr_wf lattice -> narr_wf positions ->
     exists ps, read_positions_ts E whole = Ok ps /\
       na_shape positions = [List.length ps; List.length numbers; 3]%nat /\
       Forall2 (reread (e_fl E)) (na_data positions) (flat_map entries ps)) /\
    forall f p overwrite,
      (forall o g, write_trajectory E f lattice numbers positions p overwrite label o g -> wrote p whole f o g) /\
      (writable f overwrite p ->
        (exists g, write_trajectory E f lattice numbers positions p overwrite label Done g) /\
        forall c, prefix_of c whole ->
          exists g, write_trajectory E f lattice numbers positions p overwrite label Interrupted g /\ g p = Present c) /\
      (forall c o g, f p = Present c -> overwrite = false ->
         write_trajectory E f lattice numbers positions p overwrite label o g -> o = Raised FileExistsError /\ same_fs f g) /\
      (forall e o g, f p = Blocked e ->
         write_trajectory E f lattice numbers positions p overwrite label o g -> o = Raised e /\ same_fs f g).
Proof.
  intros H1 H2 H3.
  destruct (proj2 (f_C52_success E lattice numbers positions label) (conj H1 (conj H2 H3))) as [ts Hts].
  exists (concat ts). split.
  - intros Hf Hl Hp. destruct (f_C52_roundtrip E _ _ _ _ _ Hf Hl Hp Hts) as (ps & Hr & Ha & _ & Hb). eauto.
  - intros f p ow. unfold write_trajectory. rewrite Hts. split; [|split; [|split]].
    + intros o g. apply run_ok.
    + intros Ho. split; [now apply run_progress|]. intros c. now apply run_prefix.
    + intros c o g Hc Ho H. apply (run_exists _ _ _ _ _ _ c) in H as [-> ->]; auto. split; auto. intros q; reflexivity.
    + intros e o g Hb H. apply (run_blocked _ _ _ _ e) in H as [-> ->]; auto. split; auto. intros q; reflexivity.
Qed.

(** * Histories of writer calls *)
Lemma run_changes f p ow r o g : write_run f p ow r o g ->
  same_except p f g /\ (ow = false -> forall c, f p = Present c -> g p = Present c).
Proof.
  intros H. destruct r as [ts|e].
  - split; [now apply run_ok in H as [H _]|]. intros -> c Hc.
    apply (run_exists _ _ _ _ _ _ c) in H as [_ ->]; auto.
  - apply run_err in H as [_ ->]. split; auto. intros q _; reflexivity.
Qed.
Lemma performs_run E c f o g : performs E c f o g -> exists r, write_run f (call_path c) (call_overwrite c) r o g.
Proof. destruct c; cbn; eauto. Qed.
Lemma text_dec (a b : text) : {a = b} + {a <> b}. Proof. apply list_eq_dec, N.eq_dec. Qed.

Lemma f_C54_history E f h g : history E f h g -> forall p c,
  (forall k o, In (k, o) h -> call_path k = p -> call_overwrite k = false) ->
  f p = Present c -> g p = Present c.
Proof.
  induction 1 as [f|f k o g h j Hp Hh IH]; intros p c Ho Hc; auto.
  apply IH; [intros k' o' Hi; apply (Ho k' o'); now right|].
  apply performs_run in Hp as [r Hr]. apply run_changes in Hr as [H1 H2].
  destruct (text_dec p (call_path k)) as [-> | Hn].
  - apply H2; auto. apply (Ho k o); [now left|reflexivity].
  - rewrite H1 by exact Hn. exact Hc.
Qed.
Lemma f_C54_untouched E f h g : history E f h g -> forall p,
  (forall k o, In (k, o) h -> call_path k = p -> exists e, o = Raised e) -> g p = f p.
Proof.
  induction 1 as [f|f k o g h j Hp Hh IH]; intros p Ho; auto.
  rewrite (IH p) by (intros k' o' Hi; apply (Ho k' o'); now right).
  apply performs_run in Hp as [r Hr].
  destruct (text_dec p (call_path k)) as [-> | Hn].
  - destruct (Ho k o (or_introl eq_refl) eq_refl) as [e ->]. apply run_raised in Hr. now rewrite Hr.
  - apply run_changes in Hr as [H1 _]. now apply H1.
Qed.

(** the generic writers: unsupported formats *)
Lemma f_C54_generic E f l n x p fmt ow o g :
  (fmt = "poscar"%string \/ fmt = "xdatcar"%string ->
   (generic_write_structure E f l n x p fmt ow o g <-> write_structure E f l n x p ow structure_label o g)) /\
  (fmt <> "poscar"%string -> fmt <> "xdatcar"%string ->
   generic_write_structure E f l n x p fmt ow o g -> o = Raised ValueError /\ g = f).
Proof.
  unfold generic_write_structure, write_structure, generic_pieces. split; [intros H; replace (supported structure_formats fmt) with true by (destruct H as [-> | ->]; reflexivity)|intros H1 H2; replace (supported structure_formats fmt) with false].
  - destruct (structure_pieces E l n x structure_label) as [ts|e] eqn:Ep; [tauto|].
    replace (key_to_value e) with e; [tauto|].
    apply f_C46_failure in Ep as [-> | [-> _]]; reflexivity.
  - apply run_err.
  - apply String.eqb_neq in H1, H2. cbn [supported structure_formats existsb]. rewrite H1, H2. reflexivity.
Qed.
Lemma f_C54_generic_ts E f l n x p fmt ow o g :
  (fmt = "xdatcar"%string ->
   (generic_write_trajectory E f l n x p fmt ow o g <-> write_trajectory E f l n x p ow trajectory_label o g)) /\
  (fmt <> "xdatcar"%string ->
   generic_write_trajectory E f l n x p fmt ow o g -> o = Raised ValueError /\ g = f).
Proof.
  unfold generic_write_trajectory, write_trajectory, generic_pieces. split; [intros ->; cbn [supported trajectory_formats existsb orb]; rewrite String.eqb_refl; cbn [orb]|intros H1; replace (supported trajectory_formats fmt) with false].
  - destruct (trajectory_pieces E l n x trajectory_label) as [ts|e] eqn:Ep; [tauto|].
    replace (key_to_value e) with e; [tauto|].
    apply f_C52_failure in Ep as [-> | [-> _]]; reflexivity.
  - apply run_err.
  - apply String.eqb_neq in H1. cbn [supported trajectory_formats existsb]. rewrite H1. reflexivity.
Qed.
