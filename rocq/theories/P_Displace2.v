(** Proofs about writing displaced structures. *)
From Coq Require Import String Ascii ZArith NArith Reals Bool Arith List Lia Lra.
From Verif Require Import Base LinAlg M_Validate M_StructUtils M_Symmetry M_Reference M_Text M_Poscar M_Files M_Displace
  S_Lattice S_Vec S_Interp S_Text S_Files S_Displace P_StructUtils P_Reference P_Interp6 P_Poscar P_Poscar4 P_Files P_Displace.
Import ListNotations.
Local Open Scope R_scope.

Section loop.
  Variables (E : env) (r : refstruct) (fmt : string) (ow : bool).
  Definition job_pieces (position : arr V3) : res (list text) :=
    generic_pieces structure_formats fmt
      (structure_pieces E (narr_lattice (rs_lattice r)) (rs_numbers r) (narr_of position) structure_label).
  Definition job_text (job : arr V3 * path) (t : text) : Prop :=
    exists ps, job_pieces (fst job) = Ok ps /\ concat ps = t.

  Lemma raised_why f p ts e g : write_run f p ow (Ok ts) (Raised e) g ->
    (ow = false /\ e = FileExistsError /\ exists c, f p = Present c) \/ f p = Blocked e.
  Proof.
    intros H. inversion H as [e' H1|ts' e' H1 Ho| |]; subst; try discriminate.
    unfold open_write in Ho. destruct (g p) as [|c|x] eqn:Ep; [discriminate| |injection Ho as ->; auto].
    destruct ow; [discriminate|]. injection Ho as <-. left. eauto.
  Qed.

  Lemma loop_in_order f l o g : write_loop E r fmt ow f l o g ->
    forall ts, NoDup (map snd l) -> Forall2 job_text l ts -> wrote_in_order ow (combine (map snd l) ts) f o g.
  Proof.
    induction 1 as [f|f pos p l f1 o g Hw Hl IH|f pos p l o g Ho Hw]; intros ts Hn HF;
      inversion HF as [|job t l' ts' Ht HF' E1 E2]; subst; cbn [map snd combine] in *.
    - exists 0%nat. cbn. repeat split; auto; try (intros; lia); try (intros [|i]; intros; discriminate); intros; discriminate.
    - inversion Hn as [|p' ps' Hnot Hn']; subst.
      specialize (IH ts' Hn' HF') as (k & Hk & Hd & H1 & H2 & H3 & H4).
      destruct Ht as (ps & Hps & Ht). cbn [fst] in Hps. unfold generic_write_structure in Hw.
      change (generic_pieces structure_formats fmt _) with (job_pieces pos) in Hw. rewrite Hps in Hw.
      apply run_ok in Hw as [Hs Hp]. rewrite Ht in Hp.
      assert (Hin : forall i q u, nth_error (combine (map snd l) ts') i = Some (q, u) -> q <> p).
      { intros i q u Hi ->. apply Hnot. apply nth_error_In in Hi. now apply in_combine_l in Hi. }
      assert (Hfst : forall q, In q (map fst (combine (map snd l) ts')) -> In q (map snd l)).
      { intros q Hq. apply in_map_iff in Hq as ((q', u) & <- & Hi). now apply in_combine_l in Hi. }
      exists (S k). cbn [List.length]. repeat split.
      + lia.
      + intros ->. f_equal. now apply Hd.
      + intros Hq. apply Hd. lia.
      + intros [|i] q u Hi Hq; cbn in Hq.
        * injection Hq as <- <-. rewrite H4; [exact Hp|]. intros Hq. now apply Hnot, Hfst.
        * apply (H1 i); [lia|exact Hq].
      + intros q u Hq. cbn in Hq. specialize (H2 q u Hq). rewrite (Hs q) in H2 by now apply (Hin k q u). exact H2.
      + intros [|i] q u Hi Hq; [lia|]. cbn in Hq. rewrite (H3 i q u) by (auto; lia). apply Hs. now apply (Hin i q u).
      + intros q Hq. cbn in Hq. rewrite H4 by tauto. apply Hs. intros ->. tauto.
    - inversion Hn as [|p' ps' Hnot Hn']; subst.
      destruct Ht as (ps & Hps & Ht). cbn [fst] in Hps. unfold generic_write_structure in Hw.
      change (generic_pieces structure_formats fmt _) with (job_pieces pos) in Hw. rewrite Hps in Hw.
      pose proof (run_ok _ _ _ _ _ _ Hw) as [Hs Hp]. rewrite Ht in Hp.
      exists 0%nat. cbn [List.length]. repeat split.
      + lia.
      + contradiction.
      + discriminate.
      + intros i q u Hi. lia.
      + intros q u Hq. cbn in Hq. injection Hq as <- <-. destruct o as [|e|]; [congruence| |exact Hp].
        split; [exact Hp|]. eapply raised_why. exact Hw.
      + intros [|i] q u Hi Hq; [lia|]. cbn in Hq. apply Hs. intros ->. apply Hnot.
        apply nth_error_In in Hq. now apply in_combine_l in Hq.
      + intros q Hq. cbn in Hq. apply Hs. intros ->. tauto.
  Qed.

  Lemma loop_progress l : forall f ts, NoDup (map snd l) -> Forall2 job_text l ts ->
    (forall p, In p (map snd l) -> writable f ow p) -> exists g, write_loop E r fmt ow f l Done g.
  Proof.
    induction l as [|[pos p] l IH]; intros f ts Hn HF Hw; [exists f; constructor|].
    inversion HF as [|job t l' ts' (ps & Hps & Ht) HF' E1 E2]; subst. inversion Hn as [|p' ps' Hnot Hn']; subst.
    cbn [fst snd map] in *.
    destruct (run_progress f p ow ps) as [f1 H1]; [apply Hw; now left|].
    destruct (IH f1 ts' Hn' HF') as [g Hg].
    - intros q Hq. pose proof (run_ok _ _ _ _ _ _ H1) as [Hs _].
      unfold writable. rewrite Hs; [apply Hw; now right|]. intros ->. contradiction.
    - exists g. econstructor; [|exact Hg]. unfold generic_write_structure.
      change (generic_pieces structure_formats fmt _) with (job_pieces pos). now rewrite Hps.
  Qed.
End loop.

(** numbers in the cell *)
Lemma narr_lattice_wf m : narr_wf (narr_lattice m).
Proof. reflexivity. Qed.
Lemma narr_of_wf a : narr_wf (narr_of a).
Proof.
  unfold narr_wf. destruct a as [l|n]; cbn [narr_of na_shape na_data fold_right].
  - induction l as [|v l IH]; [reflexivity|]. cbn [flat_map List.length app]. cbn in IH |- *. lia.
  - rewrite repeat_length. unfold prod_list. cbn [fold_right]. lia.
Qed.
Definition arr_in_cell (a : arr V3) : Prop :=
  match a with AFin l => Forall (vall (fun x => 0 <= x <= 1)) l | Nan _ => True end.
Lemma narr_of_valid m numbers a : Forall known numbers -> arr_len a = List.length numbers -> arr_in_cell a ->
  valid_structure (narr_lattice m) numbers (narr_of a).
Proof.
  intros Hk Hl Hc. split; [reflexivity|]. split; [exact Hk|]. split.
  - destruct a; cbn in *; now rewrite Hl.
  - destruct a as [l|n]; cbn [narr_of na_data].
    + cbn in Hc. clear Hl. induction Hc as [|v l Hv Hc IH]; [constructor|]. cbn [flat_map].
      destruct Hv as (Hx & Hy & Hz). cbn [app]. constructor; [exact Hx|]. constructor; [exact Hy|]. constructor; [exact Hz|exact IH].
    + apply Forall_forall. intros x Hx. apply repeat_spec in Hx. subst. exact I.
Qed.

Definition numbers_of (a : arr V3) : list num := na_data (narr_of a).

(** The jobs: what will be written for positions [ps] *)
Lemma job_texts E r fmt ps :
  (fmt = "poscar"%string \/ fmt = "xdatcar"%string) ->
  Forall known (rs_numbers r) -> rs_numbers r <> [] -> contiguous (rs_numbers r) ->
  e_fl E 1 = M_Text.Fin 1 ->
  Forall (fun a => arr_len a = List.length (rs_numbers r) /\ arr_in_cell a) ps ->
  forall paths : list path, List.length paths = List.length ps ->
  exists ts, Forall2 (fun a t => file_holds E t (rs_lattice r) (rs_numbers r) (numbers_of a)) ps ts /\
    Forall2 (job_text E r fmt) (combine ps paths) ts.
Proof.
  intros Hfmt Hk Hne Hc Hfl HF. induction HF as [|a ps [Ha Hin] HF IH]; intros [|p paths] Hl; try discriminate.
  - exists []. split; constructor.
  - destruct (IH paths) as (ts & H1 & H2); [now injection Hl|].
    pose proof (narr_of_valid (rs_lattice r) (rs_numbers r) a Hk Ha Hin) as Hv.
    destruct (proj2 (f_C46_success E _ _ _ structure_label) (conj Hv (conj Hne Hc))) as [pcs Hp].
    exists (concat pcs :: ts). split.
    + constructor; [|exact H1].
      destruct (f_C46_roundtrip E _ _ _ _ _ Hfl (narr_lattice_wf _) (narr_of_wf _) Hp) as (lat & pos & Hr & _ & G1 & _ & G2).
      exists lat, pos. split; [exact Hr|]. split; [exact G1|exact G2].
    + cbn [combine]. constructor; [|exact H2]. exists pcs. split; [|reflexivity].
      unfold job_pieces, generic_pieces. cbn [fst]. rewrite Hp.
      destruct Hfmt as [-> | ->]; reflexivity.
Qed.

Lemma list_len_ok n : (n <= 256)%nat -> verify_list_len n (Some n) = Ok tt.
Proof.
  intros H. unfold verify_list_len, int_is. rewrite Z.eqb_refl.
  rewrite (proj2 (Z.leb_le _ _)), (proj2 (Z.leb_le _ _)) by lia. reflexivity.
Qed.
Lemma list_len_bad n m : (n <> m \/ 256 < n)%nat -> verify_list_len n (Some m) = Err ValueError.
Proof.
  intros H. unfold verify_list_len, int_is.
  destruct (Z.eqb_spec (Z.of_nat n) (Z.of_nat m)); [|reflexivity].
  destruct (Z.leb_spec (Z.of_nat n) 256); [lia|]. now rewrite andb_false_r.
Qed.

Lemma write_all_wrote E r fmt ps paths :
  (fmt = "poscar"%string \/ fmt = "xdatcar"%string) ->
  Forall known (rs_numbers r) -> rs_numbers r <> [] -> contiguous (rs_numbers r) ->
  e_fl E 1 = M_Text.Fin 1 ->
  Forall (fun a => arr_len a = List.length (rs_numbers r) /\ arr_in_cell a) ps ->
  List.length paths = List.length ps -> (0 < List.length ps <= 256)%nat -> NoDup paths ->
  exists ts, Forall2 (fun a t => file_holds E t (rs_lattice r) (rs_numbers r) (numbers_of a)) ps ts /\
    forall f overwrite,
      (forall o g, write_all E r fmt overwrite f (Ok ps) paths o g -> wrote_in_order overwrite (combine paths ts) f o g) /\
      ((forall p, In p paths -> writable f overwrite p) -> exists g, write_all E r fmt overwrite f (Ok ps) paths Done g).
Proof.
  intros Hfmt Hk Hne Hc Hfl HF Hl Hlen Hn.
  destruct (job_texts E r fmt ps Hfmt Hk Hne Hc Hfl HF paths Hl) as (ts & H1 & H2).
  exists ts. split; [exact H1|].
  assert (Hs : map snd (combine ps paths) = paths).
  { clear -Hl. revert paths Hl. induction ps as [|a ps IH]; intros [|p paths] Hl; try discriminate; [reflexivity|].
    cbn. f_equal. apply IH. now injection Hl. }
  assert (Hp : paths <> []) by (intros ->; cbn in Hl; lia).
  intros f ow. split.
  - intros o g H. destruct H as [H|e H He|qs e H Hq Hv|qs o g H Hq Hv Hloop]; try congruence.
    + injection Hq as <-. rewrite Hl, list_len_ok in Hv by lia. discriminate.
    + injection Hq as <-. apply loop_in_order with (ts := ts) in Hloop; rewrite ?Hs in *; auto.
  - intros Hw. destruct (loop_progress E r fmt ow (combine ps paths) f ts) as [g Hg]; rewrite ?Hs; auto.
    exists g. eapply all_loop; eauto. rewrite Hl. apply list_len_ok. lia.
Qed.

Lemma cell_images_in_cell p q : cell_images p q -> Forall (vall (fun x => 0 <= x <= 1)) q.
Proof.
  induction 1 as [|a b p q (Hx & Hy & Hz) H IH]; constructor; auto.
  destruct Hx as [_ Hx], Hy as [_ Hy], Hz as [_ Hz]. repeat split; lra.
Qed.
Lemma moved_len L p s q : List.length s = List.length p -> moved L p s q -> List.length q = List.length p.
Proof.
  intros Hs (x & Hx & Hc). apply F2_length in Hc. rewrite <- Hc. unfold rows_add. apply map2_length_eq.
  apply (f_equal (@List.length _)) in Hx. unfold rows_mul in Hx. rewrite map_length in Hx. congruence.
Qed.

Lemma f_C55_write E r d amps fmt paths :
  mdet (rs_lattice r) <> 0 -> List.length d = List.length (rs_positions r) -> (exists v, In v d /\ v <> v0) ->
  List.length (rs_numbers r) = List.length (rs_positions r) ->
  Forall known (rs_numbers r) -> contiguous (rs_numbers r) -> e_fl E 1 = M_Text.Fin 1 ->
  (fmt = "poscar"%string \/ fmt = "xdatcar"%string) ->
  List.length paths = List.length amps -> (0 < List.length amps <= 256)%nat -> NoDup paths ->
  exists qs ts,
    Forall2 (fun a q => moved (rs_lattice r) (rs_positions r) (rows_scale a (direction_of d)) q) amps qs /\
    Forall2 (fun q t => file_holds E t (rs_lattice r) (rs_numbers r) (coords q)) qs ts /\
    forall f overwrite,
      (forall o g, write_displaced_structures E r (Rows (AFin d)) (Some amps) paths fmt overwrite f o g ->
         wrote_in_order overwrite (combine paths ts) f o g) /\
      ((forall p, In p paths -> writable f overwrite p) ->
         exists g, write_displaced_structures E r (Rows (AFin d)) (Some amps) paths fmt overwrite f Done g).
Proof.
  intros Hd Hl Hn Hrn Hk Hc Hfl Hfmt Hp Hlen Hnd.
  destruct (f_C55_positions r d amps Hd Hl Hn) as (qs & Hq & HF).
  assert (Hne : rs_numbers r <> []).
  { destruct Hn as (v & Hi & _). intros Hz. rewrite Hz in Hrn. destruct d; [contradiction|]. cbn in *. lia. }
  assert (Hla : List.length amps = List.length qs) by now apply F2_length in HF.
  destruct (write_all_wrote E r fmt (map AFin qs) paths Hfmt Hk Hne Hc Hfl) as (ts & H1 & H2); rewrite ?map_length; try lia; auto.
  - apply Forall_forall. intros a Ha. apply in_map_iff in Ha as (q & <- & Hi).
    apply In_nth_error in Hi as [i Hi].
    assert (Hm : exists a, moved (rs_lattice r) (rs_positions r) (rows_scale a (direction_of d)) q).
    { clear -HF Hi. revert i Hi. induction HF as [|a q' amps qs Hm HF IH]; intros [|i] Hi; cbn in Hi; try discriminate.
      - injection Hi as <-. eauto.
      - eauto. }
    destruct Hm as [a Hm]. cbn [arr_len arr_in_cell]. split.
    + rewrite Hrn. eapply moved_len; [|exact Hm]. unfold direction_of, rows_scale. now rewrite !map_length.
    + destruct Hm as (x & _ & Hm). eapply cell_images_in_cell. exact Hm.
  - exists qs, ts. split; [exact HF|]. split.
    + clear -H1. remember (map AFin qs) as as_ eqn:Eq. revert qs Eq. induction H1 as [|a t l ts Ht H IH]; intros [|q qs] Eq;
        try discriminate; constructor; injection Eq as -> ->; [exact Ht|now apply IH].
    + intros f ow. unfold write_displaced_structures. rewrite Hq. apply H2.
Qed.

Lemma f_C55_write_ast E r i k v amps fmt paths :
  mdet (rs_lattice r) <> 0 -> v <> v0 -> (k < List.length (rs_positions r))%nat ->
  (i = Z.of_nat k \/ i = (Z.of_nat k - Z.of_nat (List.length (rs_positions r)))%Z) ->
  List.length (rs_numbers r) = List.length (rs_positions r) ->
  Forall known (rs_numbers r) -> contiguous (rs_numbers r) -> e_fl E 1 = M_Text.Fin 1 ->
  (fmt = "poscar"%string \/ fmt = "xdatcar"%string) ->
  List.length paths = List.length amps -> (0 < List.length amps <= 256)%nat -> NoDup paths ->
  exists qs ts,
    Forall2 (fun a q => moved_atom (rs_lattice r) (rs_positions r) k (vscale (a / vnorm v) v) q) amps qs /\
    Forall2 (fun q t => file_holds E t (rs_lattice r) (rs_numbers r) (coords q)) qs ts /\
    forall f overwrite,
      (forall o g, write_ast_displaced_structures E r i v (Some amps) paths fmt overwrite f o g ->
         wrote_in_order overwrite (combine paths ts) f o g) /\
      ((forall p, In p paths -> writable f overwrite p) ->
         exists g, write_ast_displaced_structures E r i v (Some amps) paths fmt overwrite f Done g).
Proof.
  intros Hd Hv Hki Hi Hrn Hk Hc Hfl Hfmt Hp Hlen Hnd.
  destruct (f_C55_ast r i k v amps Hd Hv Hki Hi) as (qs & Hq & HF).
  assert (Hne : rs_numbers r <> []).
  { intros Hz. rewrite Hz in Hrn. cbn in *. lia. }
  assert (Hla : List.length amps = List.length qs) by now apply F2_length in HF.
  destruct (write_all_wrote E r fmt (map AFin qs) paths Hfmt Hk Hne Hc Hfl) as (ts & H1 & H2); rewrite ?map_length; try lia; auto.
  - apply Forall_forall. intros a Ha. apply in_map_iff in Ha as (q & <- & Hin).
    apply In_nth_error in Hin as [j Hj].
    assert (Hm : exists a, moved_atom (rs_lattice r) (rs_positions r) k (vscale (a / vnorm v) v) q).
    { clear -HF Hj. revert j Hj. induction HF as [|a q' amps qs Hm HF IH]; intros [|j] Hj; cbn in Hj; try discriminate.
      - injection Hj as <-. eauto.
      - eauto. }
    destruct Hm as [a (Hlq & x & _ & Hm)]. cbn [arr_len arr_in_cell]. split; [congruence|].
    apply Forall_forall. intros b Hb. apply In_nth_error in Hb as [m Hb].
    destruct (nth_error (rs_positions r) m) as [p|] eqn:Ep.
    2:{ apply nth_error_None in Ep. rewrite <- Hlq in Ep. apply nth_error_None in Ep. congruence. }
    destruct (Hm m p b Ep Hb) as ([_ Hx] & [_ Hy] & [_ Hz]). repeat split; lra.
  - exists qs, ts. split; [exact HF|]. split.
    + clear -H1. remember (map AFin qs) as as_ eqn:Eq. revert qs Eq. induction H1 as [|a t l ts Ht H IH]; intros [|q qs] Eq;
        try discriminate; constructor; injection Eq as -> ->; [exact Ht|now apply IH].
    + intros f ow. unfold write_ast_displaced_structures. rewrite Hq. apply H2.
Qed.

(** * failures *)
Lemma get_count r d amps qs : get_displaced_positions r d (Some amps) = Ok qs -> List.length qs = List.length amps.
Proof.
  unfold get_displaced_positions. revert qs. generalize (darr_map unit_rows d). intros u.
  induction amps as [|a amps IH]; intros qs; cbn [mapM]; [intros [= <-]; reflexivity|].
  match goal with |- context [rbind ?x _] => destruct x as [y|e] end; cbn [rbind]; [|discriminate].
  match goal with |- context [mapM ?f amps] => destruct (mapM f amps) as [ys|e] end; cbn [rbind]; [|discriminate].
  intros [= <-]. cbn. f_equal. now apply IH.
Qed.
Lemma f_C55_count E r d amps paths fmt ow f o g :
  (List.length paths <> List.length amps \/ 256 < List.length paths)%nat ->
  write_displaced_structures E r d (Some amps) paths fmt ow f o g ->
  (exists e, o = Raised e /\ (get_displaced_positions r d (Some amps) = Err e \/ e = ValueError)) /\ g = f.
Proof.
  intros Hc H. destruct H as [H|e H He|qs e H Hq Hv|qs o g H Hq Hv Hloop].
  - split; eauto.
  - split; [|reflexivity]. eauto.
  - split; [|reflexivity]. exists e. split; auto. right. apply get_count in Hq. rewrite Hq in Hv.
    rewrite list_len_bad in Hv by lia. congruence.
  - exfalso. apply get_count in Hq. rewrite Hq, list_len_bad in Hv by lia. discriminate.
Qed.
Lemma f_C55_more_than_256 E r d amps paths fmt ow f o g :
  mdet (rs_lattice r) <> 0 -> List.length d = List.length (rs_positions r) -> (exists v, In v d /\ v <> v0) ->
  List.length paths = List.length amps -> (256 < List.length amps)%nat ->
  write_displaced_structures E r (Rows (AFin d)) (Some amps) paths fmt ow f o g ->
  o = Raised ValueError /\ g = f.
Proof.
  intros Hd Hl Hn Hp Hlen H.
  destruct (f_C55_positions r d amps Hd Hl Hn) as (qs & Hq & _).
  apply f_C55_count in H as [(e & -> & He) ->]; [|lia]. split; [|reflexivity].
  destruct He as [He | ->]; [congruence|reflexivity].
Qed.
Lemma f_C55_format E r d amps paths fmt ow f o g :
  fmt <> "poscar"%string -> fmt <> "xdatcar"%string -> amps <> Some [] ->
  write_displaced_structures E r d amps paths fmt ow f o g -> (exists e, o = Raised e) /\ g = f.
Proof.
  intros H1 H2 Ha H. destruct H as [H|e H He|qs e H Hq Hv|qs o g H Hq Hv Hloop]; eauto.
  destruct amps as [amps|]; [|discriminate].
  assert (Hqn : qs <> []) by (intros ->; apply get_count in Hq; destruct amps; cbn in Hq; congruence).
  destruct qs as [|q qs]; [congruence|]. destruct paths as [|p paths]; [congruence|].
  inversion Hloop as [|f' pos p' l f1 o' f2 Hw Hl|f' pos p' l o' f1 Ho Hw]; subst;
    apply f_C54_generic in Hw; auto; destruct Hw as [Hw1 Hw2]; try discriminate; subst; eauto.
Qed.
(** NaN positions are written without complaint *)
Lemma f_C56_write E r d amps fmt paths :
  mdet (rs_lattice r) <> 0 -> List.length d = List.length (rs_positions r) -> d <> [] -> Forall (fun v => v = v0) d ->
  List.length (rs_numbers r) = List.length (rs_positions r) ->
  Forall known (rs_numbers r) -> contiguous (rs_numbers r) -> e_fl E 1 = M_Text.Fin 1 ->
  (fmt = "poscar"%string \/ fmt = "xdatcar"%string) ->
  List.length paths = List.length amps -> (0 < List.length amps <= 256)%nat -> NoDup paths ->
  exists ts,
    Forall (fun t => file_holds E t (rs_lattice r) (rs_numbers r) (repeat NaN (List.length d * 3))) ts /\
    List.length ts = List.length paths /\
    forall f overwrite,
      (forall o g, write_displaced_structures E r (Rows (AFin d)) (Some amps) paths fmt overwrite f o g ->
         wrote_in_order overwrite (combine paths ts) f o g) /\
      ((forall p, In p paths -> writable f overwrite p) ->
         exists g, write_displaced_structures E r (Rows (AFin d)) (Some amps) paths fmt overwrite f Done g).
Proof.
  intros Hd Hl Hn Hz Hrn Hk Hc Hfl Hfmt Hp Hlen Hnd.
  pose proof (f_C56 r d amps Hd Hl Hn Hz) as Hq.
  assert (Hne : rs_numbers r <> []).
  { intros H. rewrite H in Hrn. destruct d; [contradiction|]. cbn in *. lia. }
  destruct (write_all_wrote E r fmt (map (fun _ => Nan (List.length (rs_positions r))) amps) paths Hfmt Hk Hne Hc Hfl)
    as (ts & H1 & H2); rewrite ?map_length; try lia; auto.
  - apply Forall_forall. intros a Ha. apply in_map_iff in Ha as (q & <- & Hi). cbn. auto.
  - exists ts. split; [|split].
    + rewrite Hl. clear -H1. remember (map _ amps) as l eqn:Eq. revert amps Eq.
      induction H1 as [|a t l ts Ht H IH]; intros [|q qs] Eq; try discriminate; constructor; injection Eq as -> ->;
        [exact Ht|eapply IH; reflexivity].
    + apply F2_length in H1. rewrite map_length in H1. congruence.
    + intros f ow. unfold write_displaced_structures. rewrite Hq. apply H2.
Qed.
