(** Concrete cases for C66 (arbitrary numbers) and C48 (escaped labels). *)
From Coq Require Import String ZArith NArith Reals Bool Arith List Lia Lra.
From Verif Require Import Base LinAlg M_Validate M_Text M_Poscar M_Outcar M_Vasprun M_Dataset S_Dataset S_Text S_Scaling P_Outcar P_Dataset P_Dataset2 P_Scaling
  P_Examples5.
Import ListNotations.
Local Open Scope nat_scope.

(** two samples; xx is 0 and 2, yy is infinite in one sample, the rest 1 *)
Definition odd_pol : narr :=
  mkNarr [2; 3; 3] [Fin 0; Fin 1; Fin 1; Fin 1; Inf true; Fin 1; Fin 1; Fin 1; Fin 1;
                    Fin 2; Fin 1; Fin 1; Fin 1; Fin 1; Fin 1; Fin 1; Fin 1; Fin 1]%R.
Definition odd_new : res dataset :=
  dataset_new (fun x => x) (tensor mI) [1%Z] (mkNarr [2; 1; 3] (repeat (Fin 0%R) 6)) odd_pol.
Lemma odd_xx : component_is odd_pol 0 0 [0%R; 2%R].
Proof.
  intros s x. unfold entry, odd_pol. cbn [na_shape na_data]. rewrite f2_inv3, off3. split.
  - intros [(Hs & _) H]. destruct s as [|[|s]]; [| |lia]; cbn in H; injection H as <-; eexists; split; reflexivity.
  - intros (r & Hr & ->). destruct s as [|[|s]]; [| |destruct s; discriminate]; cbn in Hr; injection Hr as <-; (split; [lia|reflexivity]).
Qed.
Lemma ex_C66_odd : exists d, odd_new = Ok d /\ narr_wf odd_pol /\ entry odd_pol [0; 1; 1] (Inf true) /\ ~ is_finite (Inf true) /\
  component_is odd_pol 0 0 [0%R; 2%R] /\ ~ constant [0%R; 2%R].
Proof.
  destruct odd_new as [d|e] eqn:E; [|discriminate]. exists d. split; [reflexivity|]. split; [reflexivity|].
  split; [split; [repeat constructor|reflexivity]|]. split; [intros [r H]; discriminate|]. split; [exact odd_xx|].
  intros C. specialize (C 0%R 2%R (or_introl eq_refl) (or_intror (or_introl eq_refl))). lra.
Qed.
(** an infinite standard deviation sends the component to zero *)
Definition wide : narr := mkNarr [3; 3] (Inf false :: repeat (Fin 1%R) 8).
Lemma ex_C66_any : exists d d', odd_new = Ok d /\ scalings d ([] ++ (tensor mI, wide) :: []) d' /\ entry (ds_scaled d') [1; 0] (Fin 0%R).
Proof.
  destruct odd_new as [d|e] eqn:E; [|discriminate]. assert (R : ds_raw d = odd_pol) by (apply new_ok in E; rewrite E; reflexivity).
  destruct (scale_polarizabilities d (tensor mI) wide) as [d'|e] eqn:H.
  2: { unfold scale_polarizabilities in H. rewrite R in H. discriminate. }
  assert (S : scalings d ([] ++ (tensor mI, wide) :: []) d') by (eapply scalings_ok; [exact H|constructor]).
  exists d, d'. split; [reflexivity|]. split; [exact S|].
  destruct (f_C66_any_scaling d [] [] (tensor mI) wide d' 2) as [_ G]; try (rewrite R; reflexivity); try reflexivity; [exact S|constructor|].
  destruct (G 1 0 0 0 (Fin 2%R) (Fin 1%R) (Inf false)) as (y & Hy & K); [reflexivity|rewrite R; split; [repeat constructor|reflexivity]|split; [repeat constructor|reflexivity]|split; [repeat constructor|reflexivity]|].
  cbn in K. subst y. exact Hy.
Qed.
(** a label with a newline, a quotation mark, a control character and an emoji *)
Definition odd_label : text := [10; 39; 1; 65; 128512]%N.
Lemma ex_C48_told : unicode odd_label /\ (exists pieces, structure_pieces exE exl exn exp odd_label = Ok pieces) /\
  literal (txt "\n'\x01A\U0001f600") odd_label /\ literal (txt "caf\xe9") [99; 97; 102; 233]%N.
Proof.
  split; [repeat constructor|]. split; [|split].
  - destruct ex_C46 as (_ & _ & _ & _ & _ & _ & pieces & H). unfold structure_pieces in *.
    destruct (verify_structure exl exn exp); [|discriminate]. destruct (get_symbols_str exn); [|discriminate]. eexists. reflexivity.
  - exact (repr_literal (fun _ => false) odd_label ltac:(repeat constructor)).
  - exact (repr_literal (fun _ => false) [99; 97; 102; 233]%N ltac:(repeat constructor)).
Qed.
