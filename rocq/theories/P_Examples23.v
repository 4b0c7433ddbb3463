(** Concrete cases: datasets read from files that hold any numbers (C64), a network with two
    rounds of message passing (C81). *)
From Coq Require Import ZArith Reals Bool Arith List Lia Lra.
From Verif Require Import Base LinAlg M_Validate M_Text M_Poscar M_Dataset S_Dataset S_Readings M_StructUtils S_Lattice M_Torch S_Torch M_Gnn S_Gnn P_Gnn S_Relabel
  P_Examples10 P_Examples15.
Import ListNotations.
Local Open Scope R_scope.

(** One atom in a cell with an entry [x] *)
Definition odd_file (x : num) : output :=
  (mkNarr [3; 3]%nat [x; Fin 0; Fin 0; Fin 0; Fin 1; Fin 0; Fin 0; Fin 0; Fin 1], [1%Z], mkNarr [1; 3]%nat [NaN; Fin 0; Fin 0],
   mkNarr [3; 3]%nat (repeat (Inf true) 9)).
Lemma odd_formed x : formed (odd_file x).
Proof. repeat split. Qed.
Lemma entry_same (a : narr) i x y : entry a i x -> entry a i y -> x = y.
Proof. intros [_ H] [_ H']. congruence. Qed.
Lemma odd_near x : near x x -> near_lattices (o_lattice (odd_file x)) (o_lattice (odd_file x)).
Proof.
  intros X i j a b A B. rewrite (entry_same _ _ _ _ B A). destruct A as [F A].
  assert (Z : forall r, near (Fin r) (Fin r)). { intros r. constructor. unfold Rminus. rewrite Rplus_opp_r, Rabs_R0. pose proof (Rabs_pos r). lra. }
  cbn [o_lattice odd_file fst snd na_shape na_data] in A.
  revert A. generalize (offset [3; 3]%nat [i; j]) as o. intros o A.
  do 9 (destruct o as [|o]; [cbn in A; assert (Q : forall u v : num, Some u = Some v -> u = v) by (intros; congruence); apply Q in A; subst a; auto|]). destruct o; discriminate.
Qed.
Lemma odd_apart x y : ~ near x y -> ~ near_lattices (o_lattice (odd_file x)) (o_lattice (odd_file y)).
Proof. intros N H. apply N. apply (H 0 0)%nat; (split; [repeat constructor|reflexivity]). Qed.
Lemma ex_C64_any : Forall formed [odd_file (Inf true); odd_file (Inf true)] /\ agreeing [odd_file (Inf true); odd_file (Inf true)] /\
  ~ agreeing [odd_file (Inf true); odd_file (Inf false)] /\ ~ agreeing [odd_file NaN; odd_file NaN] /\ ~ agreeing [odd_file (Fin 1); odd_file (Inf false)].
Proof.
  split; [repeat constructor; apply odd_formed|]. split.
  - split.
    + intros [|i] o o' H H'; cbn [nth_error] in H, H'; [|destruct i; discriminate]. injection H as <-. injection H' as <-. apply odd_near. constructor.
    + intros o o' [<-|[<-|[]]] [<-|[<-|[]]]; reflexivity.
  - split; [|split]; intros [H _]; specialize (H 0%nat _ _ eq_refl eq_refl); revert H; apply odd_apart; intros Q; inversion Q.
Qed.
Lemma ex_C64_nan : narr_wf (o_lattice (odd_file NaN)) /\ entry (o_lattice (odd_file NaN)) [0; 0]%nat NaN.
Proof. split; [reflexivity|]. split; [repeat constructor|reflexivity]. Qed.

(** Weights of the right sizes for two passes, five numbers per atom and four per edge *)
Definition filled (rows columns : nat) : linear := mkLinear (map (fun r => map (fun c => INR (r + c) / 10) (seq 0 columns)) (seq 0 rows)) (repeat (1/2) rows).
Definition level (n : nat) : norm := mkNorm (repeat 1 n) (repeat (1/4) n).
Definition ex_node_block : node_block := mkNB (filled 10 9) (level 10) (level 5) 5.
Definition ex_edge_block : edge_block := mkEB (filled 8 5) (filled 8 23) (level 8) (level 8) (level 4) (level 4) 4.
Definition full_weights : weights :=
  mkWeights [[1; 2; 3; 4; 5]; [5; 4; 3; 2; 1]] (filled 5 5) (filled 5 5) [ex_node_block; ex_node_block] [ex_edge_block; ex_edge_block]
    (filled 4 4) (mkBN (repeat 0 4) (repeat 1 4) (repeat 1 4) (repeat 0 4)) (filled 4 4) (filled 12 4).
Lemma ex_C81_network : exists g, triplet_finder true ex_dimenet /\ ex_net full_weights = Ok g /\ iterates_set [1; 8]%Z ex_numbers /\
  List.length (w_embedding full_weights) = 2%nat /\ history g g /\ mdet (cast_m (fun x => x) ex_lattice) <> 0 /\
  apart (fun x => x) (List.length ex_numbers) ex_good /\ g_ref_edges g <> [] /\ g_node_blocks g = [ex_node_block; ex_node_block].
Proof.
  destruct (ex_built full_weights eq_refl) as (g & E & B & HI & _). exists g. split; [exact ex_finder|]. split; [exact E|].
  split; [split; [repeat constructor; cbn; intuition discriminate|]; intros z; unfold ex_numbers; cbn; intuition|]. split; [reflexivity|]. split; [apply h_new|].
  split; [exact ex_det|]. split; [exact ex_apart|]. split; [intros X; rewrite X in HI; destruct HI|].
  destruct (new_weights _ _ _ _ _ _ _ _ _ _ _ _ _ _ _ _ _ _ E) as (X1 & X2 & X3 & X4 & _). exact X4.
Qed.
