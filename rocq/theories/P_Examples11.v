(** Concrete cases for line ends. *)
From Coq Require Import String ZArith NArith Bool Arith List Lia.
From Verif Require Import Base M_Text M_Poscar M_Files S_Ends P_Examples5.
Import ListNotations.
Local Open Scope nat_scope.

Definition ex_unix : fs := fun p => if teqb p (txt "POSCAR") then Present ex_cart_file else Absent.
Definition ex_windows : fs := fun p => if teqb p (txt "POSCAR") then Present (with_line_ends CRLF ex_cart_file) else Absent.
Lemma ex_C80 : same_files ex_unix ex_windows /\ ex_windows (txt "POSCAR") <> ex_unix (txt "POSCAR") /\
  same_text ex_cart_file (with_line_ends CR ex_cart_file) /\ exists s, read_structure exE ex_cart_file = Ok s.
Proof.
  assert (HN : ~ In 13%N ex_cart_file). { intros H. vm_compute in H. repeat (destruct H as [H | H]; [discriminate|]). exact H. }
  split.
  - intros p. unfold ex_unix, ex_windows. destruct (teqb p (txt "POSCAR")); [right|left; reflexivity]. exists ex_cart_file, (with_line_ends CRLF ex_cart_file). split; [reflexivity|]. split; [reflexivity|]. split; [exact HN|]. right. left. reflexivity.
  - split; [vm_compute; discriminate|]. split; [split; [exact HN|right; right; reflexivity]|].
    destruct ex_C51 as (lat & numbers & p & H & _). exists (lat, numbers, p). exact H.
Qed.
