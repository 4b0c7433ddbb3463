(** Specification vocabulary for line ends. *)
From Coq Require Import NArith Bool List.
From Verif Require Import Base M_Text M_Files.
Import ListNotations.
Local Open Scope N_scope.

(** The text [s] with another line end in place of every newline. *)
Definition with_line_ends (e s : text) : text := flat_map (fun c => if c =? 10 then e else [c]) s.
Definition CRLF : text := [13; 10].
Definition CR : text := [13].
(** [t] is [s] with Unix, Windows or old Macintosh line ends. *)
Definition same_text (s t : text) : Prop := ~ In 13 s /\ (t = s \/ t = with_line_ends CRLF s \/ t = with_line_ends CR s).
(** The same files, up to the line ends of some of them. *)
Definition same_files (f f' : fs) : Prop :=
  forall p, f' p = f p \/ exists s t, f p = Present s /\ f' p = Present t /\ same_text s t.
