(** Specification vocabulary for files as bytes. *)
From Coq Require Import String ZArith NArith Reals Bool Arith List.
From Verif Require Import Base LinAlg M_Text M_Poscar M_Bytes.
Import ListNotations.
Local Open Scope N_scope.

(** The bytes of one character: the well-formed sequences of the Unicode Standard, table 3-7 *)
Inductive utf8 : N -> list N -> Prop :=
| utf8_1 a : a <= 127 -> utf8 a [a]
| utf8_2 a b : 194 <= a <= 223 -> 128 <= b <= 191 -> utf8 (64 * (a - 192) + (b - 128)) [a; b]
| utf8_3 a b c :
    (a = 224 /\ 160 <= b <= 191) \/ (225 <= a <= 236 /\ 128 <= b <= 191) \/
    (a = 237 /\ 128 <= b <= 159) \/ (238 <= a <= 239 /\ 128 <= b <= 191) ->
    128 <= c <= 191 -> utf8 (4096 * (a - 224) + 64 * (b - 128) + (c - 128)) [a; b; c]
| utf8_4 a b c d :
    (a = 240 /\ 144 <= b <= 191) \/ (241 <= a <= 243 /\ 128 <= b <= 191) \/ (a = 244 /\ 128 <= b <= 143) ->
    128 <= c <= 191 -> 128 <= d <= 191 ->
    utf8 (262144 * (a - 240) + 4096 * (b - 128) + 64 * (c - 128) + (d - 128)) [a; b; c; d].
(** The bytes of a text *)
Inductive utf8_text : text -> list N -> Prop :=
| utf8_empty : utf8_text [] []
| utf8_more c b t bs : utf8 c b -> utf8_text t bs -> utf8_text (c :: t) (b ++ bs).
(** Characters UTF-8 can express *)
Definition scalar (c : N) : Prop := c < 55296 \/ 57344 <= c < 1114112.
(** str.isprintable is false of surrogates and beyond Unicode *)
Definition sound_printable (E : env) : Prop := forall c, e_printable E c = true -> scalar c.
(** No way to go on makes these bytes the beginning of a UTF-8 text *)
Definition hopeless (bs : list N) : Prop := forall more t, ~ utf8_text t (bs ++ more).
