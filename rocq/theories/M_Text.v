(** Python text primitives used by the file readers and writers: str methods, text-mode
    reading, float()/int() parsing, number formatting and repr().

    A str is a list of Unicode code points.  A Python float is a real number, a signed
    infinity or NaN; signed zeros are not distinguished. *)
From Coq Require Import String Ascii ZArith NArith Reals Bool Arith List.
From Verif Require Import Base LinAlg M_Spectrum.
Import ListNotations.

Definition text := list N.
Fixpoint txt (s : string) : text :=
  match s with
  | EmptyString => []
  | String a s' => N_of_ascii a :: txt s'
  end.
Definition teqb (a b : text) : bool := if list_eq_dec N.eq_dec a b then true else false.

Local Open Scope N_scope.

Definition NL : N := 10.

(** str.isspace for one character (the full Unicode list) *)
Definition is_space (c : N) : bool :=
  existsb (N.eqb c)
    [9; 10; 11; 12; 13; 28; 29; 30; 31; 32; 133; 160; 5760;
     8192; 8193; 8194; 8195; 8196; 8197; 8198; 8199; 8200; 8201; 8202;
     8232; 8233; 8239; 8287; 12288].

(** [str.split()]: the maximal runs of non-space characters.  [split_go] returns the run
    at the beginning of the string (possibly empty) and the later runs. *)
Definition cons_ne (w : text) (ws : list text) : list text :=
  match w with [] => ws | _ => w :: ws end.
Fixpoint split_go (s : text) : text * list text :=
  match s with
  | [] => ([], [])
  | c :: s' =>
      let '(w, ws) := split_go s' in
      if is_space c then ([], cons_ne w ws) else (c :: w, ws)
  end.
Definition split (s : text) : list text := let '(w, ws) := split_go s in cons_ne w ws.

(** [str.strip()] *)
Fixpoint lstrip (s : text) : text :=
  match s with
  | [] => []
  | c :: s' => if is_space c then lstrip s' else s
  end.
Definition strip (s : text) : text := rev (lstrip (rev (lstrip s))).

(** [needle in hay] *)
Fixpoint prefixb (p s : text) : bool :=
  match p, s with
  | [], _ => true
  | a :: p', b :: s' => (a =? b) && prefixb p' s'
  | _, [] => false
  end.
Fixpoint contains (needle hay : text) : bool :=
  prefixb needle hay || match hay with [] => false | _ :: h => contains needle h end.

(** [str.lower()] on ASCII letters *)
Definition lower (c : N) : N := if (65 <=? c) && (c <=? 90) then c + 32 else c.

(** Text-mode reading translates "\r\n" and "\r" to "\n" (universal newlines). *)
Fixpoint universal (s : text) : text :=
  match s with
  | [] => []
  | c :: s' =>
      if c =? 13 then
        NL :: match s' with
              | d :: s'' => if d =? 10 then universal s'' else universal s'
              | [] => []
              end
      else c :: universal s'
  end.

(** [file.readline()]: the next line with its newline, "" at the end of the file; second
    component: what is left to read *)
Fixpoint readline (s : text) : text * text :=
  match s with
  | [] => ([], [])
  | c :: s' =>
      if c =? NL then ([c], s')
      else let '(l, r) := readline s' in (c :: l, r)
  end.

(** Python floats *)
Inductive num := Fin (r : R) | Inf (neg : bool) | NaN.

(** ** Parsing numbers.  Only ASCII digits are recognised (Python also accepts other
    Unicode decimal digits). *)
Definition digit_val (c : N) : option N :=
  if (48 <=? c) && (c <=? 57) then Some (c - 48) else None.
(** digits, single underscores allowed between digits *)
Fixpoint digits_more (s : text) : option (list N) :=
  match s with
  | [] => Some []
  | c :: s' =>
      if c =? 95 then
        match s' with
        | d :: s'' => match digit_val d with
                      | Some v => option_map (cons v) (digits_more s'')
                      | None => None
                      end
        | [] => None
        end
      else match digit_val c with
           | Some v => option_map (cons v) (digits_more s')
           | None => None
           end
  end.
Definition digit_part (s : text) : option (list N) :=
  match s with
  | c :: s' => match digit_val c with
               | Some v => option_map (cons v) (digits_more s')
               | None => None
               end
  | [] => None
  end.
Definition digits_value (ds : list N) : N := fold_left (fun a d => 10 * a + d) ds 0.

(** an optional sign *)
Definition sign (s : text) : bool * text :=
  match s with
  | c :: s' => if c =? 45 then (true, s') else if c =? 43 then (false, s') else (false, s)
  | [] => (false, [])
  end.
Definition signed (neg : bool) (n : N) : Z := if neg then (- Z.of_N n)%Z else Z.of_N n.

(** [int(s)]; None: ValueError (the 4300-digit limit is not modelled) *)
Definition int_of (s : text) : option Z :=
  let '(neg, u) := sign (strip s) in
  option_map (fun ds => signed neg (digits_value ds)) (digit_part u).

(** the text before the first character satisfying [p], and what follows it if any *)
Fixpoint break (p : N -> bool) (s : text) : text * option text :=
  match s with
  | [] => ([], None)
  | c :: s' => if p c then ([], Some s') else let '(a, b) := break p s' in (c :: a, b)
  end.
Definition opt_digits (s : text) : option (list N) :=
  match s with [] => Some [] | _ => digit_part s end.

(** [float(s)]; None: ValueError.  The decimal value is rounded to a float by [fl]. *)
Definition float_of (fl : R -> num) (s : text) : option num :=
  let '(neg, u) := sign (strip s) in
  let l := map lower u in
  if teqb l (txt "inf") || teqb l (txt "infinity") then Some (Inf neg)
  else if teqb l (txt "nan") then Some NaN
  else
    let '(m, e) := break (fun c => lower c =? 101) u in
    let '(ip, fp) := break (fun c => c =? 46) m in
    let fp' := match fp with Some f => f | None => [] end in
    match (match e with
           | None => Some 0%Z
           | Some x => let '(en, ed) := sign x in
                       option_map (fun ds => signed en (digits_value ds)) (digit_part ed)
           end), opt_digits ip, opt_digits fp' with
    | Some ez, Some di, Some df =>
        match (di ++ df)%list with
        | [] => None
        | ds => Some (fl (IZR (signed neg (digits_value ds))
                          * powerRZ 10 (ez - Z.of_nat (List.length df)))%R)
        end
    | _, _, _ => None
    end.

(** ** Formatting numbers *)
Definition digit_char (d : N) : N := 48 + d.
(** the [w] least significant decimal digits of [n], most significant first *)
Fixpoint fixed (w : nat) (n : N) : list N :=
  match w with
  | O => []
  | S w' => (fixed w' (n / 10) ++ [n mod 10])%list
  end.
(** the decimal digits of [n] without leading zeros *)
Fixpoint dec_fuel (fuel : nat) (n : N) : list N :=
  match fuel with
  | O => []
  | S f => if n <? 10 then [n] else (dec_fuel f (n / 10) ++ [n mod 10])%list
  end.
Definition dec_digits (n : N) : list N := dec_fuel (S (N.size_nat n)) n.

(** [str(n)] for an int *)
Definition str_int (n : Z) : text :=
  ((if (n <? 0)%Z then [45] else []) ++ map digit_char (dec_digits (Z.abs_N n)))%list.

(** left padding with spaces to a minimal width *)
Definition pad_left (w : nat) (s : text) : text := (repeat 32 (w - List.length s) ++ s)%list.

(** [f"{x:9.16f}"]: correctly rounded (ties to even) to 16 decimals *)
Definition fmt_body (x : num) : text :=
  match x with
  | Fin r =>
      let n := Z.to_N (rint (Rabs r * IZR (10 ^ 16))) in
      (((if Rltb r 0 then [45] else []) ++ map digit_char (dec_digits (n / 10 ^ 16)))
        ++ 46 :: map digit_char (fixed 16 (n mod 10 ^ 16)))%list
  | Inf neg => ((if neg then [45] else []) ++ txt "inf")%list
  | NaN => txt "nan"
  end.
Definition fmt_f16 (x : num) : text := pad_left 9 (fmt_body x).

(** ** [repr(s)[1:-1]].  [printable] is str.isprintable for non-ASCII code points. *)
Definition hex_char (d : N) : N := if d <? 10 then 48 + d else 87 + d.
Fixpoint hex (w : nat) (n : N) : text :=
  match w with
  | O => []
  | S w' => (hex w' (n / 16) ++ [hex_char (n mod 16)])%list
  end.
Definition repr_char (printable : N -> bool) (quote c : N) : text :=
  if (c =? 92) || (c =? quote) then [92; c]
  else if c =? 9 then txt "\t"
  else if c =? 10 then txt "\n"
  else if c =? 13 then txt "\r"
  else if (c <? 32) || (c =? 127) then (txt "\x" ++ hex 2 c)%list
  else if c <? 127 then [c]
  else if printable c then [c]
  else if c <? 256 then (txt "\x" ++ hex 2 c)%list
  else if c <? 65536 then (txt "\u" ++ hex 4 c)%list
  else (txt "\U" ++ hex 8 c)%list.
(** single quotes unless the string contains a single but no double quote *)
Definition repr_quote (s : text) : N :=
  if existsb (N.eqb 39) s && negb (existsb (N.eqb 34) s) then 34 else 39.
Definition repr_body (printable : N -> bool) (s : text) : text :=
  flat_map (repr_char printable (repr_quote s)) s.
