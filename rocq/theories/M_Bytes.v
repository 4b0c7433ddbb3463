(** Files as bytes: the text layer of [open(path, mode, encoding="utf-8")] and the POSCAR and
    XDATCAR readers on it.  M_Poscar.v works on the decoded text; here decoding happens while
    the file is read, in blocks whose sizes the operating system and Python's version choose. *)
From Coq Require Import String ZArith NArith Reals Bool Arith List.
From Verif Require Import Base LinAlg M_Text M_Poscar.
Import ListNotations.
Local Open Scope N_scope.

(** ** CPython's UTF-8 codec, errors="strict" *)
Definition between (a b c : N) : bool := (a <=? c) && (c <=? b).
Definition surrogate (c : N) : bool := between 55296 57343 c.
(** [str.encode] of one character; None: UnicodeEncodeError *)
Definition utf8_char (c : N) : option (list N) :=
  if c <? 128 then Some [c]
  else if c <? 2048 then Some [192 + c / 64; 128 + c mod 64]
  else if surrogate c then None
  else if c <? 65536 then Some [224 + c / 4096; 128 + (c / 64) mod 64; 128 + c mod 64]
  else if c <? 1114112 then Some [240 + c / 262144; 128 + (c / 4096) mod 64; 128 + (c / 64) mod 64; 128 + c mod 64]
  else None.
Fixpoint utf8_encode (t : text) : option (list N) :=
  match t with
  | [] => Some []
  | c :: t' => match utf8_char c, utf8_encode t' with Some b, Some bs => Some (b ++ bs)%list | _, _ => None end
  end.
(** The incremental decoder: the characters that are complete and the bytes of an incomplete
    last one; None: UnicodeDecodeError *)
Definition emit (c : N) (r : option (text * list N)) : option (text * list N) :=
  match r with Some (t, h) => Some (c :: t, h) | None => None end.
Definition continuation (b : N) : bool := between 128 191 b.
Definition second3 (a b : N) : bool :=
  if a =? 224 then between 160 191 b else if a =? 237 then between 128 159 b else continuation b.
Definition second4 (a b : N) : bool :=
  if a =? 240 then between 144 191 b else if a =? 244 then between 128 143 b else continuation b.
Fixpoint utf8_decode (bs : list N) : option (text * list N) :=
  match bs with
  | [] => Some ([], [])
  | a :: r =>
      if a <? 128 then emit a (utf8_decode r)
      else if between 194 223 a then
        match r with
        | [] => Some ([], [a])
        | b :: r1 => if continuation b then emit (64 * (a - 192) + (b - 128)) (utf8_decode r1) else None
        end
      else if between 224 239 a then
        match r with
        | [] => Some ([], [a])
        | b :: r1 =>
            if second3 a b then
              match r1 with
              | [] => Some ([], [a; b])
              | c :: r2 =>
                  if continuation c then emit (4096 * (a - 224) + 64 * (b - 128) + (c - 128)) (utf8_decode r2) else None
              end
            else None
        end
      else if between 240 244 a then
        match r with
        | [] => Some ([], [a])
        | b :: r1 =>
            if second4 a b then
              match r1 with
              | [] => Some ([], [a; b])
              | c :: r2 =>
                  if continuation c then
                    match r2 with
                    | [] => Some ([], [a; b; c])
                    | d :: r3 =>
                        if continuation d
                        then emit (262144 * (a - 240) + 4096 * (b - 128) + 64 * (c - 128) + (d - 128)) (utf8_decode r3)
                        else None
                    end
                  else None
              end
            else None
        end
      else None
  end.

(** ** [TextIOWrapper] in universal-newlines mode *)
Record stream := mkStream {
  st_text : text;             (* decoded and translated, not yet returned *)
  st_held : list N;           (* bytes of an incomplete character *)
  st_cr : bool;               (* a carriage return waiting for the next character *)
  st_blocks : list (list N) }.  (* what the coming reads of the file return *)
Definition open_file (blocks : list (list N)) : stream := mkStream [] [] false blocks.
(** [IncrementalNewlineDecoder.decode(..., final=False)] *)
Definition hold_cr (cr : bool) (t : text) : text * bool :=
  match t with
  | [] => ([], cr)
  | _ =>
      let u := if cr then 13 :: t else t in
      if last u 0 =? 13 then (universal (removelast u), true) else (universal u, false)
  end.
(** [readline]: blocks are read until there is a line end; at the end of the file the decoder
    is flushed.  None: UnicodeDecodeError *)
Fixpoint has_line (t : text) : bool := match t with [] => false | c :: t' => (c =? NL) || has_line t' end.
Fixpoint readline_from (t : text) (held : list N) (cr : bool) (blocks : list (list N)) : option (text * stream) :=
  if has_line t then let '(l, r) := readline t in Some (l, mkStream r held cr blocks)
  else
    match blocks with
    | [] =>
        match held with
        | [] => let '(l, r) := readline (t ++ if cr then [NL] else []) in Some (l, mkStream r [] false [])
        | _ => None
        end
    | b :: blocks' =>
        match utf8_decode (held ++ b) with
        | None => None
        | Some (x, held') => let '(y, cr') := hold_cr cr x in readline_from (t ++ y) held' cr' blocks'
        end
    end.
Definition stream_readline (st : stream) : option (text * stream) :=
  readline_from (st_text st) (st_held st) (st_cr st) (st_blocks st).

(** ** The readers *)
(** UnicodeDecodeError is a ValueError; UnboundLocalError is raised by a handler that formats
    [line] when the failing [readline] was the first *)
Inductive byte_exn := Plain (e : exn) | UnicodeDecodeError | UnboundLocalError.
Inductive bres (A : Type) := BOk (a : A) | BErr (e : byte_exn).
Arguments BOk {A} a. Arguments BErr {A} e.
Definition bbind {A B} (r : bres A) (f : A -> bres B) : bres B := match r with BOk a => f a | BErr e => BErr e end.
Notation "'let^' p := r 'in' k" := (bbind r (fun p => k)) (at level 200, p pattern, r at level 100, k at level 200).
Definition plain {A} (r : res A) : bres A := match r with Ok a => BOk a | Err e => BErr (Plain e) end.
(** A read outside any [try] *)
Definition raw_line (st : stream) : bres (text * stream) :=
  match stream_readline st with Some p => BOk p | None => BErr UnicodeDecodeError end.
(** [except ValueError: raise InvalidFileException(f"...{line}")]: [line] is what the variable
    held before *)
Definition handler {A} (msg : string) (line : option text) : bres A :=
  match line with Some l => plain (invalid msg l) | None => BErr UnboundLocalError end.
(** poscar.py:31-41 and 106-116 *)
Definition byte_row (E : env) (msg : string) (line : option text) (st : stream) : bres (n3 * text * stream) :=
  match stream_readline st with
  | None => handler msg line
  | Some (l, st') =>
      match floats E (firstn 3 (split l)) with
      | Some [a; b; c] => BOk (mkN3 a b c, l, st')
      | _ => plain (invalid msg l)
      end
  end.
Fixpoint byte_rows (E : env) (msg : string) (n : nat) (line : option text) (st : stream) : bres (list n3 * stream) :=
  match n with
  | O => BOk ([], st)
  | S n' =>
      let^ (v, l, st1) := byte_row E msg line st in
      let^ (vs, st2) := byte_rows E msg n' (Some l) st1 in
      BOk (v :: vs, st2)
  end.
(** poscar.py:18-43 [_read_lattice]: the first two reads share one [try] *)
Definition byte_lattice (E : env) (st : stream) : bres (list n3 * stream) :=
  match stream_readline st with
  | None => handler "scale factor could not be parsed: " None
  | Some (_, st1) =>
      match stream_readline st1 with
      | None => handler "scale factor could not be parsed: " None
      | Some (line, st2) =>
          match float_of (e_fl E) line with
          | None => plain (invalid "scale factor could not be parsed: " line)
          | Some scale =>
              let^ (l, st3) := byte_rows E "lattice could not be parsed: " 3 (Some line) st2 in
              BOk (map (n3_scale scale) l, st3)
          end
      end
  end.
(** poscar.py:46-79 [_read_atomic_symbols]: its reads are outside [try] *)
Definition byte_symbols (st : stream) : bres (list text * stream) :=
  let^ (line, st1) := raw_line st in
  let symbols := split line in
  match symbols with
  | [] => plain (invalid "no atom symbols found" [])
  | _ =>
      match find (fun w => match symbol_number w with Some _ => false | None => true end) symbols with
      | Some w => plain (invalid "unrecognized atom symbol: " w)
      | None =>
          let^ (line2, st2) := raw_line st1 in
          let counts := split line2 in
          if negb (Nat.eqb (List.length counts) (List.length symbols)) then
            plain (invalid "wrong number of ion counts: "
              (str_int (Z.of_nat (List.length counts)) ++ txt " != " ++ str_int (Z.of_nat (List.length symbols))))
          else
            match ints counts with
            | None => plain (invalid "could not parse counts: " line2)
            | Some cs =>
                BOk (flat_map (fun p => repeat (fst p) (Z.to_nat (snd p))) (combine symbols cs), st2)
            end
      end
  end.
(** poscar.py:91-103 *)
Definition byte_mode (st : stream) : bres (bool * stream) :=
  let^ (label, st1) := raw_line st in
  match label with
  | [] => plain (invalid "missing first character in coordinate format: '" (label ++ quote))
  | c :: _ =>
      if is_space c then plain (invalid "missing first character in coordinate format: '" (label ++ quote))
      else
        let^ (label', st2) := (if N.eqb (lower c) 115 then raw_line st1 else BOk (label, st1)) in
        match label' with
        | [] => BErr (Plain IndexError)
        | c' :: _ =>
            if N.eqb (lower c') 99 then BOk (true, st2)
            else if N.eqb (lower c') 100 then BOk (false, st2)
            else plain (invalid "unrecognized coordinate format: " label')
        end
  end.
(** poscar.py:82-120 [_read_positions]: [line] is unbound before the first row *)
Definition byte_positions (E : env) (lattice : list n3) (num_atoms : nat) (st : stream) : bres (list n3 * stream) :=
  let^ (cart, st1) := byte_mode st in
  let^ (rows, st2) := byte_rows E "positions could not be parsed: " num_atoms None st1 in
  if cart then
    let^ i := plain (np_inv E lattice) in
    match rows with
    | [] => BErr (Plain ValueError)
    | _ => BOk (map (fun v => row_mul v i) rows, st2)
    end
  else BOk (rows, st2).
(** poscar.py:123-149 [read_positions], 152-174 [read_structure] *)
Definition read_positions_file (E : env) (blocks : list (list N)) : bres (list n3) :=
  let^ (lattice, s1) := byte_lattice E (open_file blocks) in
  let^ (symbols, s2) := byte_symbols s1 in
  let^ (positions, _) := byte_positions E lattice (List.length symbols) s2 in
  BOk positions.
Definition read_structure_file (E : env) (blocks : list (list N)) : bres (list n3 * list Z * list n3) :=
  let^ (lattice, s1) := byte_lattice E (open_file blocks) in
  let^ (symbols, s2) := byte_symbols s1 in
  let^ (positions, _) := byte_positions E lattice (List.length symbols) s2 in
  BOk (lattice, numbers_of symbols, positions).
(** xdatcar.py:48-55; [fuel] as in M_Poscar.v: every iteration consumes at least a byte *)
Fixpoint byte_configs (E : env) (fuel : nat) (lattice : list n3) (n : nat) (st : stream) : bres (list (list n3)) :=
  match fuel with
  | O => BOk []
  | S f =>
      match byte_positions E lattice n st with
      | BOk (p, st') => let^ ps := byte_configs E f lattice n st' in BOk (p :: ps)
      | BErr (Plain (InvalidFileException msg)) =>
          if contains stop_message msg then BOk [] else BErr (Plain (InvalidFileException msg))
      | BErr e => BErr e
      end
  end.
(** xdatcar.py:21-56 [read_positions_ts] *)
Definition read_trajectory_file (E : env) (blocks : list (list N)) : bres (list (list n3)) :=
  let^ (lattice, s1) := byte_lattice E (open_file blocks) in
  let^ (symbols, s2) := byte_symbols s1 in
  byte_configs E (S (List.length (concat blocks))) lattice (List.length symbols) s2.

(** [file.write] of the pieces to a file opened with the same encoding; None:
    UnicodeEncodeError *)
Definition file_bytes (pieces : list text) : option (list N) := utf8_encode (concat pieces).
