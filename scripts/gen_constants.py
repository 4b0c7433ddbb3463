#!/usr/bin/env python3
"""Generate rocq/theories/Constants.v from /repo/ramannoodle/constants.py (text only)."""
import ast, sys
src = open("/repo/ramannoodle/constants.py").read()
tree = ast.parse(src)
tabs = {}
for node in tree.body:
    if isinstance(node, ast.Assign) and isinstance(node.value, ast.Dict):
        tabs[node.targets[0].id] = [(k.value, ast.get_source_segment(src, v), node.lineno, node.end_lineno)
                                    for k, v in zip(node.value.keys, node.value.values)]
nums = tabs["ATOMIC_NUMBERS"]; wts = tabs["ATOMIC_WEIGHTS"]
out = []
w = out.append
w("(** Tables of ramannoodle/constants.py, generated by scripts/gen_constants.py. *)")
w("From Coq Require Import String ZArith QArith List Bool.")
w("From Verif Require Import Base.")
w("Import ListNotations.")
w("Local Open Scope string_scope.\n")
w("(** constants.py:%d-%d [ATOMIC_NUMBERS], in dict order *)" % (nums[0][2], nums[0][3]))
w("Definition atomic_numbers : list (string * Z) :=\n  [" + ";\n   ".join(
    '("%s", %s%%Z)' % (k, v) for k, v, _, _ in nums) + "].\n")
w("(** constants.py:%d-%d [ATOMIC_WEIGHTS] (exact decimal values) *)" % (wts[0][2], wts[0][3]))
def q(v):
    if "." in v:
        a, b = v.split(".")
        return "(%s # %s)%%Q" % (str(int(a + b)), "1" + "0" * len(b))
    return "(%s # 1)%%Q" % v
w("Definition atomic_weights : list (string * Q) :=\n  [" + ";\n   ".join(
    '("%s", %s)' % (k, q(v)) for k, v, _, _ in wts) + "].\n")
w('''(** [ATOMIC_NUMBERS[symbol]]: KeyError when absent. *)
Definition atomic_number (s : string) : res Z :=
  match find (fun e => String.eqb (fst e) s) atomic_numbers with
  | Some e => Ok (snd e)
  | None => Err KeyError
  end.

(** constants.py:246 [ATOM_SYMBOLS = {b: a for a, b in ATOMIC_NUMBERS.items()}].
    Numbers are pairwise distinct (P_Poscar3.f_C49_table), so dict overwriting
    does not matter. *)
Definition atom_symbol_opt (n : Z) : option string :=
  match find (fun e => Z.eqb (snd e) n) atomic_numbers with
  | Some e => Some (fst e)
  | None => None
  end.
Definition atom_symbol (n : Z) : res string :=
  match atom_symbol_opt n with Some s => Ok s | None => Err KeyError end.''')
open("/verif/rocq/theories/Constants.v", "w").write("\n".join(out) + "\n")
