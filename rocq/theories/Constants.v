(** Tables of ramannoodle/constants.py, generated by scripts/gen_constants.py. *)
From Coq Require Import String ZArith QArith List Bool.
From Verif Require Import Base.
Import ListNotations.
Local Open Scope string_scope.

(** constants.py:125-244 [ATOMIC_NUMBERS], in dict order *)
Definition atomic_numbers : list (string * Z) :=
  [("H", 1%Z);
   ("He", 2%Z);
   ("Li", 3%Z);
   ("Be", 4%Z);
   ("B", 5%Z);
   ("C", 6%Z);
   ("N", 7%Z);
   ("O", 8%Z);
   ("F", 9%Z);
   ("Ne", 10%Z);
   ("Na", 11%Z);
   ("Mg", 12%Z);
   ("Al", 13%Z);
   ("Si", 14%Z);
   ("P", 15%Z);
   ("S", 16%Z);
   ("Cl", 17%Z);
   ("Ar", 18%Z);
   ("K", 19%Z);
   ("Ca", 20%Z);
   ("Sc", 21%Z);
   ("Ti", 22%Z);
   ("V", 23%Z);
   ("Cr", 24%Z);
   ("Mn", 25%Z);
   ("Fe", 26%Z);
   ("Co", 27%Z);
   ("Ni", 28%Z);
   ("Cu", 29%Z);
   ("Zn", 30%Z);
   ("Ga", 31%Z);
   ("Ge", 32%Z);
   ("As", 33%Z);
   ("Se", 34%Z);
   ("Br", 35%Z);
   ("Kr", 36%Z);
   ("Rb", 37%Z);
   ("Sr", 38%Z);
   ("Y", 39%Z);
   ("Zr", 40%Z);
   ("Nb", 41%Z);
   ("Mo", 42%Z);
   ("Tc", 43%Z);
   ("Ru", 44%Z);
   ("Rh", 45%Z);
   ("Pd", 46%Z);
   ("Ag", 47%Z);
   ("Cd", 48%Z);
   ("In", 49%Z);
   ("Sn", 50%Z);
   ("Sb", 51%Z);
   ("Te", 52%Z);
   ("I", 53%Z);
   ("Xe", 54%Z);
   ("Cs", 55%Z);
   ("Ba", 56%Z);
   ("La", 57%Z);
   ("Ce", 58%Z);
   ("Pr", 59%Z);
   ("Nd", 60%Z);
   ("Pm", 61%Z);
   ("Sm", 62%Z);
   ("Eu", 63%Z);
   ("Gd", 64%Z);
   ("Tb", 65%Z);
   ("Dy", 66%Z);
   ("Ho", 67%Z);
   ("Er", 68%Z);
   ("Tm", 69%Z);
   ("Yb", 70%Z);
   ("Lu", 71%Z);
   ("Hf", 72%Z);
   ("Ta", 73%Z);
   ("W", 74%Z);
   ("Re", 75%Z);
   ("Os", 76%Z);
   ("Ir", 77%Z);
   ("Pt", 78%Z);
   ("Au", 79%Z);
   ("Hg", 80%Z);
   ("Tl", 81%Z);
   ("Pb", 82%Z);
   ("Bi", 83%Z);
   ("Po", 84%Z);
   ("At", 85%Z);
   ("Rn", 86%Z);
   ("Fr", 87%Z);
   ("Ra", 88%Z);
   ("Ac", 89%Z);
   ("Th", 90%Z);
   ("Pa", 91%Z);
   ("U", 92%Z);
   ("Np", 93%Z);
   ("Pu", 94%Z);
   ("Am", 95%Z);
   ("Cm", 96%Z);
   ("Bk", 97%Z);
   ("Cf", 98%Z);
   ("Es", 99%Z);
   ("Fm", 100%Z);
   ("Md", 101%Z);
   ("No", 102%Z);
   ("Lr", 103%Z);
   ("Rf", 104%Z);
   ("Db", 105%Z);
   ("Sg", 106%Z);
   ("Bh", 107%Z);
   ("Hs", 108%Z);
   ("Mt", 109%Z);
   ("Ds", 110%Z);
   ("Rg", 111%Z);
   ("Cn", 112%Z);
   ("Nh", 113%Z);
   ("Fl", 114%Z);
   ("Mc", 115%Z);
   ("Lv", 116%Z);
   ("Ts", 117%Z);
   ("Og", 118%Z)].

(** constants.py:4-123 [ATOMIC_WEIGHTS] (exact decimal values) *)
Definition atomic_weights : list (string * Q) :=
  [("H", (1008 # 1000)%Q);
   ("He", (4002602 # 1000000)%Q);
   ("Li", (694 # 100)%Q);
   ("Be", (90121831 # 10000000)%Q);
   ("B", (1081 # 100)%Q);
   ("C", (12011 # 1000)%Q);
   ("N", (14007 # 1000)%Q);
   ("O", (15999 # 1000)%Q);
   ("F", (18998403163 # 1000000000)%Q);
   ("Ne", (201797 # 10000)%Q);
   ("Na", (2298976928 # 100000000)%Q);
   ("Mg", (24305 # 1000)%Q);
   ("Al", (269815385 # 10000000)%Q);
   ("Si", (28085 # 1000)%Q);
   ("P", (30973761998 # 1000000000)%Q);
   ("S", (3206 # 100)%Q);
   ("Cl", (3545 # 100)%Q);
   ("Ar", (39948 # 1000)%Q);
   ("K", (390983 # 10000)%Q);
   ("Ca", (40078 # 1000)%Q);
   ("Sc", (44955908 # 1000000)%Q);
   ("Ti", (47867 # 1000)%Q);
   ("V", (509415 # 10000)%Q);
   ("Cr", (519961 # 10000)%Q);
   ("Mn", (54938044 # 1000000)%Q);
   ("Fe", (55845 # 1000)%Q);
   ("Co", (58933194 # 1000000)%Q);
   ("Ni", (586934 # 10000)%Q);
   ("Cu", (63546 # 1000)%Q);
   ("Zn", (6538 # 100)%Q);
   ("Ga", (69723 # 1000)%Q);
   ("Ge", (7263 # 100)%Q);
   ("As", (74921595 # 1000000)%Q);
   ("Se", (78971 # 1000)%Q);
   ("Br", (79904 # 1000)%Q);
   ("Kr", (83798 # 1000)%Q);
   ("Rb", (854678 # 10000)%Q);
   ("Sr", (8762 # 100)%Q);
   ("Y", (8890584 # 100000)%Q);
   ("Zr", (91224 # 1000)%Q);
   ("Nb", (9290637 # 100000)%Q);
   ("Mo", (9595 # 100)%Q);
   ("Tc", (9790721 # 100000)%Q);
   ("Ru", (10107 # 100)%Q);
   ("Rh", (1029055 # 10000)%Q);
   ("Pd", (10642 # 100)%Q);
   ("Ag", (1078682 # 10000)%Q);
   ("Cd", (112414 # 1000)%Q);
   ("In", (114818 # 1000)%Q);
   ("Sn", (11871 # 100)%Q);
   ("Sb", (12176 # 100)%Q);
   ("Te", (1276 # 10)%Q);
   ("I", (12690447 # 100000)%Q);
   ("Xe", (131293 # 1000)%Q);
   ("Cs", (13290545196 # 100000000)%Q);
   ("Ba", (137327 # 1000)%Q);
   ("La", (13890547 # 100000)%Q);
   ("Ce", (140116 # 1000)%Q);
   ("Pr", (14090766 # 100000)%Q);
   ("Nd", (144242 # 1000)%Q);
   ("Pm", (14491276 # 100000)%Q);
   ("Sm", (15036 # 100)%Q);
   ("Eu", (151964 # 1000)%Q);
   ("Gd", (15725 # 100)%Q);
   ("Tb", (15892535 # 100000)%Q);
   ("Dy", (1625 # 10)%Q);
   ("Ho", (16493033 # 100000)%Q);
   ("Er", (167259 # 1000)%Q);
   ("Tm", (16893422 # 100000)%Q);
   ("Yb", (173054 # 1000)%Q);
   ("Lu", (1749668 # 10000)%Q);
   ("Hf", (17849 # 100)%Q);
   ("Ta", (18094788 # 100000)%Q);
   ("W", (18384 # 100)%Q);
   ("Re", (186207 # 1000)%Q);
   ("Os", (19023 # 100)%Q);
   ("Ir", (192217 # 1000)%Q);
   ("Pt", (195084 # 1000)%Q);
   ("Au", (196966569 # 1000000)%Q);
   ("Hg", (200592 # 1000)%Q);
   ("Tl", (20438 # 100)%Q);
   ("Pb", (2072 # 10)%Q);
   ("Bi", (2089804 # 10000)%Q);
   ("Po", (20898243 # 100000)%Q);
   ("At", (20998715 # 100000)%Q);
   ("Rn", (22201758 # 100000)%Q);
   ("Fr", (22301974 # 100000)%Q);
   ("Ra", (22602541 # 100000)%Q);
   ("Ac", (22702775 # 100000)%Q);
   ("Th", (2320377 # 10000)%Q);
   ("Pa", (23103588 # 100000)%Q);
   ("U", (23802891 # 100000)%Q);
   ("Np", (23704817 # 100000)%Q);
   ("Pu", (24406421 # 100000)%Q);
   ("Am", (24306138 # 100000)%Q);
   ("Cm", (24707035 # 100000)%Q);
   ("Bk", (24707031 # 100000)%Q);
   ("Cf", (25107959 # 100000)%Q);
   ("Es", (252083 # 1000)%Q);
   ("Fm", (25709511 # 100000)%Q);
   ("Md", (25809843 # 100000)%Q);
   ("No", (259101 # 1000)%Q);
   ("Lr", (26211 # 100)%Q);
   ("Rf", (267122 # 1000)%Q);
   ("Db", (268126 # 1000)%Q);
   ("Sg", (271134 # 1000)%Q);
   ("Bh", (270133 # 1000)%Q);
   ("Hs", (2691338 # 10000)%Q);
   ("Mt", (278156 # 1000)%Q);
   ("Ds", (281165 # 1000)%Q);
   ("Rg", (281166 # 1000)%Q);
   ("Cn", (285177 # 1000)%Q);
   ("Nh", (286182 # 1000)%Q);
   ("Fl", (28919 # 100)%Q);
   ("Mc", (289194 # 1000)%Q);
   ("Lv", (293204 # 1000)%Q);
   ("Ts", (293208 # 1000)%Q);
   ("Og", (294214 # 1000)%Q)].

(** [ATOMIC_NUMBERS[symbol]]: KeyError when absent. *)
Definition atomic_number (s : string) : res Z :=
  match find (fun e => String.eqb (fst e) s) atomic_numbers with
  | Some e => Ok (snd e)
  | None => Err KeyError
  end.

(** constants.py:246 [ATOM_SYMBOLS = {b: a for a, b in ATOMIC_NUMBERS.items()}].
    Numbers are pairwise distinct (P_Poscar3.f_C49_table), so dict overwriting
    does not matter. *)
Definition atom_symbol_opt (n : Z) : option string :=
  match find (fun e => Z.eqb (snd e) n) atomic_numbers with
  | Some e => Some (fst e)
  | None => None
  end.
Definition atom_symbol (n : Z) : res string :=
  match atom_symbol_opt n with Some s => Ok s | None => Err KeyError end.
