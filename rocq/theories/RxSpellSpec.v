(** The other ways to write a regular expression (RxSpec.v): escapes for
    characters, and the freedom in writing a class. *)
From Verif Require Import Base StrNumSpec RxSpec.

(** The first character of [w], or [n] if it is empty. *)
Definition first (w : list Z) (n : Z) : Z := match w with [] => n | c :: _ => c end.

(** \b \e \f \n \r \t *)
Definition letter_escape (l c : Z) : Prop :=
  In (l, c) [(98, 8); (101, 27); (102, 12); (110, 10); (114, 13); (116, 9)].
(** Characters that mean something after a backslash: these, 0 to 7, and x u s d h p *)
Definition escape_letter (c : Z) : Prop :=
  In c [98; 101; 102; 110; 114; 116; 120; 117; 115; 100; 104; 112] \/ 48 <= c <= 55.

(** At most [k] digits of value [c]; if fewer, what follows ([n]) is neither a
    digit nor white space. *)
Definition code (radix : Z) (k : nat) (w : list Z) (c n : Z) : Prop :=
  digits radix w c /\ (length w <= k)%nat /\
  (length w = k \/ ~ blank n /\ forall d, ~ digit radix n d).

(** [spells c w n]: outside a class, [w] followed by [n] (0 at the end of the
    pattern) stands for the character [c]. *)
Inductive spells (c : Z) : list Z -> Z -> Prop :=
| sp_plain n : special c = false -> spells c [c] n
| sp_quoted n : ~ escape_letter c -> spells c [92; c] n
| sp_letter l n : letter_escape l c -> spells c [92; l] n
| sp_octal o w n : 48 <= o <= 55 -> code 8 3 (o :: w) c n -> spells c (92 :: o :: w) n
| sp_hex w n : code 16 2 w c n -> spells c (92 :: 120 :: w) n
| sp_unicode w n : code 16 5 w c n -> spells c (92 :: 117 :: w) n.

(** Inside a class: any character after a backslash, and ] \ - only so *)
Inductive spells_in_class (c : Z) : list Z -> Prop :=
| sc_plain : c <> 93 -> c <> 92 -> c <> 45 -> spells_in_class c [c]
| sc_quoted : spells_in_class c [92; c].
Inductive range_spelt : Z * Z -> list Z -> Prop :=
| sr_one c w : spells_in_class c w -> range_spelt (c, c) w
| sr_two a b w1 w2 : spells_in_class a w1 -> spells_in_class b w2 -> range_spelt (a, b) (w1 ++ [45] ++ w2).
(** but a - just before the closing bracket stands for itself *)
Inductive ranges_spelt : list (Z * Z) -> list Z -> Prop :=
| ss_none : ranges_spelt [] []
| ss_dash : ranges_spelt [(45, 45)] [45]
| ss_more r l w w' : range_spelt r w -> ranges_spelt l w' -> ranges_spelt (r :: l) (w ++ w').
(** as does a - or ] just after the opening one; there a ^ must be quoted. *)
Inductive class_spelt (neg : bool) : list (Z * Z) -> list Z -> Prop :=
| sk_ranges l w : ranges_spelt l w -> first w 0 <> 45 -> (neg = false -> first w 0 <> 94) -> class_spelt neg l w
| sk_first c l w : c = 45 \/ c = 93 -> ranges_spelt l w -> class_spelt neg ((c, c) :: l) (c :: w).

(** [spelt r w n]: [w], followed by [n] (0 at the end of the pattern), is a way
    to write [r]. *)
Fixpoint spelt (r : rx) (w : list Z) (n : Z) : Prop :=
  match r with
  | XSeq s => spelt_sq s w n
  | XAlt s r => exists w1 w2, w = w1 ++ [124] ++ w2 /\ spelt_sq s w1 124 /\ spelt r w2 n
  end
with spelt_sq (s : sq) (w : list Z) (n : Z) : Prop :=
  match s with
  | SNil => w = []
  | SCons i s => exists w1 w2, w = w1 ++ w2 /\ spelt_item i w1 (first w2 n) /\ spelt_sq s w2 n
  end
with spelt_item (i : item) (w : list Z) (n : Z) : Prop :=
  match i with
  | ItBol => w = [94]
  | ItEol => w = [36]
  | It a q => exists w1, w = w1 ++ show_quant q /\ spelt_atom a w1 (first (show_quant q) n)
  end
with spelt_atom (a : atom) (w : list Z) (n : Z) : Prop :=
  match a with
  | AChar c => spells c w n
  | AAny => w = [46]
  | AClass neg l => exists w1, w = [91] ++ (if neg then [94] else []) ++ w1 ++ [93] /\ class_spelt neg l w1
  | AProp c => w = [92; c]
  | AGroup colon r => exists w1, w = [40] ++ (if colon then [63; 58] else []) ++ w1 ++ [41] /\ spelt r w1 41
  end.
(** A whole pattern *)
Definition written (r : rx) (re : list Z) : Prop := spelt r re 0.
