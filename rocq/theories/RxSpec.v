(** What a regular expression is, how it is written and what it matches:
    independent of the compiler and of the matcher. *)
From Verif Require Import Base CharModel CharSpec.

(** Items are [^], [$], or an atom with a quantifier; a group holds
    alternatives of sequences of items. *)
Inductive quant := QOne | QOpt | QStar | QPlus.
Inductive rx := XSeq (s : sq) | XAlt (s : sq) (r : rx)
with sq := SNil | SCons (i : item) (s : sq)
with item := ItBol | ItEol | It (a : atom) (q : quant)
with atom :=
| AChar (c : Z)
| AAny
| AClass (neg : bool) (ranges : list (Z * Z))
| AProp (c : Z)                       (* \s \d \h *)
| AGroup (colon : bool) (r : rx).     (* (...) or (?:...) *)

(** ** How it is written *)

(** Characters that mean something outside a class: ^ $ . ? * + { \ [ | ( ) *)
Definition special (c : Z) : bool :=
  existsb (Z.eqb c) [94; 36; 46; 63; 42; 43; 123; 92; 91; 124; 40; 41].
Definition show_char (c : Z) : list Z := if special c then [92; c] else [c].
(** and in a class: ] \ - ^ *)
Definition class_special (c : Z) : bool := existsb (Z.eqb c) [93; 92; 45; 94].
Definition show_class_char (c : Z) : list Z := if class_special c then [92; c] else [c].
Definition show_range (r : Z * Z) : list Z :=
  if fst r =? snd r then show_class_char (fst r)
  else show_class_char (fst r) ++ [45] ++ show_class_char (snd r).
Definition show_quant (q : quant) : list Z :=
  match q with QOne => [] | QOpt => [63] | QStar => [42] | QPlus => [43] end.

Fixpoint show (r : rx) : list Z :=
  match r with
  | XSeq s => show_sq s
  | XAlt s r => show_sq s ++ [124] ++ show r
  end
with show_sq (s : sq) : list Z :=
  match s with
  | SNil => []
  | SCons i s => show_item i ++ show_sq s
  end
with show_item (i : item) : list Z :=
  match i with
  | ItBol => [94]
  | ItEol => [36]
  | It a q => show_atom a ++ show_quant q
  end
with show_atom (a : atom) : list Z :=
  match a with
  | AChar c => show_char c
  | AAny => [46]
  | AClass neg l => [91] ++ (if neg then [94] else []) ++ flat_map show_range l ++ [93]
  | AProp c => [92; c]
  | AGroup colon r => [40] ++ (if colon then [63; 58] else []) ++ show r ++ [41]
  end.

(** The characters are not NUL and fit UTF-8, a class has a range, and only
    the three properties are used. *)
Definition ok_char (c : Z) : Prop := 0 < c < 2^31.
Fixpoint wf (r : rx) : Prop :=
  match r with
  | XSeq s => wf_sq s
  | XAlt s r => wf_sq s /\ wf r
  end
with wf_sq (s : sq) : Prop :=
  match s with
  | SNil => True
  | SCons i s => wf_item i /\ wf_sq s
  end
with wf_item (i : item) : Prop :=
  match i with
  | ItBol | ItEol => True
  | It a _ => wf_atom a
  end
with wf_atom (a : atom) : Prop :=
  match a with
  | AChar c => ok_char c
  | AAny => True
  | AClass _ l => l <> [] /\ Forall (fun x => ok_char (fst x) /\ ok_char (snd x)) l
  | AProp c => c = 115 \/ c = 100 \/ c = 104
  | AGroup _ r => wf r
  end.

(** ** What it matches *)
Section Den.
(** The target *)
Variable t : list Z.
(** The character at an offset *)
Definition has (i c : Z) : Prop := 0 <= i /\ nth_error t (Z.to_nat i) = Some c.

(** [digit_spec] (CharSpec.v) gives the value of a digit of any script, -1 for others *)
Definition is_digit (c : Z) : Prop := exists v, digit_spec c v /\ 0 <= v.
Definition in_property (p c : Z) : Prop :=
  (p = 115 /\ UCS4IsWhite c = true) \/
  (p = 100 /\ is_digit c) \/
  (p = 104 /\ (is_digit c \/ 97 <= c <= 102 \/ 65 <= c <= 70)).
Definition in_ranges (l : list (Z * Z)) (c : Z) : Prop := exists lo hi, In (lo, hi) l /\ lo <= c <= hi.

(** Zero or more times *)
Inductive many (R : Z -> Z -> Prop) : Z -> Z -> Prop :=
| many_none i : many R i i
| many_more i j k : R i j -> many R j k -> many R i k.
Definition quantified (q : quant) (R : Z -> Z -> Prop) (i j : Z) : Prop :=
  match q with
  | QOne => R i j
  | QOpt => i = j \/ R i j
  | QStar => many R i j
  | QPlus => exists k, R i k /\ many R k j
  end.

(** [matches r i j]: r matches the target from offset i to offset j.  No atom
    matches a NUL. *)
Fixpoint matches (r : rx) (i j : Z) : Prop :=
  match r with
  | XSeq s => matches_sq s i j
  | XAlt s r => matches_sq s i j \/ matches r i j
  end
with matches_sq (s : sq) (i j : Z) : Prop :=
  match s with
  | SNil => i = j
  | SCons x s => exists k, matches_item x i k /\ matches_sq s k j
  end
with matches_item (x : item) (i j : Z) : Prop :=
  match x with
  | ItBol => i = j /\ (i = 0 \/ has (i - 1) 10)
  | ItEol => i = j /\ (i = Z.of_nat (length t) \/ has i 10)
  | It a q => quantified q (matches_atom a) i j
  end
with matches_atom (a : atom) (i j : Z) : Prop :=
  match a with
  | AChar c => j = i + 1 /\ has i c
  | AAny => j = i + 1 /\ exists c, has i c /\ c <> 0
  | AClass neg l => j = i + 1 /\ exists c, has i c /\ c <> 0 /\ (if neg then ~ in_ranges l c else in_ranges l c)
  | AProp p => j = i + 1 /\ exists c, has i c /\ c <> 0 /\ in_property p c
  | AGroup _ r => matches r i j
  end.
End Den.
