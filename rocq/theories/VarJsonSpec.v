(** Specification of JSON texts (RFC 8259): which texts stand for a value. *)
From Verif Require Import Base JsonSpec VarModel VarSpec.

Definition white (w : list Z) : Prop := Forall (fun c => In c [32; 9; 10; 13]) w.

Inductive json : tree -> list Z -> Prop :=
| JNull : json Null [110; 117; 108; 108]
| JNumber t z l : number t = Some z -> decimal_text z l -> json t l
| JString s c : json_contents c s -> json (Str s) ([34] ++ c ++ [34])
| JStrings l x : json (Vars (map Str l)) x -> json (Strs l) x
| JEmpty w : white w -> json (Vars []) ([91] ++ w ++ [93])
| JArray ts x : elements ts x -> json (Vars ts) ([91] ++ x ++ [93])
| JNone w : white w -> json (Map []) ([123] ++ w ++ [125])
| JObject ps x : members ps x -> json (Map ps) ([123] ++ x ++ [125])
with elements : list tree -> list Z -> Prop :=
| EOne w t x w' : white w -> json t x -> white w' -> elements [t] (w ++ x ++ w')
| EMore w t x w' ts y : white w -> json t x -> white w' -> elements ts y ->
    elements (t :: ts) (w ++ x ++ w' ++ [44] ++ y)
with members : list (list Z * tree) -> list Z -> Prop :=
| MOne p x : member p x -> members [p] x
| MMore p x ps y : member p x -> members ps y -> members (p :: ps) (x ++ [44] ++ y)
with member : list Z * tree -> list Z -> Prop :=
| Member s c t x w1 w2 w3 w4 : white w1 -> white w2 -> white w3 -> white w4 -> json_contents c s -> json t x ->
    member (s, t) (w1 ++ ([34] ++ c ++ [34]) ++ w2 ++ [58] ++ w3 ++ x ++ w4).

(** All strings in a value have this property. *)
Section Every.
Variable P : list Z -> Prop.
Fixpoint every_str (t : tree) : Prop :=
  match t with
  | Null | Int _ | Long _ | LongLong _ => True
  | Str s => P s
  | Strs l => Forall P l
  | Vars l => (fix go l := match l with [] => True | t :: l => every_str t /\ go l end) l
  | Map l => (fix go l := match l with [] => True | (k, t) :: l => P k /\ every_str t /\ go l end) l
  end.
End Every.

(** What JSON distinguishes: not the number types, nor arrays of strings from
    arrays of values that are all strings. *)
Fixpoint norm (t : tree) : tree :=
  match t with
  | Null => Null
  | Int z | Long z | LongLong z => Int z
  | Str s => Str s
  | Strs l => Vars (map Str l)
  | Vars l => Vars (map norm l)
  | Map l => Map (map (fun p => (fst p, norm (snd p))) l)
  end.

(** ** Styles (variant.h:165-167): -2 as short as can be; -1 on one line with
    single spaces; n >= 0 an element to a line, indented by two spaces for every
    level, the brackets around them by n levels. *)
Definition line (levels : Z) : list Z := 10 :: repeat 32 (Z.to_nat (2 * levels)).
Definition gap (style levels : Z) : list Z := if style =? -2 then [] else if style =? -1 then [32] else line levels.
Definition deeper (style : Z) : Z := if style <? 0 then style else style + 1.
Fixpoint separated (sep : list Z) (xs : list (list Z)) : list Z :=
  match xs with
  | [] => []
  | [x] => x
  | x :: xs => x ++ sep ++ separated sep xs
  end.
Definition within (style : Z) (xs : list (list Z)) : list Z :=
  gap style (style + 1) ++ separated ([44] ++ gap style (style + 1)) xs ++ gap style style.

(** The JSON text of a value in a style. *)
Inductive laid : Z -> tree -> list Z -> Prop :=
| LNull i : laid i Null [110; 117; 108; 108]
| LNumber i t z l : number t = Some z -> decimal_text z l -> laid i t l
| LString i s c : json_contents c s -> laid i (Str s) ([34] ++ c ++ [34])
| LStrings i l x : laid i (Vars (map Str l)) x -> laid i (Strs l) x
| LArray i ts xs : Forall2 (laid (deeper i)) ts xs -> laid i (Vars ts) ([91] ++ within i xs ++ [93])
| LObject i ps xs : Forall2 (laid_member i) ps xs -> laid i (Map ps) ([123] ++ within i xs ++ [125])
with laid_member : Z -> list Z * tree -> list Z -> Prop :=
| LMember i s c t x : json_contents c s -> laid (deeper i) t x ->
    laid_member i (s, t) (([34] ++ c ++ [34]) ++ (if i =? -2 then [58] else [58; 32]) ++ x).
