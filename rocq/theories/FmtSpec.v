(** Specification of formats: literal characters and the conversions %s, %d, %f
    and %g with an optional size and precision. *)
From Verif Require Import Base StrNumSpec.
From Verif Require Import VarModel VarSpec VarJsonSpec.

Inductive piece := Char (c : Z) | AsText | AsJson.

(** Nothing, or decimal digits, of any script (C26), of a value in an int. *)
Definition sized (w : list Z) : Prop := w = [] \/ exists n, digits 10 w n /\ n < 2^31.
(** size and precision *)
Definition flags (w : list Z) : Prop := exists w1 w2, sized w1 /\ sized w2 /\ (w = w1 \/ w = w1 ++ [46] ++ w2).

(** What a format consists of. *)
Inductive parse : list Z -> list piece -> Prop :=
| PEnd : parse [] []
| PLast : parse [37] [Char 37]
| PChar c f ps : c <> 37 -> parse f ps -> parse ([c] ++ f) ([Char c] ++ ps)
| PConv w k p f ps : flags w -> In (k, p) [(115, AsText); (100, AsJson); (102, AsJson); (103, AsJson)] -> parse f ps ->
    parse ([37] ++ w ++ [k] ++ f) ([p] ++ ps).

(** The text of a string, and of a number *)
Definition text_of (t : tree) (s : list Z) : Prop := t = Str s \/ exists z, number t = Some z /\ decimal_text z s.

(** The result: the pieces with the arguments in place of the conversions. *)
Inductive renders : list piece -> list tree -> list Z -> Prop :=
| REnd ts : renders [] ts []
| RChar c ps ts x : renders ps ts x -> renders (Char c :: ps) ts ([c] ++ x)
| RText t s ps ts x : text_of t s -> renders ps ts x -> renders (AsText :: ps) (t :: ts) (s ++ x)
| RJson t j ps ts x : json t j -> renders ps ts x -> renders (AsJson :: ps) (t :: ts) (j ++ x).

(** There are enough arguments, and those for %s are strings or numbers. *)
Fixpoint suits (ps : list piece) (ts : list tree) : Prop :=
  match ps, ts with
  | [], _ => True
  | Char _ :: ps, _ => suits ps ts
  | _ :: _, [] => False
  | AsText :: ps, t :: ts => (exists s, text_of t s) /\ suits ps ts
  | AsJson :: ps, _ :: ts => suits ps ts
  end.
