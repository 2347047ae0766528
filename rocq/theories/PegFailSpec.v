(** What the report of a parse is about (C50). *)
From Verif Require Import Base PegModel PegFailModel.

(** Reading characters leads from [a] to [b]. *)
Inductive steps : src -> src -> Prop :=
| steps_here a : steps a a
| steps_read a b c d : steps a b -> get_char b = Done (c, d) -> steps a d.

(** [a] is not further on in the text than [b] *)
Definition not_beyond (a b : src) : Prop := (length (s_rest b) <= length (s_rest a))%nat.

(** The calls of rules that can be under way, the innermost first: rule and
    place.  A rule is called where another one has a '<' (60) and its name. *)
Inductive called (rules : list rule) (top : nat) (start : src) : chain -> Prop :=
| called_top : called rules top start [(top, start)]
| called_rule j o ch r n i s :
    called rules top start ((j, o) :: ch) -> nth_error rules j = Some r -> rdp (r_pat r) n = Done 60 ->
    lookup rules (skipn (S n) (r_pat r)) = Some i -> steps o s ->
    called rules top start ((i, s) :: (j, o) :: ch).

(** The atom of the pattern at [op], as a Pegexp, does not match at [loc]. *)
Definition refuses (pat : list Z) (op : nat) (loc : src) : Prop :=
  exists f st cx, match_atom f Plain null_policy pat [] (op, loc) ctx0 = Done (false, st, cx).

(** A literal character or a class: none of the operators ~@#%_;<`)^$.\?*+(|&! *)
Definition literal (c : Z) : Prop :=
  ~ In c [126; 64; 35; 37; 95; 59; 60; 96; 41; 94; 36; 46; 92; 63; 42; 43; 40; 124; 38; 33; 0].

(** A literal was tried outside of lookaheads, and failed. *)
Definition counts (rules : list rule) (k : call) : Prop :=
  k_dis k = O /\ exists r c, nth_error rules (k_rule k) = Some r /\ rdp (r_pat r) (k_op k) = Done c /\ literal c.

(** The atom of an entry of the report *)
Definition atom_of (x : failure) : nat * nat := (a_rule x, a_op x).
