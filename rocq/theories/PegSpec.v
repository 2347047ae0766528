(** What parsing expressions mean, and how they are written: independent of the
    matcher.  Characters are numbers; the operators are given by their codes.

    1. Syntax trees and their meaning (standard PEG semantics: ordered choice,
       possessive repetition, lookahead), with the captures of a match.
    2. The notation of include/pegexp.h:10-41: which text spells which tree. *)
From Verif Require Import Base UTF8Model.

(** ** Trees *)

Inductive cprop := Alpha | Digit | Hexa | Lower | Upper | Space | Word.

(** Members of a character class. *)
Inductive item := One (c : Z) | Range (lo hi : Z) | Has (k : cprop).

(** Sets of characters that an atom can ask for. *)
Inductive cset :=
| AnyChar
| Lit (c : Z)
| Kind (k : cprop)
| Class (neg : bool) (l : list item).

Inductive pe :=
| Bol | Eol                                   (* ^ $ *)
| Char (x : cset)                             (* one character *)
| Opt (e : pe) | Star (e : pe) | Plus (e : pe)
| Group (e : pe)
| Eps | Seq (a b : pe)
| Or (a b : pe)
| Ahead (e : pe) | Not (e : pe)               (* & ! *)
| Label (e : pe) (name : list Z)              (* e:name *)
| Call (name : list Z) (label : option (list Z)).  (* <name> or <name>:label *)

(** ** Meaning *)

Definition between (lo hi c : Z) : bool := (lo <=? c) && (c <=? hi).

Definition has (k : cprop) (c : Z) : bool :=
  match k with
  | Lower => between 97 122 c
  | Upper => between 65 90 c
  | Alpha => between 97 122 c || between 65 90 c
  | Digit => between 48 57 c
  | Hexa => between 48 57 c || between 97 102 c || between 65 70 c
  | Space => (c =? 32) || between 9 13 c
  | Word => between 97 122 c || between 65 90 c || between 48 57 c
  end.

Definition in_item (i : item) (c : Z) : bool :=
  match i with
  | One x => c =? x
  | Range lo hi => between lo hi c
  | Has k => has k c
  end.

Definition in_set (x : cset) (c : Z) : bool :=
  match x with
  | AnyChar => true
  | Lit y => c =? y
  | Kind k => has k c
  | Class neg l => xorb neg (existsb (fun i => in_item i c) l)
  end.

(** What a capture holds: the characters from one position to another, or the
    captures made by a rule. *)
Inductive sval :=
| SText (i j : nat)
| SNode (l : list (list Z * sval * bool)).
Definition scap : Type := list Z * sval * bool.

(** A grammar: the expression of each rule and the labels it captures. *)
Definition grammar : Type := list (list Z * (pe * list (list Z))).

Fixpoint assoc {A} (l : list (list Z * A)) (name : list Z) : option A :=
  match l with
  | [] => None
  | (n, a) :: l' => if list_eq_dec Z.eq_dec n name then Some a else assoc l' name
  end.

Definition mem (x : list Z) (l : list (list Z)) : bool :=
  existsb (fun y => if list_eq_dec Z.eq_dec x y then true else false) l.

Definition line_start (cs : list Z) (n : nat) : bool :=
  match n with
  | O => true
  | S m => match nth_error cs m with Some c => c =? 10 | None => false end
  end.
Definition line_end (cs : list Z) (n : nat) : bool :=
  match nth_error cs n with Some c => c =? 10 | None => true end.

(** Where an expression is matched: the labels that its rule captures, and the
    rules being matched with the positions where they started.  With
    [active = None] calls have their standard meaning: they match the called
    expression, so a left-recursive grammar gives some calls no meaning.  With
    a list, a call of a rule that is already being matched from the same
    position fails. *)
Record env := mkenv { wanted : list (list Z); active : option (list (list Z * nat)) }.

Definition busy (w : env) (name : list Z) (n : nat) : Prop :=
  match active w with None => False | Some l => In (name, n) l end.
Definition enter (w : env) (wanted' : list (list Z)) (name : list Z) (n : nat) : env :=
  mkenv wanted' (match active w with None => None | Some l => Some ((name, n) :: l) end).

Section Meaning.
Variable G : grammar.
Variable keep : sval -> bool.     (* does the context keep such a capture? *)
Variable cs : list Z.             (* the characters of the text *)

Definition record (name : list Z) (v : sval) (rep : bool) : list scap :=
  if keep v then [(name, v, rep)] else [].

(** [eval w rep e n r]: matching [e] at position [n] of the text, inside a
    repetition iff [rep], fails ([r = None]) or succeeds, reaching a position
    and making captures. *)
Inductive eval : env -> bool -> pe -> nat -> option (nat * list scap) -> Prop :=
| ev_bol w rp n :
    eval w rp Bol n (if line_start cs n then Some (n, []) else None)
| ev_eol w rp n :
    eval w rp Eol n (if line_end cs n then Some (n, []) else None)
| ev_char w rp x n :
    eval w rp (Char x) n
      (match nth_error cs n with
       | Some c => if in_set x c then Some (S n, []) else None
       | None => None
       end)
| ev_opt_some w rp e n m l :
    eval w rp e n (Some (m, l)) -> eval w rp (Opt e) n (Some (m, l))
| ev_opt_none w rp e n :
    eval w rp e n None -> eval w rp (Opt e) n (Some (n, []))
| ev_star_stop w rp e n :
    eval w true e n None -> eval w rp (Star e) n (Some (n, []))
| ev_star_empty w rp e n l :
    eval w true e n (Some (n, l)) -> eval w rp (Star e) n (Some (n, l))
| ev_star_more w rp e n m l k l' :
    eval w true e n (Some (m, l)) -> m <> n ->
    eval w rp (Star e) m (Some (k, l')) ->
    eval w rp (Star e) n (Some (k, l ++ l'))
| ev_plus_fail w rp e n :
    eval w true e n None -> eval w rp (Plus e) n None
| ev_plus w rp e n m l k l' :
    eval w true e n (Some (m, l)) ->
    eval w rp (Star e) m (Some (k, l')) ->
    eval w rp (Plus e) n (Some (k, l ++ l'))
| ev_group w rp e n r :
    eval w rp e n r -> eval w rp (Group e) n r
| ev_eps w rp n :
    eval w rp Eps n (Some (n, []))
| ev_seq_fail1 w rp a b n :
    eval w rp a n None -> eval w rp (Seq a b) n None
| ev_seq_fail2 w rp a b n m l :
    eval w rp a n (Some (m, l)) -> eval w rp b m None -> eval w rp (Seq a b) n None
| ev_seq w rp a b n m l k l' :
    eval w rp a n (Some (m, l)) -> eval w rp b m (Some (k, l')) ->
    eval w rp (Seq a b) n (Some (k, l ++ l'))
| ev_or_first w rp a b n m l :
    eval w rp a n (Some (m, l)) -> eval w rp (Or a b) n (Some (m, l))
| ev_or_second w rp a b n r :
    eval w rp a n None -> eval w rp b n r -> eval w rp (Or a b) n r
| ev_ahead_some w rp e n m l :
    eval w rp e n (Some (m, l)) -> eval w rp (Ahead e) n (Some (n, []))
| ev_ahead_none w rp e n :
    eval w rp e n None -> eval w rp (Ahead e) n None
| ev_not_some w rp e n m l :
    eval w rp e n (Some (m, l)) -> eval w rp (Not e) n None
| ev_not_none w rp e n :
    eval w rp e n None -> eval w rp (Not e) n (Some (n, []))
| ev_label w rp e name n m l :
    eval w rp e n (Some (m, l)) ->
    eval w rp (Label e name) n (Some (m, l ++ record name (SText n m) rp))
| ev_label_none w rp e name n :
    eval w rp e n None -> eval w rp (Label e name) n None
| ev_call_unknown w rp name lb n :
    assoc G name = None -> eval w rp (Call name lb) n None
| ev_call_busy w rp name lb n e w' :
    assoc G name = Some (e, w') -> busy w name n -> eval w rp (Call name lb) n None
| ev_call_none w rp name lb n e w' :
    assoc G name = Some (e, w') -> ~ busy w name n -> eval (enter w w' name n) false e n None ->
    eval w rp (Call name lb) n None
| ev_call w rp name lb n e w' m l :
    assoc G name = Some (e, w') -> ~ busy w name n -> eval (enter w w' name n) false e n (Some (m, l)) ->
    let label := match lb with Some x => x | None => name end in
    let v := match l with [] => SText n m | _ => SNode l end in
    eval w rp (Call name lb) n
      (Some (m, if mem label (wanted w) then record label v rp else [])).

End Meaning.

(** ** Notation *)

Definition oct (c : Z) : Prop := 48 <= c <= 55.
Definition hexd (c : Z) : Prop := 48 <= c <= 57 \/ 65 <= c <= 70 \/ 97 <= c <= 102.
Definition hexv (c : Z) : Z :=
  if c <=? 57 then c - 48 else if c <=? 70 then c - 55 else c - 87.
Definition number (base : Z) (val : Z -> Z) (ds : list Z) : Z :=
  fold_left (fun a d => a * base + val d) ds 0.

(** The text [r] does not begin with a character satisfying [P]. *)
Definition not_first (P : Z -> Prop) (r : list Z) : Prop :=
  match r with [] => True | c :: _ => ~ P c end.

Definition letters_of (k : cprop) : Z :=   (* a d h L U s w *)
  match k with
  | Alpha => 97 | Digit => 100 | Hexa => 104 | Lower => 76 | Upper => 85
  | Space => 115 | Word => 119
  end.
Definition control_escapes : list (Z * Z) :=   (* n t r b e f *)
  [(110, 10); (116, 9); (114, 13); (98, 8); (101, 27); (102, 12)].

Definition letter (c : Z) : Prop := 97 <= c <= 122 \/ 65 <= c <= 90.
Definition namech (c : Z) : Prop := letter c \/ 48 <= c <= 57 \/ c = 95.

(** [escape al c s r]: [s] begins with a backslash escape for the character
    [c] and continues with [r]; [al] tells that the escape is a backslash and a
    letter other than x and u. *)
Inductive escape : bool -> Z -> list Z -> list Z -> Prop :=
| esc_oct ds r :
    (1 <= length ds <= 3)%nat -> Forall oct ds ->
    (length ds = 3%nat \/ not_first oct r) ->
    escape false (number 8 (fun d => d - 48) ds) (92 :: ds ++ r) r
| esc_hex ds r :
    (1 <= length ds <= 2)%nat -> Forall hexd ds ->
    (length ds = 2%nat \/ not_first hexd r) ->
    escape false (number 16 hexv ds) (92 :: 120 :: ds ++ r) r
| esc_hex_braces ds r :
    (1 <= length ds <= 2)%nat -> Forall hexd ds ->
    escape false (number 16 hexv ds) (92 :: 120 :: 123 :: ds ++ 125 :: r) r
| esc_uni ds r :
    (1 <= length ds <= 4)%nat -> Forall hexd ds ->
    (length ds = 4%nat \/ not_first hexd r) ->
    escape false (number 16 hexv ds) (92 :: 117 :: ds ++ r) r
| esc_uni_braces ds r :
    (1 <= length ds <= 8)%nat -> Forall hexd ds ->
    escape false (number 16 hexv ds) (92 :: 117 :: 123 :: ds ++ 125 :: r) r
| esc_control e c r :
    In (e, c) control_escapes -> escape true c (92 :: e :: r) r
| esc_letter c r :
    letter c -> c <> 120 -> c <> 117 ->
    (forall k, c <> letters_of k) -> (forall x, ~ In (c, x) control_escapes) ->
    escape true c (92 :: c :: r) r
| esc_other c r :
    1 <= c <= 127 -> ~ letter c -> ~ oct c ->
    escape false c (92 :: c :: r) r.

(** Characters that stand for themselves outside classes: all ASCII characters
    but the operators ^ $ . \ [ ? * + ( ) | & ! and the colon, which must be
    written with a backslash since after an atom it begins a label. *)
Definition operators : list Z := [94; 36; 46; 92; 91; 63; 42; 43; 40; 41; 124; 38; 33; 58].

(** A character of a class: any ASCII character but \ and ], or an escape. *)
Inductive class_char : bool -> Z -> list Z -> list Z -> Prop :=
| cc_plain c r : 1 <= c <= 127 -> c <> 92 -> c <> 93 -> class_char false c (c :: r) r
| cc_escape al c s r : escape al c s r -> class_char al c s r.

(** What a dialect allows: calls of rules, labels, the escapes for kinds of
    characters. *)
Record dialect := mkdialect { d_calls : bool; d_labels : bool; d_kinds : bool }.

Section Notation.
Variable D : dialect.

(** The items of a class up to its ].  A hyphen after a character makes a
    range; a range cannot begin with a letter escape. *)
Inductive items : list item -> list Z -> list Z -> Prop :=
| it_end r : items [] (93 :: r) r
| it_one al c l s s' r :
    class_char al c s s' -> not_first (eq 45) s' -> items l s' r -> items (One c :: l) s r
| it_range c1 al2 c2 l s s1 s2 r :
    class_char false c1 s (45 :: s1) -> class_char al2 c2 s1 s2 -> items l s2 r ->
    items (Range c1 c2 :: l) s r
| it_kind k l s r :
    d_kinds D = true -> not_first (eq 45) s -> items l s r ->
    items (Has k :: l) (92 :: letters_of k :: s) r.

(** After a label: an optional colon. *)
Inductive label_end : list Z -> list Z -> Prop :=
| le_colon r : not_first (eq 58) r -> label_end (58 :: r) r
| le_none r : not_first (fun c => c = 58 \/ namech c) r -> label_end r r.

(** [bare], [prim], [atom], [branch], [alts], [expr] [e s r]: the text [s]
    begins with a spelling of [e] and continues with [r].

    [bare]: an atom without operator and label.  [prim]: what can follow a
    repetition or lookahead operator; in particular no bare alternation and no
    repetition.  [branch]: one alternate.  [expr]: a whole expression or the
    inside of a group, up to the end of the text or the closing parenthesis. *)
Inductive bare : pe -> list Z -> list Z -> Prop :=
| b_bol r : bare Bol (94 :: r) r
| b_eol r : bare Eol (36 :: r) r
| b_any r : bare (Char AnyChar) (46 :: r) r
| b_plain c r :
    1 <= c <= 127 -> ~ In c operators -> (d_calls D = true -> c <> 60) ->
    bare (Char (Lit c)) (c :: r) r
| b_escape al c s r : escape al c s r -> bare (Char (Lit c)) s r
| b_kind k r : d_kinds D = true -> bare (Char (Kind k)) (92 :: letters_of k :: r) r
| b_class l s r : items l s r -> not_first (eq 94) s -> bare (Char (Class false l)) (91 :: s) r
| b_neg_class l s r : items l s r -> bare (Char (Class true l)) (91 :: 94 :: s) r
| b_group e s r : expr e s (41 :: r) -> bare (Group e) (40 :: s) r

with prim : pe -> list Z -> list Z -> Prop :=
| p_bare e s r : bare e s r -> not_first (eq 58) r -> prim e s r
| p_label e s name r' r :
    d_labels D = true -> bare e s (58 :: name ++ r') -> Forall namech name ->
    label_end r' r -> prim (Label e name) s r
| p_ahead e s r : prim e s r -> prim (Ahead e) (38 :: s) r
| p_not e s r : prim e s r -> prim (Not e) (33 :: s) r
| p_call name r :
    d_calls D = true -> Forall namech name -> name <> [] -> not_first (eq 58) r ->
    prim (Call name None) (60 :: name ++ 62 :: r) r
| p_call_label name lb r' r :
    d_calls D = true -> Forall namech name -> name <> [] -> Forall namech lb ->
    label_end r' r ->
    prim (Call name (Some lb)) (60 :: name ++ 62 :: 58 :: lb ++ r') r

with atom : pe -> list Z -> list Z -> Prop :=
| a_prim e s r : prim e s r -> atom e s r
| a_opt e s r : prim e s r -> atom (Opt e) (63 :: s) r
| a_star e s r : prim e s r -> atom (Star e) (42 :: s) r
| a_plus e s r : prim e s r -> atom (Plus e) (43 :: s) r

with branch : pe -> list Z -> list Z -> Prop :=
| br_one e s r : atom e s r -> branch e s r
| br_more a e s s' r : atom a s s' -> branch e s' r -> branch (Seq a e) s r

with alts : pe -> list Z -> list Z -> Prop :=
| al_last e s r : branch e s r -> (r = [] \/ exists r', r = 41 :: r') -> alts e (124 :: s) r
| al_more a b s s' r :
    branch a s (124 :: s') -> alts b (124 :: s') r -> alts (Or a b) (124 :: s) r

with expr : pe -> list Z -> list Z -> Prop :=
| x_end r : (r = [] \/ exists r', r = 41 :: r') -> expr Eps r r
| x_atom a e s s' r : atom a s s' -> expr e s' r -> expr (Seq a e) s r
| x_alts e s r : alts e s r -> expr e s r.

(** The pattern [pat] spells the expression [e]. *)
Definition spells (e : pe) (pat : list Z) : Prop := expr e pat [].

End Notation.
