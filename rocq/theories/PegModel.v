(** Model of the Pegexp matcher (include/pegexp.h) and of the Peg parser on
    top of it (include/peg.h, and the capture context of include/peg_ast.h).

    A pattern is the list of its bytes without the terminating NUL; a
    [PatternP] into it is an index, and reading beyond the NUL is [Undef].
    [char] is signed (x86-64), so a pattern byte of 128..255 is read as a
    negative number.  The matcher is recursive, so every function takes a
    number of steps it may still make; [NoFuel] means that the number was too
    small, and the theorems are about all numbers that are large enough.

    record_failure and what it accumulates do not influence matching: they are
    in PegFailModel.  Not modelled: PEG_TRACE output, sources other than
    PegexpPointerSource over UCS4 characters. *)
From Verif Require Import Base UTF8Model.

Inductive res (A : Type) : Type :=
| Done (a : A)
| Undef            (* undefined behaviour *)
| NoFuel.          (* more steps are needed *)
Arguments Done {A} a.
Arguments Undef {A}.
Arguments NoFuel {A}.

Definition rbind {A B} (x : res A) (f : A -> res B) : res B :=
  match x with
  | Done a => f a
  | Undef => Undef
  | NoFuel => NoFuel
  end.
Notation "'run' x <- e ; f" := (rbind e (fun x => f))
  (at level 200, x pattern, e at level 100, f at level 200, right associativity).

Definition lift {A} (x : outcome A) : res A :=
  match x with
  | Ok a => Done a
  | _ => Undef
  end.

(** ** Reading the pattern *)

(** A byte as a (signed) [char]; char_encoding.h:43. *)
Definition sx (b : Z) : Z := if 128 <=? b then b - 256 else b.

(** [*pattern] with the pattern pointer at index [p]. *)
Definition rdp (pat : list Z) (p : nat) : res Z :=
  match nth_error (pat ++ [0]) p with
  | Some b => Done (sx b)
  | None => Undef
  end.

(** pegexp.h:380-389 unhex.  The argument is a [Char] (char32_t), so a
    negative [char] has become a huge number. *)
Definition unhex (c : Z) : Z :=
  let c := u32 c in
  if (48 <=? c) && (c <=? 57) then c - 48
  else if (65 <=? c) && (c <=? 70) then c - 65 + 10
  else if (97 <=? c) && (c <=? 102) then c - 97 + 10
  else -1.

Definition is_octal (c : Z) : bool := (48 <=? c) && (c <=? 55).

(** pegexp.h:435-442: the loop over the hex digits of a \u escape. *)
Fixpoint u_digits (k : nat) (pat : list Z) (p : nat) (rc : Z) : res (Z * nat) :=
  match k with
  | O => Done (rc, p)
  | S k =>
    run c <- rdp pat p;
    if c =? 0 then Done (rc, p)
    else if unhex c <? 0 then Done (rc, p)
    else u_digits k pat (S p) (u32 (Z.lor (Z.shiftl rc 4) (unhex c)))
  end.

(** pegexp.h:448 special_escapes: n t r b e f. *)
Definition special_escapes : list (Z * Z) :=
  [(110, 10); (116, 9); (114, 13); (98, 8); (101, 27); (102, 12)].

(** Skip a closing brace if there was an opening one: pegexp.h:427-428, 443-444. *)
Definition close_brace (pat : list Z) (braces : bool) (p : nat) : res nat :=
  if braces then run c <- rdp pat p; Done (if c =? 125 then S p else p)
  else Done p.

(** pegexp.h:391-455 literal_char: the character spelled at [p] and the
    position after it.  The result is a char32_t, so the test [rc < 0] of line
    420 never holds. *)
Definition literal_char (pat : list Z) (p : nat) : res (Z * nat) :=
  run c <- rdp pat p;
  if c =? 0 then Done (0, p)
  else if negb (c =? 92) then Done (u32 c, S p)
  else
    let p := S p in
    run c2 <- rdp pat p;
    let p := S p in
    let rc := u32 c2 in
    if is_octal rc then
      let rc := rc - 48 in
      run d <- rdp pat p;
      let '(rc, p) := if is_octal d then (rc * 8 + d - 48, S p) else (rc, p) in
      run d <- rdp pat p;
      let '(rc, p) := if is_octal d then (rc * 8 + d - 48, S p) else (rc, p) in
      Done (rc, p)
    else if rc =? 120 then (* x *)
      run c <- rdp pat p;
      if c =? 0 then Done (0, p)
      else
        let braces := c =? 123 in
        let p := if braces then S p else p in
        run h <- rdp pat p;
        let rc := u32 (unhex h) in
        let p := S p in
        run h2 <- rdp pat p;
        let '(rc, p) :=
          if 0 <=? unhex h2 then (u32 (Z.lor (Z.shiftl rc 4) (unhex h2)), S p) else (rc, p) in
        run p <- close_brace pat braces p;
        Done (rc, p)
    else if rc =? 117 then (* u *)
      run c <- rdp pat p;
      let braces := c =? 123 in
      let p := if braces then S p else p in
      run rp <- u_digits (if braces then 8 else 4)%nat pat p 0;
      run p <- close_brace pat braces (snd rp);
      Done (fst rp, p)
    else
      Done (match List.find (fun e => fst e =? rc) special_escapes with
            | Some e => snd e
            | None => rc
            end, p).

(** ** <cctype> in the "C" locale.  The argument is an [int]; the behaviour is
    defined only for values of [unsigned char] and EOF (-1). *)
Definition ctype (b : Z -> bool) (c : Z) : res bool :=
  if (-1 <=? c) && (c <=? 255) then Done (b c) else Undef.
Definition c_digit (c : Z) : bool := (48 <=? c) && (c <=? 57).
Definition c_lower (c : Z) : bool := (97 <=? c) && (c <=? 122).
Definition c_upper (c : Z) : bool := (65 <=? c) && (c <=? 90).
Definition c_alpha (c : Z) : bool := c_lower c || c_upper c.
Definition c_alnum (c : Z) : bool := c_alpha c || c_digit c.
Definition c_space (c : Z) : bool := (c =? 32) || ((9 <=? c) && (c <=? 13)).

(** pegexp.h:457-472 char_property: [p] is the position of the letter after
    the backslash. [ch] is a char32_t, converted to [int] for <cctype>. *)
Definition char_property (pat : list Z) (p : nat) (ch : Z) : res (bool * nat) :=
  run esc <- rdp pat p;
  let i := s32 ch in
  if esc =? 97 then run b <- ctype c_alpha i; Done (b, S p)        (* a *)
  else if esc =? 100 then run b <- ctype c_digit i; Done (b, S p)  (* d *)
  else if esc =? 104 then                                           (* h *)
    run b <- ctype c_digit i;
    Done (b || ((97 <=? ch) && (ch <=? 102)) || ((65 <=? ch) && (ch <=? 70)), S p)
  else if esc =? 76 then run b <- ctype c_lower i; Done (b, S p)   (* L *)
  else if esc =? 85 then run b <- ctype c_upper i; Done (b, S p)   (* U *)
  else if esc =? 115 then run b <- ctype c_space i; Done (b, S p)  (* s *)
  else if esc =? 119 then run b <- ctype c_alnum i; Done (b, S p)  (* w *)
  else
    run lp <- literal_char pat (p - 1);
    Done (fst lp =? ch, snd lp).

(** ** The source: PegexpPointerSource<const UTF8*, UCS4>, pegexp.h:91-182.
    [s_rest] is the text from [data] to its NUL. *)
Record src := mksrc { s_rest : list Z; s_bytes : Z; s_line : Z; s_col : Z }.

Definition at_eof (s : src) : bool :=                       (* pegexp.h:143-144 *)
  match s_rest s with [] => true | b :: _ => b =? 0 end.
Definition at_bol (s : src) : bool := s_col s =? 1.         (* pegexp.h:145-146 *)
Definition src_start (text : list Z) : src := mksrc text 0 1 1.  (* pegexp.h:110-115 *)

(** pegexp.h:133-142 get_char with bump_counts, pegexp.h:172-181. *)
Definition get_char (s : src) : res (Z * src) :=
  if at_eof s then Done (0xFFFFFFFF, s)
  else
    run ck <- lift (UTF8Get (s_rest s ++ [0]));
    let '(c, k) := ck in
    Done (c, mksrc (skipn k (s_rest s)) (s_bytes s + Z.of_nat k)
               (if c =? 10 then s_line s + 1 else s_line s)
               (if c =? 10 then 1 else s_col s + 1)).

(** pegexp.h:149-150 same, 153-154 operator<: positions in one text, so the
    remaining lengths decide. *)
Definition same (a b : src) : bool := (length (s_rest a) =? length (s_rest b))%nat.
Definition before (a b : src) : bool := (length (s_rest b) <? length (s_rest a))%nat.

(** pegexp.h:163-164 string_to. *)
Definition string_to (a b : src) : list Z :=
  firstn (length (s_rest a) - length (s_rest b)) (s_rest a).

(** pegexp.h:186-209 PegexpState. *)
Definition state : Type := nat * src.

(** pegexp.h:202-203 at_expr_end. *)
Definition at_expr_end (pat : list Z) (p : nat) : res bool :=
  run c <- rdp pat p; Done ((c =? 0) || (c =? 41)).

(** ** Contexts.  A captured value is a matched text (with the offset where it
    starts) or the captures of a called rule.  A capture has a name and the
    in_repetition flag. *)
Inductive value :=
| VText (at_ : Z) (t : list Z)
| VNode (caps : list (list Z * value * bool)).
Definition cap : Type := list Z * value * bool.

(** What one context class does: which captures it keeps, how it rolls back
    (the flag tells that it printed a complaint instead), and the value that
    match_result gives to a matched atom.  Only used at the instances below. *)
Record policy := mkpol {
  pol_keep : value -> bool;
  pol_roll : list cap -> nat -> list cap * bool;
  pol_text : bool -> list cap -> src -> src -> value;
}.

Definition text_value (a b : src) : value := VText (s_bytes a) (string_to a b).

(** pegexp.h:257-295 PegexpDefaultContext: captures nothing (so there is never
    anything to roll back). *)
Definition null_policy : policy :=
  mkpol (fun _ => false) (fun l n => (firstn n l, false)) (fun _ _ => text_value).

(** A context that does what the comments of pegexp.h:275-282 ask for: it keeps
    every capture, and rolls back to a given number of captures. *)
Definition list_policy : policy :=
  mkpol (fun _ => true) (fun l n => (firstn n l, false)) (fun _ _ => text_value).

(** peg_ast.h:147-192 PegContext: capture ignores an empty string, and
    rollback_capture works to zero only and otherwise prints
    "REVISIT: Not rolling back"; peg_ast.h:223-231 match_result returns the
    captures if there are some or the context is the outermost one. *)
Definition ast_policy : policy :=
  mkpol (fun v => match v with VText _ [] => false | _ => true end)
        (fun l n => if (length l <=? n)%nat then (l, false)
                    else if (n =? 0)%nat then ([], false) else (l, true))
        (fun root l a b => if root then VNode l
                           else match l with [] => text_value a b | _ => VNode l end).

(** The members of a context that the matcher uses.  [c_msgs] counts the
    complaints printed by rollback_capture. *)
Record ctx := mkctx { c_caps : list cap; c_dis : nat; c_rep : nat; c_msgs : nat }.

Definition roll (P : policy) (cx : ctx) (n : nat) : ctx :=
  let '(l, m) := pol_roll P (c_caps cx) n in
  mkctx l (c_dis cx) (c_rep cx) (if m then S (c_msgs cx) else c_msgs cx).
Definition count (cx : ctx) : nat := length (c_caps cx).
Definition capture (P : policy) (cx : ctx) (name : list Z) (v : value) : ctx :=
  if pol_keep P v
  then mkctx (c_caps cx ++ [(name, v, (0 <? c_rep cx)%nat)]) (c_dis cx) (c_rep cx) (c_msgs cx)
  else cx.
Definition set_dis (cx : ctx) (d : nat) : ctx := mkctx (c_caps cx) d (c_rep cx) (c_msgs cx).
Definition set_rep (cx : ctx) (r : nat) : ctx := mkctx (c_caps cx) (c_dis cx) r (c_msgs cx).

(** ** Grammars (peg.h) *)

(** peg.h:22-36 PegRuleNoCapture and peg_ast.h:87-111 PegCaptureRule. *)
Record rule := mkrule { r_name : list Z; r_pat : list Z; r_captures : list (list Z) }.

(** The C library's strncmp(key, name, strlen(name)), key being NUL-terminated:
    bytes compare as unsigned char. *)
Fixpoint strncmp (key name : list Z) : Z :=
  match name with
  | [] => 0
  | n :: name' =>
    match key with
    | [] => - n
    | k :: key' => if k =? n then strncmp key' name' else k - n
    end
  end.

(** peg.h:280-288, the comparison of lookup. *)
Definition lookup_cmp (key : list Z) (r : rule) : Z :=
  let cval := strncmp key (r_name r) in
  if cval =? 0 then
    match skipn (length (r_name r)) key with
    | [] => 0
    | c :: _ => if c =? 62 then 0 else 1
    end
  else cval.

(** bsearch of the C library (glibc): halve the interval [lo, hi).  The outer
    [None] is running out of fuel. *)
Fixpoint bsearch (fuel : nat) (key : list Z) (rules : list rule) (lo hi : nat) : option (option nat) :=
  match fuel with
  | O => None
  | S fuel =>
    if (lo <? hi)%nat then
      let i := ((lo + hi) / 2)%nat in
      match nth_error rules i with
      | None => None
      | Some r =>
        let c := lookup_cmp key r in
        if c <? 0 then bsearch fuel key rules lo i
        else if c =? 0 then Some (Some i)
        else bsearch fuel key rules (S i) hi
      end
    else Some None
  end.

(** peg.h:276-296 lookup. The result is the index of the rule.  (The search
    always settles: C34_settles.) *)
Definition search_rules (rules : list rule) (key : list Z) : option (option nat) :=
  bsearch (S (length rules)) key rules 0 (length rules).
Definition lookup (rules : list rule) (key : list Z) : option nat :=
  match search_rules rules key with Some r => r | None => None end.

(** strcmp, and qsort by name (peg.h:246-254); insertion sort stands for qsort. *)
Fixpoint strcmp (a b : list Z) : Z :=
  match a, b with
  | [], [] => 0
  | [], y :: _ => - y
  | x :: _, [] => x
  | x :: a', y :: b' => if x =? y then strcmp a' b' else x - y
  end.
Fixpoint insert_rule (r : rule) (l : list rule) : list rule :=
  match l with
  | [] => [r]
  | x :: l' => if strcmp (r_name r) (r_name x) <=? 0 then r :: l else x :: insert_rule r l'
  end.
Definition sort_rules (l : list rule) : list rule := fold_right insert_rule [] l.

(** peg_ast.h:102-110 is_captured: some capture name is a prefix of the text
    at [label]. *)
Definition is_captured (r : rule) (label : list Z) : bool :=
  existsb (fun c => strncmp label c =? 0) (r_captures r).

(** Which matcher: the plain Pegexp, or the PegPegexp of a grammar whose rules
    are sorted by name (the pointers [Rule*] are indices). *)
Inductive lang := Plain | Gram (rules : list rule).

(** The chain of contexts from the current one to the outermost: rule and
    origin (peg.h:101-104).  Empty for a plain Pegexp. *)
Definition chain : Type := list (nat * src).

(** peg.h:300-310: some context of the chain that started here is for [r]. *)
Fixpoint left_recursive (st : chain) (r : nat) (here : src) : bool :=
  match st with
  | [] => false
  | (r', o) :: st' =>
    if before o here then false
    else if (r' =? r)%nat then true
    else left_recursive st' r here
  end.

(** The loop over the letters, digits and underscores of a name: pegexp.h:739-740,
    827-828, peg.h:224-225. *)
Fixpoint scan_name (f : nat) (pat : list Z) (p : nat) : res nat :=
  match f with
  | O => NoFuel
  | S f =>
    run c <- rdp pat p;
    run b <- ctype c_alnum c;
    if b || (c =? 95) then scan_name f pat (S p) else Done p
  end.

(** The text between two positions of a pattern. *)
Definition sub (pat : list Z) (p q : nat) : list Z := firstn (q - p) (skipn p pat).

(** The optional label after an atom that ends at [p]: its name and the
    position after it (pegexp.h:735-743; the same in skip_atom, 824-831). *)
Definition label_at (f : nat) (pat : list Z) (p : nat) : res (option (list Z) * nat) :=
  run c <- rdp pat p;
  if c =? 58 then
    run q <- scan_name f pat (S p);
    run c2 <- rdp pat q;
    Done (Some (sub pat (S p) q), if c2 =? 58 then S q else q)
  else Done (None, p).

(** strchr(pattern, '>') or the end: peg.h:219-220. *)
Fixpoint find_brangle (t : list Z) : nat :=
  match t with
  | [] => O
  | c :: t' => if c =? 62 then 1%nat else S (find_brangle t')
  end.

(** peg.h:213-230 parse_call at the '<' at position [p]: start of the rule
    name, position and text of the label, position after the call. *)
Definition parse_call (f : nat) (pat : list Z) (p : nat)
  : res (nat * option (nat * list Z) * nat) :=
  let rn := S p in
  let e := (rn + find_brangle (skipn rn pat))%nat in
  run c <- rdp pat e;
  if c =? 58 then
    run q <- scan_name f pat (S e);
    run c2 <- rdp pat q;
    Done (rn, Some (S e, sub pat (S e) q), if c2 =? 58 then S q else q)
  else Done (rn, None, e).

(** Skip to behind the '>' or to the end: peg.h:208-209. *)
Fixpoint skip_call (f : nat) (pat : list Z) (p : nat) : res nat :=
  match f with
  | O => NoFuel
  | S f =>
    run c <- rdp pat p;
    if c =? 0 then Done p
    else if c =? 62 then Done (S p)
    else skip_call f pat (S p)
  end.

(** skip_extended: pegexp.h:755-758, overridden in peg.h:205-210. *)
Definition skip_extended (f : nat) (L : lang) (pat : list Z) (p : nat) : res nat :=
  match L with
  | Plain => Done (S p)
  | Gram _ =>
    run c <- rdp pat p;
    if c =? 60 then skip_call f pat (S p) else Done (S p)
  end.

(** The characters of pegexp.h:685-692 and 803-810, and control characters
    (pegexp.h:570, 817): ~ @ # % _ ; < ` *)
Definition extended (c : Z) : bool :=
  existsb (Z.eqb c) [126; 64; 35; 37; 95; 59; 60; 96] || ((0 <? c) && (c <? 32)).

(** pegexp.h:772-780: the items of a class, up to its ']'. *)
Fixpoint skip_class (f : nat) (pat : list Z) (p : nat) : res nat :=
  match f with
  | O => NoFuel
  | S f =>
    run c <- rdp pat p;
    if (c =? 0) || (c =? 93) then Done p
    else
      run lp <- literal_char pat p;
      let p := snd lp in
      run c <- rdp pat p;
      if c =? 45 then run lp <- literal_char pat (S p); skip_class f pat (snd lp)
      else skip_class f pat p
  end.

(** pegexp.h:760-833 skip_atom; [skip_until] is its loop over the atoms of a
    group (785-787) or of an alternate (792-794). *)
Fixpoint skip_atom (f : nat) (L : lang) (pat : list Z) (p : nat) : res nat :=
  match f with
  | O => NoFuel
  | S f =>
    run rc <- rdp pat p;
    let p1 := S p in
    run q <-
      (if rc =? 92 then run lp <- literal_char pat p; Done (snd lp)
       else if rc =? 91 then
         run c <- rdp pat p1;
         let p1 := if c =? 94 then S p1 else p1 in
         run q <- skip_class f pat p1;
         run c <- rdp pat q;
         Done (if c =? 93 then S q else q)
       else if rc =? 40 then
         run q <- skip_until f L pat false p1;
         run c <- rdp pat q;
         Done (if c =? 0 then q else S q)
       else if rc =? 124 then skip_until f L pat true p1
       else if (rc =? 38) || (rc =? 33) then skip_atom f L pat p1
       else if extended rc then skip_extended f L pat p
       else Done p1);
    run lb <- label_at f pat q;
    Done (snd lb)
  end
with skip_until (f : nat) (L : lang) (pat : list Z) (alt : bool) (p : nat) : res nat :=
  match f with
  | O => NoFuel
  | S f =>
    run c <- rdp pat p;
    if (c =? 0) || (c =? 41) || (alt && (c =? 124)) then Done p
    else run q <- skip_atom f L pat p; skip_until f L pat alt q
  end.

(** pegexp.h:488-512: the items of a class against the character [ch]. *)
Fixpoint class_items (f : nat) (pat : list Z) (p : nat) (ch : Z) (acc : bool) : res (bool * nat) :=
  match f with
  | O => NoFuel
  | S f =>
    run c <- rdp pat p;
    if (c =? 0) || (c =? 93) then Done (acc, p)
    else
      run esc <- rdp pat (S p);
      run al <- (if c =? 92 then ctype c_alpha esc else Done false);
      if al && negb (esc =? 120) && negb (esc =? 117) then
        run bp <- char_property pat (S p) ch;
        class_items f pat (snd bp) ch (acc || fst bp)
      else
        run lp <- literal_char pat p;
        let '(c1, p) := lp in
        run c <- rdp pat p;
        if c =? 45 then
          run lp <- literal_char pat (S p);
          let '(c2, p) := lp in
          class_items f pat p ch (acc || ((c1 <=? ch) && (ch <=? c2)))
        else class_items f pat p ch (acc || (ch =? c1))
  end.

(** pegexp.h:474-518 char_class; [p] is the position after '['. *)
Definition char_class (f : nat) (pat : list Z) (p : nat) (s : src) : res (bool * state) :=
  if at_eof s then Done (false, (p, s))
  else
    run c <- rdp pat p;
    let negated := c =? 94 in
    let p := if negated then S p else p in
    run cs <- get_char s;
    let '(ch, s) := cs in
    run ap <- class_items f pat p ch false;
    let '(acc, q) := ap in
    run c <- rdp pat q;
    Done (if negated then negb acc else acc, (if c =? 93 then S q else q, s)).

(** pegexp.h:526-532 match_literal. *)
Definition match_literal (pat : list Z) (st : state) : res (bool * state) :=
  let '(p, s) := st in
  if at_eof s then Done (false, st)
  else
    run c <- rdp pat p;
    run cs <- get_char s;
    let '(ch, s) := cs in
    if u32 c =? ch then Done (true, (S p, s)) else Done (false, (p, s)).

(** The loop of pegexp.h:658-659: skip the remaining alternates. *)
Fixpoint skip_alternates (f : nat) (L : lang) (pat : list Z) (p : nat) : res nat :=
  match f with
  | O => NoFuel
  | S f =>
    run c <- rdp pat p;
    if c =? 124 then run q <- skip_atom f L pat p; skip_alternates f L pat q else Done p
  end.

(** pegexp.h:240-246 is_failure of a Match whose ends are [a] and [b]. *)
Definition is_failure (pat : list Z) (a b : state) : res bool :=
  run c <- rdp pat (fst a);
  Done (if c =? 0 then false else ((fst a =? fst b)%nat && same (snd a) (snd b))).

(** pegexp.h:534-752 match_atom and the loops in it; peg.h:123-203
    match_extended with recurse (298-313) and match_here (pegexp.h:341-360).

    A result (matched, state, context): when not matched, the state is the
    restored start_state (pegexp.h:730-731). *)
Fixpoint match_atom (f : nat) (L : lang) (P : policy) (pat : list Z) (ch : chain)
    (st : state) (cx : ctx) : res (bool * state * ctx) :=
  match f with
  | O => NoFuel
  | S f =>
    let '(p, s0) := st in
    run r <- match_switch f L P pat ch p s0 cx;
    let '(matched, (q, s1), cx1, sp) := r in
    if matched then                                                       (* 734-751 *)
      run lb <- label_at f pat q;
      match fst lb with
      | None => Done (true, (q, s1), cx1)
      | Some name =>
        let v := pol_text P (length ch <=? 1)%nat (c_caps cx1) s0 s1 in
        Done (true, (snd lb, s1),
              if (c_dis cx1 =? 0)%nat then capture P cx1 name v else cx1)
      end
    else Done (false, (sp, s0), roll P cx1 (count cx))                       (* 698-732 *)
  end

(** The switch of pegexp.h:546-697; the result is matched, the state, the
    context and start_state.pattern. *)
with match_switch (f : nat) (L : lang) (P : policy) (pat : list Z) (ch : chain)
    (p : nat) (s0 : src) (cx : ctx) : res (bool * state * ctx * nat) :=
  match f with
  | O => NoFuel
  | S f =>
    run rc <- rdp pat p;
    let p1 := S p in
     if rc =? 0 then Done (true, (p, s0), cx, p)                        (* 549-550 *)
     else if rc =? 41 then Done (true, (p1, s0), cx, p)                 (* 551-553 *)
     else if rc =? 94 then Done (at_bol s0, (p1, s0), cx, p)            (* 555-557 *)
     else if rc =? 36 then                                              (* 559-562 *)
       if at_eof s0 then Done (true, (p1, s0), cx, p)
       else run cs <- get_char s0; Done (fst cs =? 10, (p1, s0), cx, p)
     else if rc =? 46 then                                              (* 564-567 *)
       if at_eof s0 then Done (false, (p1, s0), cx, p)
       else run cs <- get_char s0; Done (true, (p1, snd cs), cx, p)
     else if rc =? 92 then                                              (* 575-577 *)
       if at_eof s0 then Done (false, (p1, s0), cx, p)
       else run cs <- get_char s0;
            run bp <- char_property pat p1 (fst cs);
            Done (fst bp, (snd bp, snd cs), cx, p)
     else if rc =? 91 then                                              (* 579-581 *)
       run bs <- char_class f pat p1 s0;
       Done (fst bs, snd bs, cx, p)
     else if (rc =? 63) || (rc =? 42) || (rc =? 43) then                (* 583-629 *)
       let once := rc =? 63 in
       let cx1 := if once then cx else set_rep cx (S (c_rep cx)) in
       run r1 <-
         (if rc =? 43 then match_atom f L P pat ch (p1, s0) cx1
          else Done (true, (p1, s0), cx1));
       let '(ok, st1, cx2) := r1 in
       run r2 <-
         (if ok then
            run sc <- rep_loop f L P pat ch once p1 st1 cx2;
            Done (true, fst sc, snd sc)
          else Done (false, st1, cx2));
       let '(m, st2, cx3) := r2 in
       Done (m, st2, if once then cx3 else set_rep cx3 (c_rep cx3 - 1), p)
     else if rc =? 40 then                                              (* 631-638 *)
       run r1 <- match_sequence f L P pat ch (p1, s0) cx;
       let '(ok, (q, s1), cx1) := r1 in
       if ok then
         run c <- rdp pat q;
         Done (true, (if c =? 0 then q else S q, s1), cx1, p)
       else Done (false, (q, s1), cx1, p)
     else if rc =? 124 then                                             (* 640-667 *)
       alt_loop f L P pat ch (count cx) p p s0 cx
     else if (rc =? 38) || (rc =? 33) then                              (* 669-682 *)
       run r1 <- match_atom f L P pat ch (p1, s0) (set_dis cx (S (c_dis cx)));
       let '(m, _, cx1) := r1 in
       let cx1 := set_dis cx1 (c_dis cx1 - 1) in
       let m := if rc =? 33 then negb m else m in
       if m then run q <- skip_atom f L pat p; Done (true, (q, s0), cx1, p)
       else Done (false, (p, s0), cx1, p)
     else if extended rc then                                           (* 685-696 *)
       match L with
       | Plain => run r1 <- match_literal pat (p, s0); Done (fst r1, snd r1, cx, p)
       | Gram rules =>
         if negb (rc =? 60)
         then run r1 <- match_literal pat (p, s0); Done (fst r1, snd r1, cx, p)
         else
           run call <- parse_call f pat p;                              (* peg.h:129-133 *)
           let '(rn, label, call_end) := call in
           match lookup rules (skipn rn pat) with
           | None => Done (false, (p, s0), cx, p)                       (* peg.h:137-139 *)
           | Some i =>
             match nth_error rules i with
             | None => Undef
             | Some sub_rule =>
               let spat := r_pat sub_rule in
               let scx := mkctx [] (c_dis cx) 0 (c_msgs cx) in          (* peg_ast.h:129-141 *)
               run r1 <-
                 (if left_recursive ch i s0
                  then run fl <- is_failure spat (0%nat, s0) (0%nat, s0);
                       Done (fl, s0, scx)
                  else
                    run r <- match_sequence f L P spat ((i, s0) :: ch) (0%nat, s0) scx;
                    let '(ok, (q, s1), scx1) := r in
                    run c <- rdp spat q;
                    if ok && (c =? 0)
                    then run fl <- is_failure spat (0%nat, s0) (q, s1); Done (fl, s1, scx1)
                    else run fl <- is_failure spat (q, s1) (q, s1); Done (fl, s0, scx1));
               let '(fl, s1, scx1) := r1 in
               let cx1 := mkctx (c_caps cx) (c_dis cx) (c_rep cx) (c_msgs scx1) in
               if fl then Done (false, (call_end, s1), cx1, p)
               else
                 let '(lkey, lname) :=
                   match label with
                   | Some (lp, nm) => (skipn lp pat, nm)
                   | None => (r_name sub_rule, r_name sub_rule)
                   end in
                 match ch with
                 | [] => Undef
                 | (cur, _) :: _ =>
                   match nth_error rules cur with
                   | None => Undef
                   | Some cur_rule =>
                     let cx2 :=
                       if (c_dis cx =? 0)%nat && is_captured cur_rule lkey
                       then capture P cx1 lname (pol_text P false (c_caps scx1) s0 s1)
                       else cx1 in
                     Done (true, (call_end, s1), cx2, p)
                   end
                 end
             end
           end
       end
     else                                                               (* 569-573 *)
       if at_eof s0 then Done (false, (p1, s0), cx, p)
       else run cs <- get_char s0; Done (u32 rc =? fst cs, (p1, snd cs), cx, p)
  end

(** pegexp.h:363-378 match_sequence. *)
with match_sequence (f : nat) (L : lang) (P : policy) (pat : list Z) (ch : chain)
    (st : state) (cx : ctx) : res (bool * state * ctx) :=
  match f with
  | O => NoFuel
  | S f =>
    run r <- seq_loop f L P pat ch st cx;
    let '(ok, st1, cx1) := r in
    Done (ok, st1, if ok then cx1 else roll P cx1 (count cx))
  end

with seq_loop (f : nat) (L : lang) (P : policy) (pat : list Z) (ch : chain)
    (st : state) (cx : ctx) : res (bool * state * ctx) :=
  match f with
  | O => NoFuel
  | S f =>
    run e <- at_expr_end pat (fst st);
    if e then Done (true, st, cx)
    else
      run r <- match_atom f L P pat ch st cx;
      let '(ok, st1, cx1) := r in
      if ok then seq_loop f L P pat ch st1 cx1 else Done (false, st1, cx1)
  end

(** pegexp.h:607-624: repeat the atom at [rp] ([once]: for '?', at most once). *)
with rep_loop (f : nat) (L : lang) (P : policy) (pat : list Z) (ch : chain) (once : bool)
    (rp : nat) (st : state) (cx : ctx) : res (state * ctx) :=
  match f with
  | O => NoFuel
  | S f =>
    run r <- match_atom f L P pat ch (rp, snd st) cx;
    let '(ok, st1, cx1) := r in
    if ok then
      if same (snd st1) (snd st) then Done (st1, cx1)
      else if once then Done (st1, cx1)
      else rep_loop f L P pat ch once rp st1 cx1
    else
      run q <- skip_atom f L pat (fst st1);
      Done ((q, snd st1), roll P cx1 (count cx))
  end

(** pegexp.h:642-666: the alternates from [na] on; [sp] is start_state.pattern. *)
with alt_loop (f : nat) (L : lang) (P : policy) (pat : list Z) (ch : chain) (initial : nat)
    (na sp : nat) (s0 : src) (cx : ctx) : res (bool * state * ctx * nat) :=
  match f with
  | O => NoFuel
  | S f =>
    run c <- rdp pat na;
    if c =? 124 then
      run r <- alt_atoms f L P pat ch (S na, s0) cx;
      let '(ok, (q, s1), cx1) := r in
      if ok then
        run q' <- skip_alternates f L pat q;
        Done (true, (q', s1), cx1, S na)
      else
        run na' <- skip_atom f L pat na;
        alt_loop f L P pat ch initial na' (S na) s0 (roll P cx1 initial)
    else Done (false, (sp, s0), cx, sp)
  end

(** pegexp.h:650-654: all atoms of one alternate. *)
with alt_atoms (f : nat) (L : lang) (P : policy) (pat : list Z) (ch : chain)
    (st : state) (cx : ctx) : res (bool * state * ctx) :=
  match f with
  | O => NoFuel
  | S f =>
    run r <- match_atom f L P pat ch st cx;
    let '(ok, st1, cx1) := r in
    if ok then
      run c <- rdp pat (fst st1);
      if (c =? 0) || (c =? 41) || (c =? 124) then Done (true, st1, cx1)
      else alt_atoms f L P pat ch st1 cx1
    else Done (false, st1, cx1)
  end.

(** pegexp.h:341-360 match_here: is the Match a failure, where does the text
    continue, and the context. *)
Definition match_here (f : nat) (L : lang) (P : policy) (pat : list Z) (ch : chain)
    (s : src) (cx : ctx) : res (bool * src * ctx) :=
  run r <- match_sequence f L P pat ch (0%nat, s) cx;
  let '(ok, (q, s1), cx1) := r in
  run c <- rdp pat q;
  if ok && (c =? 0)
  then run fl <- is_failure pat (0%nat, s) (q, s1); Done (fl, s1, cx1)
  else run fl <- is_failure pat (q, s1) (q, s1); Done (fl, s, cx1).

(** pegexp.h:316-339 match: search; the result also tells where the match
    starts. *)
Fixpoint search (f : nat) (L : lang) (P : policy) (pat : list Z) (ch : chain) (initial : nat)
    (s : src) (cx : ctx) : res (bool * src * src * ctx) :=
  match f with
  | O => NoFuel
  | S f =>
    run r <- match_here f L P pat ch s (roll P cx initial);
    let '(fl, s1, cx1) := r in
    if negb fl then Done (true, s, s1, cx1)
    else if at_eof s then Done (false, s, s, cx1)
    else
      run cs <- get_char s;
      search f L P pat ch initial (snd cs) cx1
  end.

Definition ctx0 : ctx := mkctx [] 0 0 0.

(** peg.h:256-274 parse: match_here of the rule TOP (84 79 80); the assert
    aborts when there is none. *)
Definition parse (f : nat) (P : policy) (rules : list rule) (text : list Z)
  : outcome (res (bool * src * ctx)) :=
  match lookup rules [84; 79; 80] with
  | None => Abort
  | Some i =>
    match nth_error rules i with
    | None => UB
    | Some r =>
      let s := src_start text in
      Ok (match_here f (Gram rules) P (r_pat r) [(i, s)] s ctx0)
    end
  end.
