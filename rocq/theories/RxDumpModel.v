(** Model of the listing of a compiled program (rx/rxdump.cpp).

    What is printed is a list of lines, each with the position it starts
    with; the letters and digits around the values of a line are not
    modelled, nor is the hexadecimal dump before them (rxdump.cpp:22-29).  A
    string printed with a precision is the bytes that precision covers. *)
From Verif Require Import Base UTF8Model CharModel RxCompModel RxModel.

(** One line of the listing (rxdump.cpp:86-239).  A name is [None] when it is
    BAD NAME NUMBER.  [DError] are the lines that say ERROR. *)
Inductive line :=
| DNull | DIllegal (op : Z)
| DStart (search start stations nesting captures : Z) (names : list (list Z))
| DAccept | DChar (c : Z) (bytes : list Z) | DBOL | DEOL | DAny
| DJump (offset dest : Z) | DSplit (offset dest : Z)
| DCapStart (name : option (list Z)) (group : Z) | DCapEnd (name : option (list Z)) (group : Z)
| DNeg (offset dest : Z)
| DProp (bytes : list Z) | DClass (bytes : list Z) | DNegClass (bytes : list Z)
| DZero | DCount (min max offset dest : Z) | DError (op : Z).

Section Dump.
Variable nfa : list Z.

(** The [n] bytes at [p], which must be in the program *)
Definition slice (p n : Z) : outcome (list Z) :=
  if (0 <=? p) && (0 <=? n) && (p + n <=? Z.of_nat (length nfa)) then Ok (firstn (Z.to_nat n) (skipn (Z.to_nat p) nfa)) else UB.

(** rxdump.cpp:49-60 zagzig and get_offset, which gives the bare offset *)
Definition offset_of (p : Z) : outcome (Z * Z) :=
  do g <- get_at nfa p; Ok (zagzig (fst g), snd g).

(** rxdump.cpp:73-80 skip the preceding names *)
Fixpoint skip_names (n : nat) (p : Z) : outcome Z :=
  match n with
  | O => Ok p
  | S n => do g <- get_at nfa p; skip_names n (snd g + fst g)
  end.
(** rxdump.cpp:62-84 get_name *)
Definition get_name (i : Z) : outcome (option (list Z)) :=
  if i =? 0 then Ok (Some [])
  else
    do op <- rdZ nfa 0;
    cassert (op =? 83) (
    do a <- offset_of 1;
    do b <- offset_of (snd a);
    do c <- get_at nfa (snd b);
    do nn <- rdZ nfa (snd c + 2);
    if (i <=? 0) || (nn - 1 <? i) then Ok None
    else
      do p <- skip_names (Z.to_nat (i - 1)) (snd c + 3);
      do g <- get_at nfa p;
      cassert (0 <? fst g) (
      do s <- slice (snd g) (fst g);
      Ok (Some s))).

(** rxdump.cpp:115-126 the names in the header *)
Fixpoint show_names (n : nat) (p : Z) : outcome (list (list Z) * Z) :=
  match n with
  | O => Ok ([], p)
  | S n =>
    do g <- get_at nfa p;
    do s <- slice (snd g) (fst g);
    do r <- show_names n (snd g + fst g);
    Ok (s :: fst r, snd r)
  end.

(** rxdump.cpp:181-193 a string and what follows it *)
Definition show_text (p : Z) (mk : list Z -> line) : outcome (line * option Z) :=
  do g <- get_at nfa p;
  do s <- slice (snd g) (fst g);
  Ok (mk s, Some (snd g + fst g)).
(** An offset that is counted from [from] *)
Definition show_offset (from p : Z) (mk : Z -> Z -> line) : outcome (line * option Z) :=
  do o <- offset_of p; Ok (mk (fst o) (from + fst o), Some (snd o)).

(** rxdump.cpp:31-241 dumpInstruction: the line, and where the next instruction
    is when it returns true. *)
Definition dump_instruction (s : Z) : outcome (line * option Z) :=
  do op <- rdZ nfa s;
  let p := s + 1 in
  if op =? 0 then Ok (DNull, None)
  else if op =? 83 then
    do se <- offset_of p;
    do st <- offset_of (snd se);
    do n <- get_at nfa (snd st);
    do nest <- rdZ nfa (snd n);
    do cap <- rdZ nfa (snd n + 1);
    do nn <- rdZ nfa (snd n + 2);
    do names <- show_names (Z.to_nat (nn - 1)) (snd n + 3);
    Ok (DStart (p + fst se) (snd se + fst st) (s32 (fst n)) nest cap (fst names), Some (snd names))
  else if op =? 35 then Ok (DAccept, Some p)
  else if op =? 67 then
    do g <- get_at nfa p;
    do s <- slice p (snd g - p);
    Ok (DChar (fst g) s, Some (snd g))
  else if op =? 94 then Ok (DBOL, Some p)
  else if op =? 36 then Ok (DEOL, Some p)
  else if op =? 46 then Ok (DAny, Some p)
  else if op =? 74 then show_offset p p DJump
  else if op =? 65 then show_offset p p DSplit
  else if op =? 40 then
    do g <- rdZ nfa p; do n <- get_name (g - 1); Ok (DCapStart n (g - 1), Some (p + 1))
  else if op =? 41 then
    do g <- rdZ nfa p; do n <- get_name (g - 1); Ok (DCapEnd n (g - 1), Some (p + 1))
  else if op =? 33 then show_offset p p DNeg
  else if op =? 80 then show_text p DProp
  else if op =? 76 then show_text p DClass
  else if op =? 78 then show_text p DNegClass
  else if op =? 90 then Ok (DZero, Some p)
  else if op =? 82 then
    do mn <- rdZ nfa p;
    do mx <- rdZ nfa (p + 1);
    show_offset (p + 2) (p + 2) (DCount (mn - 1) (mx - 1))
  (* the tokens that are no instructions: Literal, NonCapturingGroup, NamedCapture, Alternate, EndGroup, Repetition *)
  else if op =? 1 then show_text p (fun _ => DError op)
  else if (op =? 2) || (op =? 4) then do g <- get_at nfa p; Ok (DError op, Some (snd g))
  else if op =? 3 then
    do g <- get_at nfa p; do n <- rdZ nfa (snd g); do _ <- get_name (n - 1); Ok (DError op, Some (snd g + 1))
  else if op =? 5 then Ok (DError op, Some p)
  else if op =? 6 then do _ <- rdZ nfa p; do _ <- rdZ nfa (p + 1); Ok (DError op, Some (p + 2))
  else Ok (DIllegal op, None).

(** rxdump.cpp:11-20 dump.  Every instruction takes a byte, so the bytes of
    the program are enough rounds. *)
Fixpoint dump_loop (f : nat) (s : Z) : outcome (list (Z * line)) :=
  if s <? Z.of_nat (length nfa) then
    match f with
    | O => UB
    | S f =>
      do x <- dump_instruction s;
      match snd x with
      | None => Ok [(s, fst x)]
      | Some s' => do r <- dump_loop f s'; Ok ((s, fst x) :: r)
      end
    end
  else Ok [].
Definition dump : outcome (list (Z * line)) := dump_loop (length nfa) 0.
End Dump.
