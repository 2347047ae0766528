(** Model of the regular expression matcher (rx/rxmatch.cpp, rx/strregex.h).

    The program is the list of bytes that the compiler made; the target is a
    list of UCS4 characters (StrModel.v models the strings themselves); text
    offsets are unbounded.  The results that threads share and copy on write
    (rxmatch.cpp:771-776, 785-799) are values.  Clearing results that are not looked
    at again is not modelled. *)
From Verif Require Import Base UTF8Model CharModel RxCompModel.

(** strval.h:423-431 target[i] *)
Definition char_at (t : list Z) (i : Z) : Z :=
  if i =? Z.of_nat (length t) then 0 else nth (Z.to_nat i) t 0xFFFFFFFF.

(** rxmatch.cpp:165-179 RxDecoded, with the operands each opcode uses.
    [IOther] are the opcodes that are not decoded (243-253). *)
Inductive instr :=
| IAccept | IChar (c next : Z) | IAny (next : Z)
| IClass (neg : bool) (text : list Z) (next : Z) | IProp (text : list Z) (next : Z)
| IBOL (next : Z) | IEOL (next : Z) | IJump (alt : Z) | ISplit (alt next : Z)
| ICapStart (n next : Z) | ICapEnd (n next : Z) | IZero (next : Z)
| ICount (min max alt next : Z) | INeg (alt next : Z) | IOther.

Section Prog.
Variable nfa : list Z.

(** UTF8Get at a position of the program: the value and the next position *)
Definition get_at (p : Z) : outcome (Z * Z) :=
  if p <? 0 then UB
  else do g <- UTF8Get (skipn (Z.to_nat p) nfa); Ok (fst g, p + Z.of_nat (snd g)).
(** An offset relative to where it is (rxmatch.cpp:213-214, 218-219, 231-232) *)
Definition offset_at (p : Z) : outcome (Z * Z) :=
  do g <- get_at p; Ok (u32 (p + zagzig (fst g)), snd g).
(** A byte count and so many bytes, as characters (rxmatch.cpp:197-203, 537-543) *)
Definition text_at (p : Z) : outcome (list Z * Z) :=
  do g <- get_at p;
  let n := Z.to_nat (fst g) in
  do t <- decode_loop n (skipn (Z.to_nat (snd g)) nfa) n;
  Ok (t, snd g + fst g).

(** rxmatch.cpp:181-256 decode; a program has only one RxoStart, which is not
    decoded (it is at 0, and no offset leads there). *)
Definition decode (s : Z) : outcome instr :=
  do op <- rdZ nfa s;
  let p := s + 1 in
  if op =? 67 then do g <- get_at p; Ok (IChar (fst g) (snd g))
  else if op =? 80 then do g <- text_at p; Ok (IProp (fst g) (snd g))
  else if op =? 76 then do g <- text_at p; Ok (IClass false (fst g) (snd g))
  else if op =? 78 then do g <- text_at p; Ok (IClass true (fst g) (snd g))
  else if op =? 94 then Ok (IBOL p)
  else if op =? 36 then Ok (IEOL p)
  else if op =? 46 then Ok (IAny p)
  else if op =? 35 then Ok IAccept
  else if op =? 90 then Ok (IZero p)
  else if op =? 33 then do g <- offset_at p; Ok (INeg (fst g) (snd g))
  else if op =? 74 then do g <- offset_at p; Ok (IJump (fst g))
  else if op =? 65 then do g <- offset_at p; Ok (ISplit (fst g) (snd g))
  else if op =? 82 then
    do mn <- rdZ nfa p;
    do mx <- rdZ nfa (p + 1);
    do g <- offset_at (p + 2);
    Ok (ICount (u16 (mn - 1)) (u16 (mx - 1)) (fst g) (snd g))
  else if op =? 40 then do n <- rdZ nfa p; Ok (ICapStart (n - 1) (p + 1))
  else if op =? 41 then do n <- rdZ nfa p; Ok (ICapEnd (n - 1) (p + 1))
  else if (0 <=? op) && (op <=? 6) then Ok IOther
  else if op =? 83 then Ok IOther
  else Abort.

(** rxmatch.cpp:104-131 the header *)
Record header := mkheader {
  h_search : Z; h_start : Z; h_stations : Z; h_counters : Z; h_captures : Z; h_names : list (list Z)
}.
Fixpoint names_at (n : nat) (p : Z) : outcome (list (list Z) * Z) :=
  match n with
  | O => Ok ([], p)
  | S n =>
    do g <- text_at p;
    do r <- names_at n (snd g);
    Ok (fst g :: fst r, snd r)
  end.
(** A byte as a signed char *)
Definition s8 (b : Z) : Z := if b <? 128 then b else b - 256.
Definition program : outcome header :=
  do op <- rdZ nfa 0;
  cassert (op =? 83) (
  do se <- offset_at 1;
  do st <- offset_at (snd se);
  do mx <- get_at (snd st);
  do nc <- rdZ nfa (snd mx);
  do np <- rdZ nfa (snd mx + 1);
  do nn <- rdZ nfa (snd mx + 2);
  do names <- names_at (Z.to_nat (nn - 1)) (snd mx + 3);
  cassert (fst st =? snd names)
    (Ok (mkheader (fst se) (fst st) (s32 (fst mx)) (s8 nc) np (fst names)))).
End Prog.

(** ** Results (strregex.h:190-236, rxmatch.cpp:677-905) *)

(** cap0, cap1 ([None] is NORESULT), the other captures from index 2 on, and
    the stack of counters, top first: offset and count. *)
Record result := mkresult { r_cap0 : Z; r_cap1 : option Z; r_caps : list Z; r_counters : list (Z * Z) }.
Record thread := mkthread { t_station : Z; t_result : result }.
(** rxmatch.cpp:771-776 *)
Definition no_result : result := mkresult 0 None [] [].

(** rxmatch.cpp:837-852 with 754-762 captureSet *)
Definition capture_set (h : header) (r : result) (i v : Z) : outcome result :=
  if i =? 0 then Ok (mkresult v (r_cap1 r) (r_caps r) (r_counters r))
  else if i =? 1 then Ok (mkresult (r_cap0 r) (Some v) (r_caps r) (r_counters r))
  else if (i <? 1) || (i >=? h_captures h * 2) then Abort
  else
    let k := Z.to_nat (i - 2) in
    Ok (mkresult (r_cap0 r) (r_cap1 r) (firstn k (r_caps r) ++ [v] ++ skipn (S k) (r_caps r)) (r_counters r)).
(** rxmatch.cpp:699-709 *)
Definition push_zero (h : header) (r : result) (off : Z) : outcome result :=
  cassert (Z.of_nat (length (r_counters r)) <? h_counters h)
    (Ok (mkresult (r_cap0 r) (r_cap1 r) (r_caps r) ((off, 0) :: r_counters r))).
(** rxmatch.cpp:854-863 countersSame *)
Fixpoint counters_same (a b : list (Z * Z)) : bool :=
  match a, b with
  | [], [] => true
  | x :: a, y :: b => (snd x =? snd y) && counters_same a b
  | _, _ => false
  end.
(** A value as a short *)
Definition s16 (x : Z) : Z := let y := x mod 65536 in if y <? 32768 then y else y - 65536.

Section Match.
Variables (nfa : list Z) (h : header) (t : list Z).
(** The value that addthread finds in instr.repetition.min after a lookahead,
    where nothing has set it (rxmatch.cpp:442). *)
Variable garbage : Z.
Definition len : Z := Z.of_nat (length t).

(** rxmatch.cpp:324-353 the check for duplicates; [dup] is max_duplicates_allowed *)
Fixpoint duplicate (th : thread) (dup seen : Z) (next : list thread) : bool :=
  match next with
  | [] => false
  | x :: next =>
    if t_station x =? t_station th then
      if negb (dup =? 0) && counters_same (r_counters (t_result th)) (r_counters (t_result x)) then true
      else if seen + 1 >? dup then true
      else duplicate th dup (seen + 1) next
    else duplicate th dup seen next
  end.

Section Add.
(** What a lookahead finds from a station and an offset: whether it matches, and the offset it leaves *)
Variable look : Z -> Z -> outcome (bool * Z).

(** rxmatch.cpp:306-469 addthread; [go] is from the label [next] on.  [f]
    bounds the recursion and the jumps; shunts are the [sh] so far. *)
Fixpoint addthread (f : nat) (th : thread) (off : Z) (sh : list Z) (dup : Z) (next : list thread) {struct f} : outcome (list thread) :=
  match f with
  | O => UB
  | S f =>
    if existsb (Z.eqb (t_station th)) sh then Ok next
    else cassert (length sh <? RxMaxNesting)%nat (
      if duplicate th dup 0 next then Ok next
      else go f th off (t_station th :: sh) next)
  end
with go (f : nat) (th : thread) (off : Z) (sh : list Z) (next : list thread) {struct f} : outcome (list thread) :=
  match f with
  | O => UB
  | S f =>
    do i <- decode nfa (t_station th);
    let r := t_result th in
    match i with
    | IBOL n => if (off =? 0) || (char_at t (off - 1) =? 10) then go f (mkthread n r) off sh next else Ok next
    | IEOL n => if (off =? len) || (char_at t off =? 10) then go f (mkthread n r) off sh next else Ok next
    | IJump a => go f (mkthread a r) off sh next
    | ISplit a n =>
      do next <- addthread f (mkthread a r) off sh 0 next;
      addthread f (mkthread n r) off sh 0 next
    | ICapStart k n =>
      do r <- capture_set h r (k * 2) off;
      go f (mkthread n r) off sh next
    | ICapEnd k n =>
      do r <- capture_set h r (k * 2 + 1) off;
      Ok next
    | IZero n =>
      do r <- push_zero h r off;
      go f (mkthread n r) off sh next
    | ICount mn mx a n =>
      match r_counters r with
      | [] => Abort
      | (prev, c) :: cs =>
        let c := u32 (c + 1) in
        let counter := s16 c in
        let with_ cs := mkresult (r_cap0 r) (r_cap1 r) (r_caps r) cs in
        do next <- (if ((counter <=? mx) || (mx =? 0)) && (prev <=? off)
                    then addthread f (mkthread a (with_ ((off, c) :: cs))) off sh mn next else Ok next);
        if ((counter >=? mn) || (prev =? off)) && ((mx =? 0) || (counter <=? mx))
        then addthread f (mkthread n (with_ cs)) off sh mn next else Ok next
      end
    | INeg a n =>
      do x <- look n off;
      if fst x then Ok next else addthread f (mkthread a r) (snd x) sh garbage next
    | _ =>
      cassert (Z.of_nat (length next) <? h_stations h) (Ok (next ++ [th]))
    end
  end.

(** rxmatch.cpp:532-557 *)
Fixpoint in_class (c : Z) (l : list Z) : bool :=
  match l with
  | a :: b :: l => (c >=? a) && (c <=? b) || in_class c l
  | [a] => (c >=? a) && (c <=? 0)
  | [] => false
  end.
(** rxmatch.cpp:559-602 *)
Definition has_property (c : Z) (l : list Z) : outcome bool :=
  match l with
  | [p] =>
    if p =? 115 then Ok (UCS4IsWhite c)
    else if p =? 100 then do d <- UCS4Digit 0 c; Ok (fst d >=? 0)
    else if p =? 104 then
      do d <- UCS4Digit 0 c;
      Ok ((fst d >=? 0) || ((c >=? 97) && (c <=? 102)) || ((c >=? 65) && (c <=? 70)))
    else Ok true
  | _ => Ok true
  end.
(** rxmatch.cpp:511-627: what an instruction does with [c]; [None]: it accepts *)
Definition consume (i : instr) (c : Z) : outcome (option (option Z)) :=
  match i with
  | IAccept => Ok None
  | IAny n => Ok (Some (if c =? 0 then None else Some n))
  | IChar d n => Ok (Some (if c =? d then Some n else None))
  | IClass neg l n =>
    if c =? 0 then Ok (Some None)
    else cassert (0 <? length l)%nat (Ok (Some (if Bool.eqb (in_class c l) (negb neg) then Some n else None)))
  | IProp l n =>
    if c =? 0 then Ok (Some None)
    else cassert (0 <? length l)%nat (do b <- has_property c l; Ok (Some (if b : bool then Some n else None)))
  | _ => Abort
  end.

(** rxmatch.cpp:641-657 the choice of the result *)
Definition better (old : result) (r : result) (off : Z) : bool :=
  match r_cap1 old with
  | None => true
  | Some e => (r_cap0 r <? r_cap0 old) || ((off - r_cap0 r >? e - r_cap0 old) && (r_cap0 r =? r_cap0 old))
  end.
(** rxmatch.cpp:491-660 the threads of one cycle *)
Fixpoint cycle (f : nat) (cur : list thread) (off : Z) (next : list thread) (res : result) : outcome (list thread * result) :=
  match cur with
  | [] => Ok (next, res)
  | th :: cur =>
    do i <- decode nfa (t_station th);
    do x <- consume i (char_at t off);
    match x with
    | None =>
      let r := t_result th in
      cycle f cur off next (if better res r off then mkresult (r_cap0 r) (Some off) (r_caps r) (r_counters r) else res)
    | Some None => cycle f cur off next res
    | Some (Some n) =>
      do next <- addthread f (mkthread n (t_result th)) (off + 1) [] 0 next;
      cycle f cur off next res
    end
  end.
(** rxmatch.cpp:488-665 the loop; [k] bounds the cycles *)
Fixpoint cycles (f k : nat) (cur : list thread) (off : Z) (res : result) : outcome (result * Z) :=
  match cur with
  | [] => Ok (res, off)
  | _ =>
    if off <=? len then
      match k with
      | O => UB
      | S k =>
        do x <- cycle f cur off [] res;
        cycles f k (fst x) (off + 1) (snd x)
      end
    else Ok (res, off)
  end.
(** rxmatch.cpp:475-675 *)
Definition match_from (f : nat) (start off : Z) : outcome (result * Z) :=
  do cur <- addthread f (mkthread start (mkresult 0 None (repeat 0 (Z.to_nat (h_captures h * 2 - 2))) [])) off [] 0 [];
  cycles f (S (S (length t))) cur off no_result.
End Add.

(** A lookahead matches from where it is (rxmatch.cpp:432-448); lookaheads
    nest [d] deep. *)
Fixpoint look (d f : nat) (start off : Z) : outcome (bool * Z) :=
  match d with
  | O => UB
  | S d =>
    do x <- match_from (look d f) f start off;
    Ok (match r_cap1 (fst x) with Some _ => true | None => false end, snd x)
  end.
End Match.

(** rxmatch.cpp:146-160 with 104-131: RxProgram(nfa).matchAt(target, offset)
    and matchAfter; [f] bounds the recursion of addthread and the nesting of
    lookaheads. *)
Definition match_at (f : nat) (garbage : Z) (nfa t : list Z) (off : Z) : outcome result :=
  do h <- program nfa;
  do x <- match_from nfa h t garbage (look nfa h t garbage f f) f (h_start h) off;
  Ok (fst x).
Definition match_after (f : nat) (garbage : Z) (nfa t : list Z) (off : Z) : outcome result :=
  do h <- program nfa;
  do x <- match_from nfa h t garbage (look nfa h t garbage f f) f (h_search h) off;
  Ok (fst x).
