(** Model of the regular expression compiler (rx/rxcompile.cpp, rx/strregex.h).

    Patterns and strings are lists of UCS4 characters (StrModel.v models the
    strings themselves); the compiled program is a list of bytes.  Simplified:
    characters pasted into strings are those that survive UTF-8 (C01); the
    offset of the error is in RxErrModel. *)
From Verif Require Import Base UTF8Model CharModel ErrNumModel StrNumModel.

(** ** Characters of the pattern *)

(** strval.h:423-431 re[i + k], [rest] being re from i on *)
Definition at_ (rest : list Z) (k : nat) : Z :=
  if (k =? length rest)%nat then 0 else nth k rest 0xFFFFFFFF.

(** strval.h:493-502 find(UCS4) *)
Fixpoint find_ch (c : Z) (t : list Z) : option nat :=
  match t with
  | [] => None
  | d :: t => if d =? c then Some O else option_map S (find_ch c t)
  end.

(** ** asInt32 on characters (strval.h:960-1101), for a radix other than 0 *)
Fixpoint skip_white (t : list Z) : list Z :=
  match t with
  | c :: t' => if UCS4IsWhite c then skip_white t' else t
  | [] => []
  end.
(** strval.h:1047-1060: the rest and the value; [None] overflowed *)
Fixpoint digits (radix max l : Z) (t : list Z) : outcome (list Z * option Z) :=
  match t with
  | [] => Ok ([], Some l)
  | c :: t' =>
    do d <- Digit c radix;
    if d <? 0 then Ok (t, Some l)
    else
      let l1 := u64 (l * radix + d) in
      if (l >? max) || (l1 <? l) then Ok (t', None) else digits radix max l1 t'
  end.
Definition as_int (radix : Z) (t : list Z) : outcome int_result :=
  let pos (r : list Z) := Z.of_nat (length t) - Z.of_nat (length r) in
  match skip_white t with
  | [] => Ok (fail_at (Z.of_nat (length t)) STRERR_NO_DIGITS)
  | c :: r =>
    let negative := c =? 45 in
    match (if (c =? 43) || (c =? 45) then skip_white r else c :: r) with
    | [] => Ok (fail_at (Z.of_nat (length t)) STRERR_NO_DIGITS)
    | c :: r =>
      do d <- Digit c radix;
      if d <? 0 then Ok (fail_at (pos (c :: r)) STRERR_NOT_NUMBER)
      else
        do x <- digits radix (u64 ((2^64 - 2) / radix + 1)) 0 (c :: r);
        match snd x with
        | None => Ok (fail_at (pos (fst x)) STRERR_NUMBER_OVERFLOW)
        | Some l =>
          let r := skip_white (fst x) in
          let err := match r with [] => 0 | _ => STRERR_TRAIL_TEXT end in
          let err := if l >? 2^63 - 1 + (if negative then 1 else 0) then STRERR_NUMBER_OVERFLOW else err in
          let sl := if l <? 2^63 then l else l - 2^64 in
          if negative && (l =? 2^63) then UB
          else Ok {| ir_value := s32 (if negative then - sl else sl); ir_err := err; ir_scanned := pos r |}
        end
    end
  end.

(** ** Features (strregex.h:17-50) *)
Definition CEscapes := 0x1.         Definition Shorthand := 0x2.
Definition OctalChar := 0x4.        Definition HexChar := 0x8.
Definition UnicodeChar := 0x10.     Definition PropertyChars := 0x20.
Definition CharClasses := 0x40.     Definition ZeroOrOneQuest := 0x100.
Definition ZeroOrMore := 0x200.     Definition OneOrMore := 0x400.
Definition CountRepetition := 0x800. Definition Alternates := 0x1000.
Definition Group := 0x2000.         Definition Capture := 0x4000.
Definition NonCapture := 0x8000.    Definition NegLookahead := 0x10000.
Definition BOL := 0x40000.          Definition EOL := 0x80000.
Definition AllFeatures := 0xFFFFF.  Definition AnyIsQuest := 0x1000000.
Definition ZeroOrMoreAny := 0x2000000. Definition ExtendedRE := 0x20000000.

(** The messages. *)
Inductive msg :=
| MRejected | MBadRepetition | MBadOctal | MBadHex | MBadUnicode | MBadPosix | MBadClass | MBadName | MBadGroup
| MTooDeep | MTooManyNames | MDuplicate | MTooManyClosing | MRepeated | MLimit | MUnclosed.

(** rxcompile.cpp:45-55 RxToken *)
Inductive token :=
| TStart | TAccept | TBOL | TEOL | TAny
| TLit (s : list Z) | TRep (min max : Z) | TProp (s : list Z) | TClass (neg : bool) (s : list Z)
| TAlt | TGroup | TNamed (s : list Z) | TNeg | TEnd.

(** What scanning does, in order: hand on a token, or set error_message. *)
Inductive event := Tok (t : token) | Err (m : msg).

Section Scan.
(** features_enabled and features_rejected (rxcompile.cpp:57-64) *)
Variables en rej : Z.
Definition enabled (f : Z) : bool := negb (Z.land en f =? 0).
(** rxcompile.cpp:70-84 *)
Definition supported (f : Z) : list event * bool :=
  if negb (Z.land rej f =? 0) then ([Err MRejected], false) else ([], enabled f).

(** rxcompile.cpp:104-112 flush *)
Definition flush (delayed : list Z) : list event :=
  match delayed with [] => [] | _ => [Tok (TLit delayed)] end.

(** The state after one round of the loop: the events, delayed, and the pattern from the next i on *)
Definition round : Type := list event * list Z * list Z.
(** rxcompile.cpp:290-295, 425-431: re[i+1] is a repetition *)
Definition repeats (c : Z) : bool := (c =? 42) || (c =? 43) || (c =? 63) || (c =? 123).
Definition delay (pre : list event) (delayed : list Z) (ch next : Z) (rest : list Z) : round :=
  if repeats next then (pre ++ flush delayed, [ch], rest) else (pre, delayed ++ [ch], rest).
(** rxcompile.cpp:421-430 *)
Definition simple_char (pre : list event) (rest delayed : list Z) : round :=
  delay pre delayed (at_ rest 0) (at_ rest 1) (skipn 1 rest).
(** flush, then these events *)
Definition emit (pre : list event) (delayed : list Z) (es : list event) (rest : list Z) : round :=
  (pre ++ flush delayed ++ es, [], rest).

(** rxcompile.cpp:165-203 *)
Definition scan_count (pre : list event) (rest delayed : list Z) : outcome round :=
  let bad := emit pre delayed [Err MBadRepetition] in
  let p := skipn 1 rest in
  match (match find_ch 44 p with Some k => Some k | None => find_ch 125 p end) with
  | None => Ok (bad (skipn 2 rest))
  | Some close =>
    do mn <- (if (0 <? close)%nat then as_int 10 (firstn close p) else Ok {| ir_value := 0; ir_err := 0; ir_scanned := 0 |});
    if (negb (ir_err mn =? 0) && negb (ir_err mn =? STRERR_NO_DIGITS)) || (ir_value mn <? 0) then Ok (bad (skipn 2 rest))
    else
      let min := ir_value mn in
      let q := skipn close p in
      if at_ q 0 =? 44 then
        let q := skipn 1 q in
        match find_ch 125 q with
        | None => Ok (bad (skipn 1 q))
        | Some close2 =>
          do mx <- as_int 10 (firstn close2 q);
          let max := ir_value mx in
          if (negb (ir_err mx =? 0) && negb (ir_err mx =? STRERR_NO_DIGITS)) || (negb (max =? 0) && (max <? min)) then Ok (bad (skipn 1 q))
          else Ok (emit pre delayed [Tok (TRep (u16 min) (u16 max))] (skipn (S close2) q))
        end
      else Ok (emit pre delayed [Tok (TRep (u16 min) (u16 min))] (skipn 1 q))
  end.

(** rxcompile.cpp:215-256: a number of at most [n] digits from re[i + k] on *)
Definition scan_code (radix : Z) (k n : nat) (bad : msg) (rest delayed : list Z) : outcome round :=
  do r <- as_int radix (firstn n (skipn k rest));
  if (negb (ir_err r =? 0) && negb (ir_err r =? STRERR_TRAIL_TEXT)) || (ir_scanned r =? 0) then Ok ([Err bad], delayed, skipn (S k) rest)
  else
    let s := Z.to_nat (ir_scanned r) in
    Ok (delay [] delayed (u32 (ir_value r)) (at_ rest (k + s)) (skipn (k + s) rest)).

(** rxcompile.cpp:205-298 *)
Definition scan_escape (rest delayed : list Z) : outcome round :=
  let c := at_ rest 1 in
  let plain ch := Ok (delay [] delayed ch (at_ rest 2) (skipn 2 rest)) in
  let cesc ch := plain (if enabled CEscapes then ch else c) in
  if c =? 98 then cesc 8 else if c =? 101 then cesc 27 else if c =? 102 then cesc 12
  else if c =? 110 then cesc 10 else if c =? 116 then cesc 9 else if c =? 114 then cesc 13
  else if (48 <=? c) && (c <=? 55) then
    if enabled OctalChar then scan_code 8 1 3 MBadOctal rest delayed else plain c
  else if c =? 120 then
    if enabled HexChar then scan_code 16 2 2 MBadHex rest delayed else plain c
  else if c =? 117 then
    if enabled UnicodeChar then scan_code 16 2 5 MBadUnicode rest delayed else plain c
  else if (c =? 115) || (c =? 100) || (c =? 104) then
    if enabled Shorthand then Ok (emit [] delayed [Tok (TProp [c])] (skipn 2 rest)) else plain c
  else if c =? 112 then
    if enabled PropertyChars then
      let bad := Ok (emit [] delayed [Err MBadPosix] (skipn 3 rest)) in
      if at_ rest 2 =? 123 then
        let p := skipn 3 rest in
        match find_ch 125 p with
        | Some (S k) => Ok (emit [] delayed [Tok (TProp (firstn (S k) p))] (skipn (S (S k)) p))
        | _ => bad
        end
      else bad
    else plain c
  else plain c.

(** rxcompile.cpp:324-349: the loop over a class; [r] is re from i on. *)
Fixpoint class_loop (f : nat) (r param : list Z) : option (list Z) * list Z :=
  let c := at_ r 0 in
  match f with
  | O => (None, r)
  | S f =>
    if c =? 0 then (None, r)
    else if c =? 93 then (Some param, r)
    else
      let r := if c =? 92 then skipn 1 r else r in
      let c := at_ r 0 in
      if c =? 0 then (None, r)
      else if (at_ r 1 =? 45) && negb (at_ r 2 =? 93) then
        let r := skipn 2 r in
        let d := at_ r 0 in
        if d =? 0 then (None, r)
        else
          let r := if d =? 92 then skipn 1 r else r in
          let d := at_ r 0 in
          if d =? 0 then (None, r)
          else class_loop f (skipn 1 r) (param ++ [c; d])
      else class_loop f (skipn 1 r) (param ++ [c; c])
  end.
(** rxcompile.cpp:299-358 *)
Definition scan_class (pre : list event) (rest delayed : list Z) : round :=
  let neg := at_ rest 1 =? 94 in
  let r := skipn (if neg then 2 else 1) rest in
  let c := at_ r 0 in
  let lit := (c =? 45) || (c =? 93) in
  let x := class_loop (S (length r)) (if lit then skipn 1 r else r) (if lit then [c; c] else []) in
  match fst x with
  | Some param => emit pre delayed [Tok (TClass neg param)] (skipn 1 (snd x))
  | None => emit pre delayed [Err MBadClass] (skipn 1 (snd x))
  end.

(** rxcompile.cpp:366-404 *)
Definition scan_group (pre : list event) (rest delayed : list Z) : round :=
  if negb (enabled (Z.lor Capture (Z.lor NonCapture NegLookahead))) || negb (at_ rest 1 =? 63)
  then emit pre delayed [Tok TGroup] (skipn 1 rest)
  else
    let c := at_ rest 2 in
    let '(e1, s1) := supported Capture in
    if s1 && (c =? 60) then
      let p := skipn 3 rest in
      match find_ch 62 p with
      | Some (S k) => emit pre delayed (e1 ++ [Tok (TNamed (firstn (S k) p))]) (skipn (S (S k)) p)
      | _ => emit pre delayed (e1 ++ [Err MBadName]) (skipn 1 p)
      end
    else
      let '(e2, s2) := supported NonCapture in
      if s2 && (c =? 58) then emit pre delayed (e1 ++ e2 ++ [Tok TGroup]) (skipn 3 rest)
      else
        let '(e3, s3) := supported NegLookahead in
        if s3 && (c =? 33) then emit pre delayed (e1 ++ e2 ++ e3 ++ [Tok TNeg]) (skipn 3 rest)
        else emit pre delayed (e1 ++ e2 ++ e3 ++ [Err MBadGroup]) (skipn 3 rest).

(** rxcompile.cpp:417-419 a comment: from re[i+1] = '#' to the newline *)
Fixpoint comment (r : list Z) : list Z :=
  match r with
  | [] => []
  | c :: r' => if c =? 10 then r else comment r'
  end.

(** rxcompile.cpp:116-434: one round of the loop. *)
Definition scan_round (rest delayed : list Z) : outcome round :=
  let c := at_ rest 0 in
  let feature f (k : list event -> outcome round) :=
    let '(pre, ok) := supported f in
    if ok : bool then k pre else Ok (simple_char pre rest delayed) in
  if c =? 94 then feature BOL (fun pre => Ok (emit pre delayed [Tok TBOL] (skipn 1 rest)))
  else if c =? 36 then feature EOL (fun pre => Ok (emit pre delayed [Tok TEOL] (skipn 1 rest)))
  else if c =? 46 then
    if enabled AnyIsQuest then Ok (simple_char [] rest delayed) else Ok (emit [] delayed [Tok TAny] (skipn 1 rest))
  else if c =? 63 then
    Ok (emit [] delayed [Tok (if enabled AnyIsQuest then TAny else TRep 0 1)] (skipn 1 rest))
  else if c =? 42 then
    feature ZeroOrMore (fun pre => Ok (emit pre delayed ((if enabled ZeroOrMoreAny then [Tok TAny] else []) ++ [Tok (TRep 0 0)]) (skipn 1 rest)))
  else if c =? 43 then feature OneOrMore (fun pre => Ok (emit pre delayed [Tok (TRep 1 0)] (skipn 1 rest)))
  else if c =? 123 then feature CountRepetition (fun pre => scan_count pre rest delayed)
  else if c =? 92 then scan_escape rest delayed
  else if c =? 91 then feature CharClasses (fun pre => Ok (scan_class pre rest delayed))
  else if c =? 124 then feature Alternates (fun pre => Ok (emit pre delayed [Tok TAlt] (skipn 1 rest)))
  else if c =? 40 then feature Group (fun pre => Ok (scan_group pre rest delayed))
  else if c =? 41 then
    if enabled Group then Ok (emit [] delayed [Tok TEnd] (skipn 1 rest)) else Ok (simple_char [] rest delayed)
  else if (c =? 32) || (c =? 9) || (c =? 10) || (c =? 13) then
    if enabled ExtendedRE then Ok ([], delayed, skipn 1 (if at_ rest 1 =? 35 then comment (skipn 1 rest) else rest))
    else Ok (simple_char [] rest delayed)
  else Ok (simple_char [] rest delayed).

(** rxcompile.cpp:114-116, 435-442: the loop and the last flush; every round consumes. *)
Fixpoint scan_loop (f : nat) (rest delayed : list Z) : outcome (list event) :=
  match rest with
  | [] => Ok (flush delayed)
  | _ =>
    match f with
    | O => UB
    | S f =>
      do r <- scan_round rest delayed;
      let '(es, delayed, rest) := r : round in
      do es' <- scan_loop f rest delayed;
      Ok (es ++ es')
    end
  end.

Definition is_err (e : event) : bool := match e with Err _ => true | _ => false end.
(** rxcompile.cpp:92-443 scanRegex, with a function that does not fail: the
    tokens it gets and the errors, in order. *)
Definition scan (re : list Z) : outcome (list event) :=
  do es <- scan_loop (length re) re [];
  Ok (Tok TStart :: es ++ (if existsb is_err es then [] else [Tok TAccept])).
End Scan.

(** One pass (rxcompile.cpp:the calls of scanRegex at 720 and 1114): the events in order until [step]
    returns false; the state, error_message and what scanRegex returns.  [step]
    returns the state, a message, and ok. *)
Section Pass.
Context {S : Type} (step : token -> S -> outcome (S * option msg * bool)).
Fixpoint pass (es : list event) (s : S) (m : option msg) : outcome (S * option msg * bool) :=
  match es with
  | [] => Ok (s, m, match m with None => true | Some _ => false end)
  | Err e :: es => pass es s (Some e)
  | Tok t :: es =>
    do r <- step t s;
    let '(s', m', ok) := r : S * option msg * bool in
    let m := match m' with Some _ => m' | None => m end in
    if ok : bool then pass es s' m else Ok (s', m, false)
  end.
End Pass.

Definition RxMaxNesting : nat := 12.
Definition blen (c : Z) : Z := Z.of_nat (UTF8Len c).
Definition nbytes (s : list Z) : Z := fold_right (fun c n => blen c + n) 0 s.

(** ** First pass (rxcompile.cpp:535-717) *)
Inductive kind := KStart | KGroup | KNamed | KNeg.
Record one := mkone {
  o_bytes : Z; o_offsets : Z; o_stations : Z;
  o_stack : list (kind * bool);      (* op and whether start is not 0, top first *)
  o_max : nat; o_names : list (list Z); o_repeatable : bool
}.
(** rxcompile.cpp:517-531 push *)
Definition push1 (k : kind) (s : one) : option one :=
  if (RxMaxNesting <=? length (o_stack s))%nat then None
  else Some (mkone (o_bytes s) (o_offsets s) (o_stations s) ((k, true) :: o_stack s)
               (Nat.max (o_max s) (S (length (o_stack s)))) (o_names s) (o_repeatable s)).
(** Add to the counters; whether an atom was seen. *)
Definition add1 (s : one) (b o st : Z) (atom : bool) : outcome (one * option msg * bool) :=
  Ok (mkone (o_bytes s + 1 + b) (o_offsets s + o) (o_stations s + st) (o_stack s) (o_max s) (o_names s) atom, None, true).
Definition fail1 (s : one) (m : option msg) : outcome (one * option msg * bool) := Ok (s, m, false).
Definition string_size (s : list Z) : Z := blen (nbytes s) + nbytes s.
Fixpoint eqs (a b : list Z) : bool :=
  match a, b with
  | [], [] => true
  | x :: a, y :: b => (x =? y) && eqs a b
  | _, _ => false
  end.
Definition set_stack (s : one) (k : list (kind * bool)) : one :=
  mkone (o_bytes s) (o_offsets s) (o_stations s) k (o_max s) (o_names s) (o_repeatable s).
Definition first_pass (t : token) (s : one) : outcome (one * option msg * bool) :=
  match t with
  | TStart =>
    let s := match push1 KStart s with Some s => s | None => s end in
    add1 (mkone (o_bytes s) (o_offsets s) 0 (o_stack s) (o_max s) (o_names s) (o_repeatable s)) 5 3 0 false
  | TAccept => add1 (set_stack s (tl (o_stack s))) 4 2 1 false
  | TLit l => add1 s (Z.of_nat (length l) + nbytes l) 0 (nbytes l) true
  | TBOL | TEOL => add1 s 0 0 1 false
  | TAny => add1 s 0 0 1 true
  | TClass _ l | TProp l => add1 s (string_size l) 0 1 true
  | TGroup => match push1 KGroup s with Some s => add1 s 0 0 0 false | None => fail1 s (Some MTooDeep) end
  | TNeg => match push1 KNeg s with Some s => add1 s 0 1 1 false | None => fail1 s (Some MTooDeep) end
  | TNamed l =>
    if (254 <=? length (o_names s))%nat then fail1 s (Some MTooManyNames)
    else if existsb (eqs l) (o_names s) then fail1 s (Some MDuplicate)
    else
      let s := mkone (o_bytes s) (o_offsets s) (o_stations s) (o_stack s) (o_max s) (o_names s ++ [l]) (o_repeatable s) in
      match push1 KNamed s with Some s => add1 s (2 + string_size l) 0 0 false | None => fail1 s (Some MTooDeep) end
  | TEnd =>
    match o_stack s with
    | [] => fail1 s (Some MTooManyClosing)
    | (KStart, _) :: _ => fail1 s None
    | (KNeg, _) :: k => add1 (set_stack s k) 0 0 0 true
    | (KGroup, _) :: k => add1 (set_stack s k) (-1) 0 0 true
    | (KNamed, _) :: k => add1 (set_stack s k) 1 0 0 true
    end
  | TAlt =>
    match o_stack s with
    | [] => UB
    | (o, true) :: k => add1 (set_stack s ((o, false) :: k)) 1 3 1 false
    | (o, false) :: k => add1 s 2 3 0 false
    end
  | TRep min max =>
    if negb (o_repeatable s) then fail1 s (Some MRepeated)
    else if (min >? 254) || (max >? 254) then fail1 s (Some MLimit)
    else if (min =? 0) && (max =? 0) then add1 s 1 2 0 false
    else if (min =? 0) && (max =? 1) then add1 s 0 1 0 false
    else if (min =? 1) && (max =? 0) then add1 s 0 1 0 false
    else add1 s 3 1 min false
  end.

(** ** Second pass (rxcompile.cpp:740-1112) *)

(** rxcompile.cpp:743-747, 749-753 *)
Definition zigzag (i : Z) : Z := u32 (Z.shiftl (Z.abs i) 1) + (if i <? 0 then 1 else 0).
Definition zagzig (i : Z) : Z := Z.shiftr (s32 i) 1 * (if Z.odd i then -1 else 1).

Record frame := mkframe { f_op : kind; f_group : Z; f_start : nat; f_contents : nat; f_jump : nat }.
Record two := mktwo { w_buf : list Z; w_stack : list frame; w_max : nat; w_group : Z; w_atom : nat }.

Section Emit.
(** offset_max_bytes, and the bytes allocated (rxcompile.cpp:731-740) *)
Variables (M cap : nat).

(** Writing up to [ep]: the memory must be there. *)
Definition fits (b : list Z) : outcome (list Z) := if (length b <=? cap)%nat then Ok b else UB.
Definition app_bytes (b x : list Z) : outcome (list Z) := fits (b ++ x).

(** rxcompile.cpp:756-763 *)
Definition offset_bytes (i : Z) : list Z := UTF8Put (zigzag i).
(** rxcompile.cpp:773-780: what is at [np, np+M) *)
Definition padded (i : Z) : list Z := firstn M (offset_bytes i ++ repeat 0 M).
(** rxcompile.cpp:783-792 emit_string *)
Definition string_bytes (s : list Z) : list Z := UTF8Put (nbytes s) ++ flat_map UTF8Put s.

(** rxcompile.cpp:794-811 patch_value_at: the buffer and the shrinkage *)
Definition patch_value (b : list Z) (loc : nat) (v : Z) : outcome (list Z * nat) :=
  let bc := UTF8Len (zigzag v) in
  if (M <? bc)%nat then UB
  else Ok (firstn loc b ++ offset_bytes v ++ skipn (loc + M) b, (M - bc)%nat).
(** rxcompile.cpp:813-832 patch_offset *)
Definition patch_offset (b : list Z) (loc to_ : nat) : outcome (list Z * nat) :=
  let off := Z.of_nat to_ - Z.of_nat loc in
  let bc := UTF8Len (zigzag off) in
  patch_value b loc (if (bc <? M)%nat && (loc <? to_)%nat then off - Z.of_nat (M - bc) else off).
(** rxcompile.cpp:834-842 insert_split *)
Definition insert_split (b : list Z) (loc : nat) : outcome (list Z) :=
  fits (firstn loc b ++ [65] ++ padded 0 ++ skipn loc b).

(** rxcompile.cpp:844-877 fixup_alternates; [f] bounds the alternatives. *)
Fixpoint fixup_loop (f : nat) (b : list Z) (contents jump : nat) : outcome (list Z) :=
  match f with
  | O => UB
  | S f =>
    do g <- UTF8Get (skipn jump b);
    let prev := zagzig (fst g) in
    do o <- rdZ b (Z.of_nat jump - 1);
    cassert (o =? 74) (
    do p <- patch_offset b jump (length b);
    let b := fst p in
    let split := if prev =? 0 then S contents else Z.to_nat (Z.of_nat jump + prev + Z.of_nat M + 1) in
    do o <- rdZ b (Z.of_nat split - 1);
    cassert (o =? 65) (
    do q <- patch_offset b split (jump + M - snd p);
    let b := fst q in
    if prev =? 0 then Ok b
    else cassert (prev <? 0) (fixup_loop f b contents (Z.to_nat (Z.of_nat jump + prev)))))
  end.
Definition fixup (b : list Z) (fr : frame) : outcome (list Z) :=
  match f_jump fr with
  | O => Ok b
  | j => fixup_loop (length b) b (f_contents fr) j
  end.

(** rxcompile.cpp:1068-1079 the sizes of the two offsets of a star; [e] is ep, [a] last_atom_start: rev_bytes and rev_delta *)
Fixpoint star_loop (f : nat) (e a : nat) (rev : nat) : nat * Z :=
  let delta := Z.of_nat (e + rev) - Z.of_nat (S a) in
  let fwd := UTF8Len (zigzag delta) in
  let rd := Z.of_nat a - (Z.of_nat e - (Z.of_nat M - Z.of_nat fwd)) in
  let rev' := UTF8Len (zigzag rd) in
  match f with
  | O => (rev', rd)
  | S f => if (rev' <? rev)%nat then star_loop f e a rev' else (rev', rd)
  end.

Definition done (b : list Z) (k : list frame) (mx : nat) (g : Z) (a : nat) : outcome (two * option msg * bool) :=
  cassert (length b <? cap - 1)%nat (Ok (mktwo b k mx g a, None, true)).

(** station_count, max_nesting and the names of the first pass *)
Variables (stations : Z) (names : list (list Z)).

(** rxcompile.cpp:882-1112; this_atom_start is [a] unless said otherwise. *)
Definition second_pass (t : token) (s : two) : outcome (two * option msg * bool) :=
  let b := w_buf s in
  let a := length b in
  (* *ep++ = op comes first, the room for it must be there *)
  do _ <- fits (b ++ [0]);
  let plain x := do b <- app_bytes b x; done b (w_stack s) (w_max s) (w_group s) a in
  let push k op g start contents :=
    (mkframe op g start contents O :: k, Nat.max (w_max s) (S (length k))) in
  match t with
  | TStart =>
    let '(k, mx) := push [] KStart (w_group s) a (S a) in
    let n := u8 (Z.of_nat (length names) + 1) in
    do b <- app_bytes b ([83] ++ padded 0 ++ padded 0 ++ offset_bytes stations ++ [Z.of_nat mx; n; n] ++ flat_map string_bytes names);
    do p <- patch_offset b (1 + M) (length b);
    do b <- app_bytes (fst p) [40; 1];
    let k := match k with f :: k => mkframe (f_op f) (f_group f) (f_start f) (length b) (f_jump f) :: k | [] => [] end in
    done b k mx (w_group s + 1) a
  | TAccept =>
    match w_stack s with
    | [] => UB
    | fr :: _ =>
      do b <- fixup b fr;
      do b <- app_bytes b [35];
      do p <- patch_offset b 1 (length b);
      let b := fst p in
      let cp := (1 + M - snd p)%nat in
      do g <- UTF8Get (skipn cp b);
      let start := Z.of_nat cp + zagzig (fst g) in
      let cp := length b in
      do b <- app_bytes b [65];
      do b <- app_bytes b (offset_bytes (start - Z.of_nat (length b)));
      do b <- app_bytes b [46; 74];
      do b <- app_bytes b (offset_bytes (Z.of_nat cp - Z.of_nat (length b)));
      done b (w_stack s) (w_max s) (w_group s) a
    end
  | TBOL => plain [94]
  | TEOL => plain [36]
  | TAny => plain [46]
  | TLit l => plain (flat_map (fun c => 67 :: UTF8Put c) l)
  | TProp l => plain (80 :: string_bytes l)
  | TClass neg l => plain ((if neg then 78 else 76) :: string_bytes l)
  | TGroup =>
    let '(k, mx) := push (w_stack s) KGroup 0 a a in done b k mx (w_group s) a
  | TNamed _ =>
    let g := w_group s + 1 in
    do b <- app_bytes b [40; u8 g];
    let '(k, mx) := push (w_stack s) KNamed g a (length b) in done b k mx g a
  | TNeg =>
    do b <- app_bytes b (33 :: padded 0);
    let '(k, mx) := push (w_stack s) KNeg 0 a (length b) in done b k mx (w_group s) a
  | TEnd =>
    match w_stack s with
    | [] => UB
    | fr :: k =>
      match f_op fr with
      | KStart => Abort
      | KNeg =>
        do b <- fixup b fr;
        do b <- app_bytes b [35];
        do p <- patch_offset b (S (f_start fr)) (length b);
        done (fst p) k (w_max s) (w_group s) (f_start fr)
      | KGroup => do b <- fixup b fr; done b k (w_max s) (w_group s) (f_start fr)
      | KNamed =>
        do b <- fixup b fr;
        do b <- app_bytes b [41; u8 (f_group fr)];
        done b k (w_max s) (w_group s) (f_start fr)
      end
    end
  | TAlt =>
    match w_stack s with
    | [] => UB
    | fr :: k =>
      let put j b := done b (mkframe (f_op fr) (f_group fr) (f_start fr) (f_contents fr) j :: k) (w_max s) (w_group s) a in
      match f_jump fr with
      | O =>
        do b <- insert_split b (f_contents fr);
        do b <- app_bytes b [74];
        let j := length b in
        do b <- app_bytes b (padded 0);
        put j b
      | j0 =>
        do b <- insert_split b (j0 + M);
        do b <- app_bytes b [74];
        let j := length b in
        do b <- app_bytes b (padded (Z.of_nat j0 - Z.of_nat j));
        put j b
      end
    end
  | TRep min max =>
    let la := w_atom s in
    let fin b := done b (w_stack s) (w_max s) (w_group s) a in
    if (min =? 0) && (max =? 0) then
      do b <- insert_split b la;
      do b <- app_bytes b [74];
      let '(rev, rd) := star_loop 8 (length b) la M in
      do p <- patch_offset b (S la) (length b + rev);
      do b <- app_bytes (fst p) (offset_bytes rd);
      fin b
    else if (min =? 0) && (max =? 1) then
      do b <- insert_split b la;
      do p <- patch_offset b (S la) (length b);
      fin (fst p)
    else if (min =? 1) && (max =? 0) then
      do b <- app_bytes b [65];
      do b <- app_bytes b (offset_bytes (Z.of_nat la - Z.of_nat (length b)));
      fin b
    else
      do b <- fits (firstn la b ++ [90] ++ skipn la b);
      do b <- app_bytes b [82; u8 (min + 1); u8 (max + 1)];
      do b <- app_bytes b (offset_bytes (Z.of_nat (S la) - Z.of_nat (length b)));
      fin b
  end.
End Emit.

(** rxcompile.cpp:729-737 *)
Definition offset_max_bytes (bytes offsets : Z) : nat :=
  UTF8Len (2 * (bytes + offsets * blen (2 * (bytes + offsets * 4)))).
Definition allocated (bytes offsets : Z) : Z :=
  bytes + offsets * blen (bytes + offsets * Z.of_nat (offset_max_bytes bytes offsets)).

Definition one0 : one := mkone 0 0 0 [] 0 [] false.
(** rxcompile.cpp:471-1137 compile: the program (with its final NUL) if it
    returns true, and errorMessage(). *)
Definition compile (features reject : Z) (re : list Z) : outcome (option (list Z) * option msg) :=
  let en := Z.land features (Z.lnot reject) in
  do es <- scan en reject re;
  do r <- pass first_pass es one0 None;
  let '(s, m, ok) := r : one * option msg * bool in
  if negb ok then Ok (None, m)
  else match o_stack s with
  | _ :: _ => Ok (None, Some MUnclosed)
  | [] =>
    let M := offset_max_bytes (o_bytes s) (o_offsets s) in
    let cap := Z.to_nat (allocated (o_bytes s) (o_offsets s) + 1) in
    do r <- pass (second_pass M cap (o_stations s) (o_names s)) es (mktwo [] [] (o_max s) 0 0) None;
    let '(w, m, ok) := r : two * option msg * bool in
    do b <- app_bytes cap (w_buf w) [0];
    Ok (if ok : bool then Some b else None, m)
  end.
