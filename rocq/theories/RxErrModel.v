(** Model of what RxCompiler::errorOffset() returns (rx/rxcompile.cpp,
    rx/strregex.h 113): the index i of the scanning loop is followed through
    its rounds, on top of the rounds of RxCompModel. *)
From Verif Require Import Base UTF8Model CharModel ErrNumModel StrNumModel RxCompModel.

Section Scan.
(** features_enabled and features_rejected *)
Variables en rej : Z.

(** Where i stands when a round is over, before the i++ of the loop: the
    pattern from there on, the round having started at [rest].  i never passes
    the end of the pattern, so this determines i. *)

(** rxcompile.cpp:165-203 a count: ++i in 169, i += close in 186, ++i in 190,
    i += close in 197; the errors leave i after the brace or the comma *)
Definition count_stop (rest : list Z) : outcome (list Z) :=
  let p := skipn 1 rest in
  match (match find_ch 44 p with Some k => Some k | None => find_ch 125 p end) with
  | None => Ok p
  | Some close =>
    do mn <- (if (0 <? close)%nat then as_int 10 (firstn close p) else Ok {| ir_value := 0; ir_err := 0; ir_scanned := 0 |});
    if (negb (ir_err mn =? 0) && negb (ir_err mn =? STRERR_NO_DIGITS)) || (ir_value mn <? 0) then Ok p
    else
      let q := skipn close p in
      if at_ q 0 =? 44 then
        let q := skipn 1 q in
        match find_ch 125 q with
        | None => Ok q
        | Some close2 =>
          do mx <- as_int 10 (firstn close2 q);
          let max := ir_value mx in
          if (negb (ir_err mx =? 0) && negb (ir_err mx =? STRERR_NO_DIGITS)) || (negb (max =? 0) && (max <? ir_value mn)) then Ok q
          else Ok (skipn close2 q)
        end
      else Ok q
  end.

(** rxcompile.cpp:216-256 a character code: i += scanned-1 *)
Definition code_stop (radix : Z) (k n : nat) (rest : list Z) : outcome (list Z) :=
  do r <- as_int radix (firstn n (skipn k rest));
  if (negb (ir_err r =? 0) && negb (ir_err r =? STRERR_TRAIL_TEXT)) || (ir_scanned r =? 0) then Ok (skipn k rest)
  else Ok (skipn (k + (Z.to_nat (ir_scanned r) - 1)) rest).

(** rxcompile.cpp:205-298 an escape: ++i in 206, ++i in 272, i += close+1 in 282 *)
Definition escape_stop (rest : list Z) : outcome (list Z) :=
  let c := at_ rest 1 in
  if (48 <=? c) && (c <=? 55) && enabled en OctalChar then code_stop 8 1 3 rest
  else if (c =? 120) && enabled en HexChar then code_stop 16 2 2 rest
  else if (c =? 117) && enabled en UnicodeChar then code_stop 16 2 5 rest
  else if (c =? 112) && enabled en PropertyChars then
    if at_ rest 2 =? 123 then
      match find_ch 125 (skipn 3 rest) with
      | Some (S k) => Ok (skipn (S k) (skipn 3 rest))
      | _ => Ok (skipn 2 rest)
      end
    else Ok (skipn 2 rest)
  else Ok (skipn 1 rest).

(** rxcompile.cpp:300-357 a class: at the bracket, or at the end *)
Definition class_stop (rest : list Z) : list Z :=
  let r := skipn (if at_ rest 1 =? 94 then 2 else 1) rest in
  let c := at_ r 0 in
  let lit := (c =? 45) || (c =? 93) in
  snd (class_loop (S (length r)) (if lit then skipn 1 r else r) (if lit then [c; c] else [])).

(** rxcompile.cpp:366-404 a group: i += 2 in 377, ++i in 380, i += close in 388 *)
Definition group_stop (rest : list Z) : list Z :=
  if negb (enabled en (Z.lor Capture (Z.lor NonCapture NegLookahead))) || negb (at_ rest 1 =? 63) then rest
  else if snd (supported en rej Capture) && (at_ rest 2 =? 60) then
    let p := skipn 3 rest in
    match find_ch 62 p with
    | Some (S k) => skipn (S k) p
    | _ => p
    end
  else skipn 2 rest.

(** rxcompile.cpp:116-431 *)
Definition round_stop (rest : list Z) : outcome (list Z) :=
  let c := at_ rest 0 in
  let ok f := snd (supported en rej f) in
  if c =? 92 then escape_stop rest
  else if (c =? 123) && ok CountRepetition then count_stop rest
  else if (c =? 91) && ok CharClasses then Ok (class_stop rest)
  else if (c =? 40) && ok Group then Ok (group_stop rest)
  else if ((c =? 32) || (c =? 9) || (c =? 10) || (c =? 13)) && enabled en ExtendedRE && (at_ rest 1 =? 35) then Ok (comment (skipn 1 rest))
  else Ok rest.

Section Step.
Context {S : Type} (step : token -> S -> outcome (S * option msg * bool)).
(** Events in order until [step] refuses a token: the state, error_message and ok. *)
Fixpoint run (es : list event) (s : S) (m : option msg) : outcome (S * option msg * bool) :=
  match es with
  | [] => Ok (s, m, true)
  | Err e :: es => run es s (Some e)
  | Tok t :: es =>
    do r <- step t s;
    let '(s', m', ok) := r : S * option msg * bool in
    let m := match m' with Some _ => m' | None => m end in
    if ok : bool then run es s' m else Ok (s', m, false)
  end.

Definition is_some {A} (x : option A) : bool := match x with Some _ => true | None => false end.

(** rxcompile.cpp:116-443: the loop, with error_offset ([off]) set at the end of
    a round (432-433), and what comes after it; [n] is the length of the
    pattern.  The last component is error_offset. *)
Fixpoint track (f n : nat) (rest delayed : list Z) (s : S) (m : option msg) (off : Z) : outcome (S * option msg * bool * Z) :=
  match rest with
  | [] =>
    do x <- run (flush delayed) s m;
    let '(s, m, ok) := x : S * option msg * bool in
    if ok && negb (is_some m) then
      do y <- run [Tok TAccept] s m;
      Ok (y, off)
    else Ok (s, m, false, off)
  | _ =>
    match f with
    | O => UB
    | Datatypes.S f =>
      do r <- scan_round en rej rest delayed;
      do i <- round_stop rest;
      let '(es, delayed, rest) := r : round in
      do x <- run es s m;
      let '(s, m, ok) := x : S * option msg * bool in
      let off := if negb ok || is_some m then Z.of_nat (n - length i) else off in
      if ok then track f n rest delayed s m off else Ok (s, m, false, off)
    end
  end.

(** rxcompile.cpp:92-443 scanRegex with the function [step] *)
Definition scan_regex (re : list Z) (s : S) (m : option msg) (off : Z) : outcome (S * option msg * bool * Z) :=
  do x <- run [Tok TStart] s m;
  let '(s, m, ok) := x : S * option msg * bool in
  if ok then track (length re) (length re) re [] s m off else Ok (s, m, false, 0).
End Step.
End Scan.

(** rxcompile.cpp:471-1137 compile: the program, errorMessage() and errorOffset(). *)
Definition compile_at (features reject : Z) (re : list Z) : outcome (option (list Z) * option msg * Z) :=
  let en := Z.land features (Z.lnot reject) in
  do x <- scan_regex en reject first_pass re one0 None 0;
  let '(s, m, ok, off) := x : one * option msg * bool * Z in
  if negb ok then Ok (None, m, off)
  else match o_stack s with
  | _ :: _ => Ok (None, Some MUnclosed, off)
  | [] =>
    let M := offset_max_bytes (o_bytes s) (o_offsets s) in
    let cap := Z.to_nat (allocated (o_bytes s) (o_offsets s) + 1) in
    do x <- scan_regex en reject (second_pass M cap (o_stations s) (o_names s)) re (mktwo [] [] (o_max s) 0 0) m off;
    let '(w, m, ok, off) := x : two * option msg * bool * Z in
    do b <- app_bytes cap (w_buf w) [0];
    Ok (if ok : bool then Some b else None, m, off)
  end.
