(** Model of StrVal::asInt32 (include/strval.h 757-761, 816-838, 960-1101) on
    the strings of StrModel.v.  unsigned long has 64 bits.  Both output
    parameters are non-null.  UCS4Digit is called with memo 0 (C10, C11: the
    memo does not influence the result). *)
From Verif Require Import Base RefModel UTF8Model CharModel ErrNumModel StrModel.

(** strval.h 40-45; asInt32 wraps them once more: ErrNum(STRERR_SET, STRERR_...). *)
Definition STRERR (k : Z) : Z := ErrNum2 1 (ErrNum2 1 k).
Definition STRERR_TRAIL_TEXT := STRERR 1.
Definition STRERR_NO_DIGITS := STRERR 2.
Definition STRERR_NUMBER_OVERFLOW := STRERR 3.
Definition STRERR_NOT_NUMBER := STRERR 4.
Definition STRERR_ILLEGAL_RADIX := STRERR 5.

(** strval.h 816-821; [ch & ~('a'-'A')] *)
Definition HexAlpha (ch : Z) : Z :=
  if ((ch >=? 97) && (ch <=? 122)) || ((ch >=? 65) && (ch <=? 90)) then Z.land ch (Z.lnot 32) - 65 + 10 else -1.
(** strval.h 823-838 *)
Definition Digit (ch radix : Z) : outcome Z :=
  do r <- UCS4Digit 0 ch;
  let d := if fst r <? 0 then (if radix >? 10 then HexAlpha ch else fst r) else fst r in
  if (fst r <? 0) && (radix >? 10) && (d <? 0) then Ok (-1)
  else if (d <? radix) || ((d =? 1) && (radix =? 1)) then Ok d else Ok (-1).

(** What asInt32 leaves: the value, *err_return, *scanned. *)
Record int_result := { ir_value : Z; ir_err : Z; ir_scanned : Z }.
Definition fail_at (i e : Z) : int_result := {| ir_value := 0; ir_err := e; ir_scanned := i |}.

(** [while (i < len && UCS4IsWhite(ch = ( *this)[i])) i++;] (strval.h 990-991, 1000-1001) *)
Fixpoint white_loop (fuel : nat) (h : sheap) (s : sval) (i ch : Z) : outcome (sheap * Z * Z) :=
  if i <? v_len s then
    match fuel with
    | O => UB
    | S f =>
      do r <- sv_index h s i;
      if UCS4IsWhite (snd r) then white_loop f (fst r) s (i + 1) (snd r) else Ok (fst r, i, snd r)
    end
  else Ok (h, i, ch).

(** The conversion loop (strval.h 1047-1060); [None]: overflowed. *)
Fixpoint digit_conv (fuel : nat) (h : sheap) (s : sval) (radix max i l d : Z) : outcome (sheap * Z * option Z) :=
  match fuel with
  | O => UB
  | S f =>
    let i1 := i + 1 in
    let l1 := u64 (l * radix + d) in
    if (l >? max) || (l1 <? l) then Ok (h, i1, None)
    else if i1 <? v_len s then
      do r <- sv_index h s i1;
      do d1 <- Digit (snd r) radix;
      if d1 >=? 0 then digit_conv f (fst r) s radix max i1 l1 d1 else Ok (fst r, i1, Some l1)
    else Ok (h, i1, Some l1)
  end.

(** From the first digit on (strval.h 1041-1087). *)
Definition convert (h : sheap) (s : sval) (radix i ch : Z) (negative : bool) : outcome (sheap * int_result) :=
  do d <- Digit ch radix;
  if d <? 0 then Ok (h, fail_at i STRERR_NOT_NUMBER)
  else if radix =? 0 then UB
  else
    let max := u64 ((2^64 - 2) / radix + 1) in
    let fuel := S (Z.to_nat (v_len s)) in
    do r <- digit_conv fuel h s radix max i 0 d;
    let '(h1, i1, l) := r : sheap * Z * option Z in
    match l with
    | None => Ok (h1, fail_at i1 STRERR_NUMBER_OVERFLOW)
    | Some l =>
        do w <- white_loop fuel h1 s i1 0;
        let '(h2, i2, _) := w : sheap * Z * Z in
        let err := if negb (i2 =? v_len s) then STRERR_TRAIL_TEXT else 0 in
        let err := if l >? 2^63 - 1 + (if negative then 1 else 0) then STRERR_NUMBER_OVERFLOW else err in
        (* (long)l wraps; negating the least long is undefined *)
        let sl := if l <? 2^63 then l else l - 2^64 in
        if negative && (l =? 2^63) then UB
        else Ok (h2, {| ir_value := s32 (if negative then - sl else sl); ir_err := err; ir_scanned := i2 |})
    end.

(** Auto-detection of the radix (strval.h 1007-1038): the radix, the position
    and the character there; [None]: the prefix ends the string. *)
Definition detect (h : sheap) (s : sval) (radix i ch : Z) : outcome (sheap * Z * option (Z * Z)) :=
  if radix =? 0 then
    do z <- UCS4Digit 0 ch;
    if (fst z =? 0) && (i + 1 <? v_len s) then
      do r <- sv_index h s (i + 1);
      let prefix (rx : Z) :=
        do r2 <- sv_index (fst r) s (i + 2);
        if i + 2 =? v_len s then Ok (fst r2, i + 2, None) else Ok (fst r2, rx, Some (i + 2, snd r2)) in
      if (snd r =? 98) || (snd r =? 66) then prefix 2
      else if (snd r =? 120) || (snd r =? 88) then prefix 16
      else Ok (fst r, 8, Some (i, ch))
    else Ok (h, 10, Some (i, ch))
  else Ok (h, radix, Some (i, ch)).

(** asInt32 (strval.h 960-1101) *)
Definition as_int32 (h : sheap) (s : sval) (radix : Z) : outcome (sheap * int_result) :=
  if (radix <? 0) || (radix >? 36) then Ok (h, fail_at 0 STRERR_ILLEGAL_RADIX)
  else
    let len := v_len s in
    let fuel := Z.to_nat len in
    do w <- white_loop fuel h s 0 0;
    let '(h1, i1, ch1) := w : sheap * Z * Z in
    if i1 =? len then Ok (h1, fail_at i1 STRERR_NO_DIGITS)
    else
      let negative := ch1 =? 45 in
      do w2 <- (if (ch1 =? 43) || (ch1 =? 45) then white_loop fuel h1 s (i1 + 1) ch1 else Ok (h1, i1, ch1));
      let '(h2, i2, ch2) := w2 : sheap * Z * Z in
      if i2 =? len then Ok (h2, fail_at i2 STRERR_NO_DIGITS)
      else
        do t <- detect h2 s radix i2 ch2;
        let '(h3, rx, p) := t : sheap * Z * option (Z * Z) in
        match p with
        | None => Ok (h3, fail_at rx STRERR_NO_DIGITS)
        | Some (i3, ch3) => convert h3 s rx i3 ch3 negative
        end.
