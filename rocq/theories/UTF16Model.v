(** Model of the UTF-16 primitives, include/char_encoding.h 335-444.
    Code units are integers 0..65535. *)
From Verif Require Import Base.

(** char_encoding.h 335-339 *)
Definition UTF16IsSurrogate (ch : Z) : bool := Z.land ch 0xF800 =? 0xD800.
(** char_encoding.h 341-345 *)
Definition UTF16Is1st (ch : Z) : bool := Z.land ch 0xFC00 =? 0xD800.
(** char_encoding.h 347-351 *)
Definition UTF16Is2nd (ch : Z) : bool := Z.land ch 0xFC00 =? 0xDC00.

(** char_encoding.h 353-357; the subtraction is on char32_t, the return type
    is uint16_t. *)
Definition UCS4HighSurrogate (ch : Z) : Z :=
  u16 (0xD800 + u16 (Z.shiftr (u32 (ch - 0x10000)) 10)).
(** char_encoding.h 359-363 *)
Definition UCS4LowSurrogate (ch : Z) : Z :=
  u16 (0xDC00 + u16 (Z.land ch 0x3FF)).

(** char_encoding.h 365-372 *)
Definition UTF16Swab (x : Z) : Z :=
  u16 (Z.lor (Z.shiftl (Z.land x 0x00ff) 8) (Z.shiftr (Z.land x 0xff00) 8)).

Definition UCS4IsUnicode (ch : Z) : bool := ch <? 0x00110000. (* char_encoding.h 79 *)
Definition UCS4_REPLACEMENT : Z := 0xFFFD.                   (* char_encoding.h 51 *)

(** char_encoding.h 374-404; [m] is the memory from cp onwards; the result is
    the character and the number of units cp moves. [~0xD800] is an [int], the
    and is done on 32-bit unsigned values. *)
Definition UTF16Get (m : list Z) (swap : bool) : outcome (Z * nat) :=
  do u1 <- rd m 0;
  let c1 := if swap then UTF16Swab u1 else u1 in
  if negb (UTF16IsSurrogate c1) then Ok (c1, 1%nat)
  else
    cassert (UTF16Is1st c1)
      (if UTF16Is1st c1
       then do u2 <- rd m 1;
            let c2 := if swap then UTF16Swab u2 else u2 in
            cassert (UTF16Is2nd c2)
              (if UTF16Is2nd c2
               then Ok (u32 (u32 (Z.shiftl (Z.land c1 (u32 (Z.lnot 0xD800))) 10)
                             + Z.land c2 (u32 (Z.lnot 0xDC00)) + 0x10000), 2%nat)
               else Ok (UCS4_REPLACEMENT, 1%nat))
       else Ok (UCS4_REPLACEMENT, 1%nat)).

(** char_encoding.h 406-414 *)
Definition UTF16Len (ch : Z) : outcome nat :=
  cassert (UCS4IsUnicode ch)
    (if UCS4IsUnicode ch then Ok (if ch >? 0xFFFF then 2%nat else 1%nat) else Ok 1%nat).

(** char_encoding.h 416-420 *)
Definition UTF16LenPtr (m : list Z) (swap : bool) : outcome nat :=
  do u <- rd m 0;
  Ok (if UTF16Is1st (if swap then UTF16Swab u else u) then 2%nat else 1%nat).

(** char_encoding.h 422-444 : the units UTF16Put stores. *)
Definition UTF16Put (ch : Z) (swap : bool) : outcome (list Z) :=
  let sw x := if swap then UTF16Swab x else x in
  if ch <=? 0xFFFF then Ok [sw (u16 ch)]
  else cassert (UCS4IsUnicode ch)
    (if UCS4IsUnicode ch
     then Ok [sw (UCS4HighSurrogate ch); sw (UCS4LowSurrogate ch)]
     else Ok [sw UCS4_REPLACEMENT]).
