(** Model of the character classification and case conversion functions:
    src/char_encoding.cpp 19-252 and the inline predicates of
    include/char_encoding.h 57-90.  Tables: CharTables.v. *)
From Verif Require Import Base CharTables.

(** A call of a memoised function: the value it returns and the store it makes
    to its static [last_memo], if any. *)
Definition memo_call := outcome (Z * option Z).

(** The binary search loop shared by src/char_encoding.cpp 29-42, 162-178,
    209-225: [keys] are the searched column, [lo]/[hi] the C locals.  Result:
    the index found, or the final value of [hi].  [fuel] bounds the loop; it is
    never exhausted (CharProofs.v) - exhaustion would be [UB]. *)
Fixpoint bsearch (keys : list Z) (fuel : nat) (ch lo hi : Z) : outcome (bool * Z) :=
  if hi >=? lo then
    match fuel with
    | O => UB
    | S f =>
      let mid := (lo + hi) / 2 in
      do k <- rdZ keys mid;
      if ch <? k then bsearch keys f ch lo (mid - 1)
      else if ch >? k then bsearch keys f ch (mid + 1) hi
      else Ok (true, mid)
    end
  else Ok (false, hi).

Definition efirst (e : Z * Z * Z) : Z := fst (fst e).
Definition elast (e : Z * Z * Z) : Z := snd (fst e).
Definition edelta (e : Z * Z * Z) : Z := snd e.

(** src/char_encoding.cpp 149-191 (UCS4ToUpper) and 196-237 (UCS4ToLower): the
    two bodies are the same text over different tables.  [last] is the value
    read from the atomic memo. *)
Definition case_convert (t : list (Z * Z * Z)) (last : Z) (ch : Z) : memo_call :=
  do e <- rdZ t last;
  if (ch >=? efirst e) && (ch <=? elast e) then Ok (u32 (ch + edelta e), None)
  else
    do r <- bsearch (map efirst t) (S (length t)) ch 0 (Z.of_nat (length t) - 1);
    match r with
    | (true, mid) => do em <- rdZ t mid; Ok (u32 (ch + edelta em), Some mid)
    | (false, hi) =>
        if hi >=? 0 then
          do eh <- rdZ t hi;
          if (ch >=? efirst eh) && (ch <=? elast eh)
          then Ok (u32 (ch + edelta eh), Some hi)
          else Ok (ch, None)
        else Ok (ch, None)
    end.

Definition UCS4ToUpper := case_convert UnicodeToUpper.
Definition UCS4ToLower := case_convert UnicodeToLower.

(** src/char_encoding.cpp 242-252; [last] is UCS4ToUpper's memo. *)
Fixpoint title_lookup (t : list (Z * Z)) (ch : Z) : option Z :=
  match t with
  | [] => None
  | (c, d) :: t' => if ch =? c then Some (u32 (ch + d)) else title_lookup t' ch
  end.
Definition UCS4ToTitle (last : Z) (ch : Z) : memo_call :=
  match title_lookup UnicodeToTitle ch with
  | Some r => Ok (r, None)
  | None => UCS4ToUpper last ch
  end.

(** src/char_encoding.cpp 19-46; the two memos are those of the functions it
    calls (their updates are dropped: C10 shows values do not depend on them). *)
Definition UCS4IsAlphabetic (lastU lastL : Z) (ch : Z) : outcome bool :=
  do u <- UCS4ToUpper lastU ch;
  if negb (fst u =? ch) then Ok true
  else
    do l <- UCS4ToLower lastL ch;
    if negb (fst l =? ch) then Ok true
    else
      do r <- bsearch UnicodeNoCaseConvLetters (S (length UnicodeNoCaseConvLetters)) ch 0
                (Z.of_nat (length UnicodeNoCaseConvLetters) - 1);
      Ok (fst r).

(** The loop of src/char_encoding.cpp 110-125 over the ranges from index [i]:
    [Some (Some (v, memo))] a digit, [Some None] the short circuit [return -1],
    [None] ran off the table. *)
Fixpoint digit_loop (t : list (Z * Z)) (i : Z) (ch : Z) : option (option (Z * Z)) :=
  match t with
  | [] => None
  | (low, high) :: t' =>
      if ch <? low then Some None
      else if ch <=? high then Some (Some (9 - (high - ch), i))
      else digit_loop t' (i + 1) ch
  end.

(** src/char_encoding.cpp 98-131 *)
Definition UCS4Digit (last : Z) (ch : Z) : memo_call :=
  do rp <- rdZ UCS4_DigitRanges last;
  if (ch >=? fst rp) && (ch <=? snd rp) then Ok (9 - (snd rp - ch), None)
  else
    match digit_loop UCS4_DigitRanges 0 ch with
    | Some (Some (v, i)) => Ok (v, Some i)
    | Some None => Ok (-1, None)
    | None =>
        if ch =? 0x3007 then Ok (0, None)
        else if (ch >=? 0x3021) && (ch <=? 0x3029) then Ok (ch - 0x3020, None)
        else Ok (-1, None)
    end.

(** src/char_encoding.cpp 133-144 *)
Definition UCS4HexDigit (last : Z) (ch : Z) : memo_call :=
  do d <- UCS4Digit last ch;
  if fst d >=? 0 then Ok d
  else if (ch >=? 65) && (ch <=? 70) then Ok (ch - 65 + 10, snd d)
  else if (ch >=? 97) && (ch <=? 102) then Ok (ch - 97 + 10, snd d)
  else Ok (-1, snd d).

(** include/char_encoding.h 57-58 *)
Definition ASCIIDigit (ch : Z) : Z := if (ch <? 48) || (ch >? 57) then -1 else ch - 48.
(** include/char_encoding.h 68-76 *)
Definition UCS4IsWhite (ch : Z) : bool :=
  (ch =? 32) || (ch =? 9) || (ch =? 10) || (ch =? 13) || (ch =? 0x00A0)
  || ((ch >=? 0x2000) && (ch <=? 0x200B))
  || ((ch >=? 0x2028) && (ch <=? 0x2029))
  || (ch =? 0x3000).
(** include/char_encoding.h 77-81 *)
Definition UCS4IsASCII (ch : Z) : bool := (ch >=? 0) && (ch <? 0x80).
Definition UCS4IsASCIIPrintable (ch : Z) : bool := (ch <? 0x7F) && (ch >=? 32).
Definition UCS4IsLatin1 (ch : Z) : bool := ch <? 0x100.
Definition UCS4IsUTF16 (ch : Z) : bool := ch <? 0x10000.

(** The values the memo of a function can hold in any execution, sequential or
    concurrent: its static initial value 0, or the value stored by some call
    that itself had loaded such a value (each call loads the atomic once and
    stores it at most once). *)
Inductive memo_value (f : Z -> Z -> memo_call) : Z -> Prop :=
| memo_init : memo_value f 0
| memo_stored last ch r w : memo_value f last -> 0 <= ch < 2^32 ->
    f last ch = Ok (r, Some w) -> memo_value f w.

(** Running a sequence of calls in one thread, threading the memo. *)
Fixpoint run_calls (f : Z -> Z -> memo_call) (last : Z) (chs : list Z) : outcome (list Z) :=
  match chs with
  | [] => Ok []
  | ch :: rest =>
      do r <- f last ch;
      do rs <- run_calls f (match snd r with Some w => w | None => last end) rest;
      Ok (fst r :: rs)
  end.
