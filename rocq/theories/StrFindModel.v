(** Model of StrVal's comparisons and searches (include/strval.h 447-460,
    494-620, 846-878), on the strings of StrModel.v. *)
From Verif Require Import Base RefModel UTF8Model ArrayModel StrModel.

(** memcmp(a, b, n): [a] and [b] are the memory from the two pointers to the end
    of their buffers.  Simplification: the bytes are read one pair at a time up to
    the first difference, so reading outside a buffer is undefined only if the
    comparison gets that far (the C standard requires all n bytes of both to be
    readable).  Only the sign of the result is specified: it is -1, 0 or 1. *)
Fixpoint memcmp (a b : list Z) (n : nat) : outcome Z :=
  match n with
  | O => Ok 0
  | S k =>
      do x <- rd a 0; do y <- rd b 0;
      if x =? y then memcmp (tl a) (tl b) k else Ok (if x <? y then -1 else 1)
  end.

(** The memory a character pointer (byte number [p]) of [s] points to. *)
Definition at_ptr (h : sheap) (s : sval) (p : Z) : outcome (list Z) :=
  do m <- sv_mem h s; if p <? 0 then UB else Ok (skipn (Z.to_nat p) m).

(** compare (strval.h 857-878), style CompareRaw; the other styles are not
    implemented (they assert). *)
Definition compare (h : sheap) (s w : sval) : outcome (sheap * Z) :=
  do a <- nth_c h s 0;
  do b <- nth_c (fst a) w 0;
  do n <- num_bytes (fst b) s;
  match snd a, snd b with
  | Some p, Some q =>
      do ma <- at_ptr (fst n) s p;
      do mb <- at_ptr (fst n) w q;
      do c <- memcmp ma mb (Z.to_nat (snd n));
      if c =? 0 then
        do n1 <- num_bytes (fst n) s;
        do n2 <- num_bytes (fst n1) w;
        Ok (fst n2, s32 (u32 (snd n1 - snd n2)))
      else Ok (fst n, c)
  | _, _ => UB
  end.

(** operator== (strval.h 449-451), operator!= (452) and the orderings (453-456). *)
Definition equal (h : sheap) (s w : sval) : outcome (sheap * bool) :=
  if v_len s =? v_len w then do r <- compare h s w; Ok (fst r, snd r =? 0) else Ok (h, false).
Definition less (h : sheap) (s w : sval) : outcome (sheap * bool) :=
  do r <- compare h s w; Ok (fst r, snd r <? 0).
Definition unequal (h : sheap) (s w : sval) : outcome (sheap * bool) :=
  do r <- equal h s w; Ok (fst r, negb (snd r)).
Definition less_eq (h : sheap) (s w : sval) : outcome (sheap * bool) :=
  do r <- compare h s w; Ok (fst r, snd r <=? 0).
Definition greater_eq (h : sheap) (s w : sval) : outcome (sheap * bool) :=
  do r <- compare h s w; Ok (fst r, snd r >=? 0).
Definition greater (h : sheap) (s w : sval) : outcome (sheap * bool) :=
  do r <- compare h s w; Ok (fst r, snd r >? 0).

(** compare with a style (strval.h 378-385, 857-878): only CompareRaw is
    implemented, the others assert.  equalCI (457-458), and the static compare
    and equiv meant for a std::map (461-462, 845-855). *)
Inductive style := CompareRaw | CompareCI | CompareNatural.
Definition compare_style (k : style) (h : sheap) (s w : sval) : outcome (sheap * Z) :=
  match k with CompareRaw => compare h s w | _ => Abort end.
Definition equal_ci (h : sheap) (s w : sval) : outcome (sheap * bool) :=
  do r <- compare_style CompareCI h s w; Ok (fst r, snd r =? 0).
Definition map_before (h : sheap) (s w : sval) : outcome (sheap * bool) :=
  do r <- compare_style CompareRaw h s w; Ok (fst r, snd r >? 0).
Definition map_equiv (h : sheap) (s w : sval) : outcome (sheap * bool) :=
  do r <- compare_style CompareRaw h s w; Ok (fst r, snd r =? 0).

(** The loop all searches share: [n] is an unsigned character number, the test
    sees the memory from character [n] on, [lim] is the last character number
    looked at (only find(StrVal), strval.h 529, has such a test: the others pass
    2^32-1, which never stops them).  [n] moves by [step]. *)
Fixpoint scan (fuel : nat) (h : sheap) (s : sval) (n lim step : Z)
  (test : sheap -> list Z -> outcome (sheap * bool)) : outcome (sheap * Z) :=
  match fuel with
  | O => UB
  | S f =>
    if n <=? lim then
      do r <- nth_c h s n;
      match snd r with
      | None => Ok (fst r, -1)
      | Some p =>
          do m <- at_ptr (fst r) s p;
          do t <- test (fst r) m;
          if snd t : bool then Ok (fst t, s32 n)
          else scan f (fst t) s (u32 (n + step)) lim step test
      end
    else Ok (h, -1)
  end.
Definition no_lim : Z := 0xFFFFFFFF.
(** More steps than any search takes: every step moves one character on, and
    stops beyond the length. *)
Definition scan_fuel (s : sval) : nat := S (S (Z.to_nat (v_len s))).

(** The tests: the character there is [ch] ... *)
Definition is_char (ch : Z) (h : sheap) (m : list Z) : outcome (sheap * bool) :=
  do r <- UTF8Get m; Ok (h, ch =? fst r).
(** ... is one of s1[i], s1[i+1], ... ([k] of them) ... *)
Fixpoint in_set (k : nat) (h : sheap) (s1 : sval) (i ch : Z) : outcome (sheap * bool) :=
  match k with
  | O => Ok (h, false)
  | S k' => do r <- sv_index h s1 i;
            if ch =? snd r then Ok (fst r, true) else in_set k' (fst r) s1 (i + 1) ch
  end.
Definition is_any (s1 : sval) (want : bool) (h : sheap) (m : list Z) : outcome (sheap * bool) :=
  do r <- UTF8Get m;
  do t <- in_set (Z.to_nat (v_len s1)) h s1 0 (fst r);
  Ok (fst t, Bool.eqb (snd t) want).
(** ... the bytes there are those of s1. *)
Definition is_str (s1 : sval) (ms : list Z) (h : sheap) (m : list Z) : outcome (sheap * bool) :=
  do nb <- num_bytes h s1;
  do c <- memcmp m ms (Z.to_nat (snd nb));
  Ok (fst nb, c =? 0).

(** after + 1, an int sum (overflow undefined), as an Index. *)
Definition after1 (after : Z) : outcome Z :=
  if after + 1 <? 2^31 then Ok (u32 (after + 1)) else UB.
(** before - 1 as an int (overflow undefined), as an Index. *)
Definition before1 (before : Z) : outcome Z :=
  if -2^31 <=? before - 1 then Ok (u32 (before - 1)) else UB.

(** find(UCS4, after) (strval.h 495-507) *)
Definition find_char (h : sheap) (s : sval) (ch after : Z) : outcome (sheap * Z) :=
  do n <- after1 after; scan (scan_fuel s) h s n no_lim 1 (is_char ch).
(** rfind(UCS4, before) (strval.h 508-520): the ?: is of type Index. *)
Definition rfind_char (h : sheap) (s : sval) (ch before : Z) : outcome (sheap * Z) :=
  scan (scan_fuel s) h s (u32 ((if before =? -1 then v_len s else u32 before) - 1)) no_lim (-1) (is_char ch).
(** find(StrVal, after) (strval.h 523-537) *)
Definition find_str (h : sheap) (s s1 : sval) (after : Z) : outcome (sheap * Z) :=
  do n <- after1 after;
  let last_start := u32 (v_len s - v_len s1) in
  do a <- nth_c h s1 0;
  match snd a with
  | None => UB
  | Some p => do ms <- at_ptr (fst a) s1 p; scan (scan_fuel s) (fst a) s n last_start 1 (is_str s1 ms)
  end.
(** rfind(StrVal, before) (strval.h 538-554) *)
Definition rfind_str (h : sheap) (s s1 : sval) (before : Z) : outcome (sheap * Z) :=
  do n <- (if before =? -1 then Ok (u32 (v_len s - v_len s1)) else before1 before);
  let n := if n >? u32 (v_len s - v_len s1) then u32 (v_len s - v_len s1) else n in
  do a <- nth_c h s1 0;
  match snd a with
  | None => UB
  | Some p => do ms <- at_ptr (fst a) s1 p; scan (scan_fuel s) (fst a) s n no_lim (-1) (is_str s1 ms)
  end.
(** findAny, findNot (strval.h 557-571, 588-604) *)
Definition find_any (h : sheap) (s s1 : sval) (after : Z) : outcome (sheap * Z) :=
  do n <- after1 after; scan (scan_fuel s) h s n no_lim 1 (is_any s1 true).
Definition find_not (h : sheap) (s s1 : sval) (after : Z) : outcome (sheap * Z) :=
  do n <- after1 after; scan (scan_fuel s) h s n no_lim 1 (is_any s1 false).
(** rfindAny (strval.h 572-585): [before-1] is an int sum there;
    rfindNot (strval.h 605-620): the ?: is of type Index. *)
Definition rfind_any (h : sheap) (s s1 : sval) (before : Z) : outcome (sheap * Z) :=
  do n <- (if before =? -1 then Ok (u32 (v_len s - 1)) else before1 before);
  scan (scan_fuel s) h s n no_lim (-1) (is_any s1 true).
Definition rfind_not (h : sheap) (s s1 : sval) (before : Z) : outcome (sheap * Z) :=
  scan (scan_fuel s) h s (u32 ((if before =? -1 then v_len s else u32 before) - 1)) no_lim (-1) (is_any s1 false).
