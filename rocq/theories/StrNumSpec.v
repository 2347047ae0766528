(** Specification of integer parsing: which texts are numerals, and their values. *)
From Verif Require Import Base CharTables CharSpec.

(** Blanks (C44). *)
Definition blank (ch : Z) : Prop :=
  In ch [9; 10; 13; 32; 0xA0; 0x2000; 0x2001; 0x2002; 0x2003; 0x2004; 0x2005; 0x2006; 0x2007;
         0x2008; 0x2009; 0x200A; 0x200B; 0x2028; 0x2029; 0x3000].

(** [ch] is a digit of value [d] in this radix: a decimal digit of some script,
    or for values from ten on an ASCII letter of either case.  In radix 1 the
    digits are 1, which counts, and 0, which does not. *)
Definition digit (radix ch d : Z) : Prop :=
  d < Z.max 2 radix /\
  (digit_value UCS4_DigitRanges ch d \/
   (forall u, ~ digit_value UCS4_DigitRanges ch u) /\ (65 <= ch <= 90 /\ d = ch - 65 + 10 \/ 97 <= ch <= 122 /\ d = ch - 97 + 10)).

(** A non-empty sequence of digits and its value. *)
Definition digits (radix : Z) (t : list Z) (v : Z) : Prop :=
  t <> [] /\ exists ds, Forall2 (digit radix) t ds /\ v = fold_left (fun a d => a * radix + d) ds 0.

(** Radix 0: C rules (0x..., 0b..., 0... octal, else decimal). *)
Definition c_numeral (t : list Z) (v : Z) : Prop :=
  (exists z x ds, t = z :: x :: ds /\ digit 10 z 0 /\ (x = 120 \/ x = 88) /\ digits 16 ds v) \/
  (exists z x ds, t = z :: x :: ds /\ digit 10 z 0 /\ (x = 98 \/ x = 66) /\ digits 2 ds v) \/
  (exists z ds, t = z :: ds /\ digit 10 z 0 /\ ds <> [] /\ digits 8 t v) \/
  (digits 10 t v /\ (forall z ds, t = z :: ds -> digit 10 z 0 -> ds = [])).

Definition unsigned (radix : Z) (t : list Z) (v : Z) : Prop :=
  if radix =? 0 then c_numeral t v else digits radix t v.

(** Blanks, an optional sign and blanks, the digits, blanks. *)
Definition numeral (radix : Z) (t : list Z) (k : Z) : Prop :=
  exists w1 sg w2 b w3 v, t = w1 ++ sg ++ w2 ++ b ++ w3 /\ Forall blank w1 /\ Forall blank w2 /\ Forall blank w3 /\
    unsigned radix b v /\
    (sg = [] /\ w2 = [] /\ k = v \/ sg = [43] /\ k = v \/ sg = [45] /\ k = - v).

(** What may precede the digits: blanks, an optional sign and blanks, and in
    radix 0 an optional prefix 0x or 0b.  [rx] is the radix of the digits that
    must follow. *)
Definition opening (radix : Z) (w : list Z) (rx : Z) (sign prefix : bool) : Prop :=
  exists w1 sg w2 pre, w = w1 ++ sg ++ w2 ++ pre /\ Forall blank w1 /\ Forall blank w2 /\
    (sign = false /\ sg = [] /\ w2 = [] \/ sign = true /\ (sg = [43] \/ sg = [45])) /\
    (prefix = false /\ pre = [] /\ rx = (if radix =? 0 then 10 else radix) \/
     prefix = true /\ radix = 0 /\ exists z x, pre = [z; x] /\ digit 10 z 0 /\
       ((x = 120 \/ x = 88) /\ rx = 16 \/ (x = 98 \/ x = 66) /\ rx = 2)).
(** After it comes [c], which is no digit (and does not belong to it). *)
Definition no_digit_after (rx : Z) (sign prefix : bool) (c : Z) : Prop :=
  (forall d, ~ digit rx c d) /\ (prefix = true \/ ~ blank c /\ (sign = true \/ c <> 43 /\ c <> 45)).
