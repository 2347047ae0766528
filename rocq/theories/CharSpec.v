(** What the character tables mean, independent of how they are searched. *)
From Verif Require Import Base CharTables CharModel.

(** An entry (first, last, delta) covers first..last. *)
Definition in_entry (e : Z * Z * Z) (ch : Z) : Prop := efirst e <= ch <= elast e.

(** A case table maps [ch] to [r]: shifted by the delta of an entry covering
    it, or unchanged when no entry does. *)
Definition table_maps (t : list (Z * Z * Z)) (ch r : Z) : Prop :=
  (exists e, In e t /\ in_entry e ch /\ r = ch + edelta e) \/
  ((forall e, In e t -> ~ in_entry e ch) /\ r = ch).

(** [v] is the digit value of [ch]: its distance from the range's last
    character, which is the digit nine. *)
Definition digit_value (t : list (Z * Z)) (ch v : Z) : Prop :=
  exists low high, In (low, high) t /\ low <= ch <= high /\ v = 9 - (high - ch).

Definition digit_spec (ch v : Z) : Prop :=
  digit_value UCS4_DigitRanges ch v \/
  ((forall u, ~ digit_value UCS4_DigitRanges ch u) /\ v = -1).

Definition caseless_letter (ch : Z) : Prop := In ch UnicodeNoCaseConvLetters.

(** C-locale ASCII case conversion. *)
Definition ascii_upper (c : Z) : Z := if (97 <=? c) && (c <=? 122) then c - 32 else c.
Definition ascii_lower (c : Z) : Z := if (65 <=? c) && (c <=? 90) then c + 32 else c.

Definition ucs4 (ch : Z) : Prop := 0 <= ch < 2^32.
