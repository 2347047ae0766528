(** Independent description of the (extended, 6-byte, 32-bit) UTF-8 format. *)
From Verif Require Import Base.

(** The replacement codes: 0x800000xx stands for a raw byte xx, and
    0xFFFFFFFF (UCS4_NONE) for "no character". *)
Definition replacement (ch : Z) : Prop :=
  0x80000000 <= ch <= 0x800000FF \/ ch = 0xFFFFFFFF.

Definition ucs4 (ch : Z) : Prop := 0 <= ch < 2^32.

Definition continuation (b : Z) : Prop := 0x80 <= b <= 0xBF.

(** [form n lo payload]: an n-byte sequence starts with a byte in
    [lo, lo+payload) and continues with n-1 continuation bytes. *)
Definition form (n : nat) : option (Z * Z) :=
  match n with
  | 1%nat => Some (0x00, 128)
  | 2%nat => Some (0xC0, 32)
  | 3%nat => Some (0xE0, 16)
  | 4%nat => Some (0xF0, 8)
  | 5%nat => Some (0xF8, 4)
  | 6%nat => Some (0xFC, 4)
  | _ => None
  end.

(** Value of a list of continuation bytes appended to a payload. *)
Definition tail_value (hd : Z) (tl : list Z) : Z :=
  fold_left (fun acc b => acc * 64 + (b - 0x80)) tl hd.

(** [seq s ch]: the bytes [s] are one structurally complete UTF-8 sequence of
    value [ch] (over-long spellings included). *)
Definition seq (s : list Z) (ch : Z) : Prop :=
  exists lead tl lo pay,
    s = lead :: tl /\ form (length s) = Some (lo, pay) /\
    lo <= lead < lo + pay /\ Forall continuation tl /\
    ch = tail_value (lead - lo) tl.

(** No shorter spelling exists. *)
Definition shortest (s : list Z) (ch : Z) : Prop :=
  seq s ch /\ forall s', seq s' ch -> (length s <= length s')%nat.

(** A byte at the start of [s] that begins no complete sequence. *)
Definition bad_start (s : list Z) : Prop :=
  forall a b ch, s = a ++ b -> ~ seq a ch.

(** Byte strings without over-long forms and without spelled-out replacement
    codes: each step is either a shortest-form character or a stray byte. *)
Inductive clean : list Z -> Prop :=
| clean_nil : clean []
| clean_char s ch rest :
    shortest s ch -> ~ replacement ch -> clean rest -> clean (s ++ rest)
| clean_stray b rest :
    bad_start (b :: rest) -> clean rest -> clean (b :: rest).
