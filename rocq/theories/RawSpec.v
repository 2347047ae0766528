(** Specification of StrRawBinary strings: a string is the list of its bytes, and
    the operations are list operations on it. *)
From Verif Require Import Base RefModel ArrayModel ArraySpec StrModel StrSpec RawModel.

(** What operator[] gives for byte [b]: the value of a signed char as a 32-bit
    unsigned number. *)
Definition seen (b : Z) : Z := if b <? 128 then b else 2^32 - 256 + b.

(** Variable [v] reads as the bytes [bs]: length(), numBytes() and operator[]. *)
Definition raw_reads (st : sstate) (v : nat) (bs : list Z) : Prop :=
  exists s, nth_error (sv st) v = Some s /\ v_len s = Z.of_nat (length bs) /\
    (exists h, r_num_bytes (sh st) s = Ok (h, Z.of_nat (length bs))) /\
    forall i b, nth_error bs i = Some b -> exists h, r_index (sh st) s (Z.of_nat i) = Ok (h, seen b).

(** Room for the bytes of [w] in the body of [v]: below 1 GiB. *)
Definition room (st : sstate) (v w : nat) : Prop :=
  exists s x t, nth_error (sv st) v = Some s /\ nth_error (sh st) (v_body s) = Some (Some x) /\
    nth_error (sv st) w = Some t /\ b_num (sb_arr x) + v_len t < 2^30.
Definition is_empty (st : sstate) (v : nat) : Prop := exists s, nth_error (sv st) v = Some s /\ v_len s = 0.

(** [w] begins in the body of [v] where [v] ends. *)
Definition adjacent (st : sstate) (v w : nat) : Prop :=
  exists s t, nth_error (sv st) v = Some s /\ nth_error (sv st) w = Some t /\ v_body s = v_body t /\ v_off t = v_off s + v_len s.

Definition r_operands (o : rop) : list nat :=
  match o with
  | RLit d _ | RBody d _ _ | RText d _ => [d]
  | RAssign d v | RCopy d v | RSubstr d v _ _ | RAddEq d v | RInsert d _ v => [d; v]
  | RPlus d v w => [d; v; w]
  | RAsUTF8 v | RToCase v _ => [v]
  end.
(** Arguments in range; an edit in place starts at the front of the body or the
    body is shared; inserting something goes into a string that is not empty.
    operator+ joins two neighbouring pieces of one body.  toLower and toUpper, and
    strings that are not raw, are left out. *)
Definition r_step_ok (st : sstate) (o : rop) : Prop :=
  match o with
  | RLit _ bs => Forall (fun b => 0 < b < 256) bs /\ Z.of_nat (length bs) < 2^30
  | RBody _ data len => Forall (fun b => 0 <= b < 256) data /\ 0 < len < 2^30 /\ len < Z.of_nat (length data)
  | RAssign _ _ | RCopy _ _ | RAsUTF8 _ => True
  | RSubstr _ _ at_ len => 0 <= at_ < 2^32 /\ -2^31 <= len < 2^31
  | RInsert v pos w =>
      v <> w /\ at_front st v /\ room st v w /\ (is_empty st v -> is_empty st w) /\
      exists s, nth_error (sv st) v = Some s /\ 0 <= pos <= v_len s
  | RAddEq v w => v <> w /\ at_front st v /\ room st v w
  | RPlus _ v w => adjacent st v w
  | RText _ _ | RToCase _ _ => False
  end.
Fixpoint r_run_ok (st : sstate) (os : list rop) : Prop :=
  match os with
  | [] => True
  | o :: r => Forall (fun v => (v < length (sv st))%nat) (r_operands o) /\ r_step_ok st o /\
              forall st', rstep st o = Ok st' -> r_run_ok st' r
  end.

(** The same program on lists of bytes. *)
Definition r_target (o : rop) : nat :=
  match o with
  | RLit d _ | RBody d _ _ | RText d _ | RAssign d _ | RCopy d _ | RSubstr d _ _ _ | RAddEq d _ | RInsert d _ _ | RPlus d _ _ | RAsUTF8 d | RToCase d _ => d
  end.
Definition r_expected (t : nat -> list Z) (o : rop) : list Z :=
  match o with
  | RLit _ bs | RText _ bs => bs
  | RBody _ data len => firstn (Z.to_nat len) data
  | RAssign _ v | RCopy _ v => t v
  | RSubstr _ v at_ len => t_substr (t v) at_ len
  | RInsert v pos w => l_insert (t v) (Z.to_nat pos) (t w)
  | RAddEq v w | RPlus _ v w => t v ++ t w
  | RAsUTF8 v | RToCase v _ => t v
  end.
Definition r_spec_step (ts : list (list Z)) (o : rop) : list (list Z) :=
  upd ts (r_target o) (r_expected (fun v => nth v ts []) o).
Definition r_spec (n : nat) (os : list rop) : list (list Z) := fold_left r_spec_step os (repeat [] n).

(** The first place of [ch] in a list. *)
Fixpoint r_first (ch : Z) (l : list Z) : option nat :=
  match l with
  | [] => None
  | a :: r => if a =? ch then Some 0%nat else option_map S (r_first ch r)
  end.
