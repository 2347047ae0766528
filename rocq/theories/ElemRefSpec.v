(** Which references may be used, read off the program alone. *)
From Verif Require Import Base RefModel ArrayModel ArraySpec ElemRefModel.

(** A reference to element [i] of variable [v]: writable (from elem_mut) or not
    (from asElements). *)
Definition live : Type := option (bool * nat * Z).

(** Operations that make another array share the storage of [v]. *)
Definition shares {A} (o : op A) (v : nat) : bool :=
  match o with
  | OCopy _ w | OSlice _ w _ _ | OHead _ w _ | OTail _ w _ | OShorter _ w _ | ODrop _ w _ => Nat.eqb w v
  | _ => false
  end.

Definition keep (p : bool -> nat -> bool) (l : live) : live :=
  match l with Some (m, v, i) => if p m v then l else None | None => None end.

(** The references that may be used after [o].  Any change of an array ends the
    references to its elements, but writable ones outlive set, elem_mut and
    writing through a reference.  Sharing the array ends its writable
    references. *)
Definition track {A} (ls : list live) (o : rop A) : list live :=
  match o with
  | RDo (OSet v _ _) | RSet v _ _ => map (keep (fun m w => m || negb (Nat.eqb w v))) ls
  | RDo o => map (keep (fun m w => negb (Nat.eqb w (target o)) && negb (m && shares o w))) ls
  | RMut r v i => upd (map (keep (fun m w => m || negb (Nat.eqb w v))) ls) r (Some (true, v, i))
  | RPeek r v i => upd ls r (Some (false, v, i))
  | RGet _ | RPut _ _ => ls
  | RPush v _ => map (keep (fun _ w => negb (Nat.eqb w v))) ls
  end.

(** Arguments in range, and only references that may be used; not an element of
    the very array it is pushed to. *)
Definition rop_ok {A} (st : rstate A) (ls : list live) (o : rop A) : Prop :=
  match o with
  | RDo o => op_ok (r_st st) o
  | RMut _ v i => is_int i /\ contents (r_st st) v <> None
  | RPeek _ v i => exists l, contents (r_st st) v = Some l /\ 0 <= i < Z.of_nat (length l)
  | RGet r => exists m v i, nth_error ls r = Some (Some (m, v, i))
  | RPut r _ => exists v i, nth_error ls r = Some (Some (true, v, i))
  | RPush w r => exists m v i, nth_error ls r = Some (Some (m, v, i)) /\ v <> w
  | RSet w j r => is_int j /\ exists m v i, nth_error ls r = Some (Some (m, v, i))
  end.

Fixpoint rhist_ok {A} (st : rstate A) (ls : list live) (os : list (rop A)) : Prop :=
  match os with
  | [] => True
  | o :: r => rop_ok st ls o /\ match rstep st o with Ok st' => rhist_ok st' (track ls o) r | _ => True end
  end.
(** The references that may be used at the end of a program. *)
Definition usable {A} (m : nat) (os : list (rop A)) : list live := fold_left track os (repeat None m).
