(** What "reference counting works" means, in terms of the handles a program
    can see and of how often each object was deleted. *)
From Verif Require Import Base RefModel.

Definition opt_nat_dec : forall a b : option nat, {a = b} + {a <> b}.
Proof. decide equality. apply Nat.eq_dec. Defined.

(** How many handles currently refer to object [o]. *)
Definition holders (s : state) (o : nat) : nat := count_occ opt_nat_dec (slots s) (Some o).

(** No thread is in the middle of a handle operation. *)
Definition quiescent (s : state) : Prop := Forall (fun p => p = Idle) (pcs s).

(** Which thread an event belongs to. *)
Definition by_thread (e : event) : nat :=
  match e with Copy t _ _ | Drop t _ | New t _ | Unshare t _ | Give t _ _ | Step t => t end.
