(** Specification of map variables: each operation as a change of the function
    from keys to values of the variable it is applied to. *)
From Verif Require Import Base RefModel CowModel.

(** The key order identifies exactly equal keys. *)
Definition key_order {K} (ltb : K -> K -> bool) : Prop := forall a b, eqv ltb a b = true <-> a = b.

(** What the operation should make of the target's lookup function. *)
Definition c_expected {K V} (ltb : K -> K -> bool) (look : nat -> K -> option V) (o : cop K V) (k : K) : option V :=
  match o with
  | CNew _ kvs => match find (fun p => eqv ltb k (fst p)) kvs with Some p => Some (snd p) | None => None end
  | CCopy _ v => look v k
  | CClear _ => None
  | CInsert v k0 x => match look v k with Some y => Some y | None => if eqv ltb k k0 then Some x else None end
  | CRemove v k0 => if eqv ltb k k0 then None else look v k
  | CPut v k0 x => if eqv ltb k k0 then Some x else look v k
  end.

(** Number of variables on body [b]. *)
Definition c_handles {K V} (s : cstate K V) (b : nat) : nat := length (filter (Nat.eqb b) (cv s)).

(** The operation is a [put] of a key present in a map whose body is shared. *)
Definition put_on_shared {K V} (ltb : K -> K -> bool) (s : cstate K V) (o : cop K V) : Prop :=
  match o with
  | CPut v k _ => clookup ltb s v k <> None /\ exists b, nth_error (cv s) v = Some b /\ (1 < c_handles s b)%nat
  | _ => False
  end.
