(** What a program may expect of arrays and maps used from several threads:
    every variable behaves as a value of its own. *)
From Verif Require Import Base RefModel ShareModel.

Section Spec.
Context {A : Type}.

Definition put_in {B} (v : nat -> B) (h : nat) (x : B) : nat -> B :=
  fun k => if Nat.eqb k h then x else v k.

Definition all_of (fs : list (list A -> list A)) (b : list A) : list A :=
  fold_left (fun x f => f x) fs b.

(** The value of every variable after the requests of a log, if no two
    variables shared anything. *)
Definition after (v : nat -> list A) (e : entry A) : nat -> list A :=
  match e with
  | LMake h b => put_in v h b
  | LCopy d s => put_in v d (v s)
  | LSlice d s a n => put_in v d (firstn n (skipn a (v s)))
  | LTrim h a n => put_in v h (firstn n (skipn a (v h)))
  | LJoin h k => put_in v h (v h ++ v k)
  | LDrop h => put_in v h []
  | LEdit h fs => put_in v h (all_of fs (v h))
  | LPut h f fs => put_in v h (all_of fs (match f (v h) with Some b => b | None => v h end))
  | LRead _ _ _ => v
  end.

Definition value (l : list (entry A)) : nat -> list A := fold_left after l (fun _ => []).

(** Every put is of a key that the map does not have yet. *)
Definition fresh_puts (l : list (entry A)) : Prop :=
  forall l1 h f fs l2, l = l1 ++ LPut h f fs :: l2 -> f (value l1 h) = None.

(** ... at every point of a run. *)
Definition puts_are_fresh (s0 : sstate A) (es : list (sevent A)) : Prop :=
  forall es1 es2 s, es = es1 ++ es2 -> srun s0 es1 = Ok s -> fresh_puts (log s).

(** The accesses a thread is about to make. *)
Inductive acc := ElemRead | ElemWrite | Destroy.

(** Thread [t] can make access [a] to body [o] in its next step. *)
Definition about_to (s : sstate A) (t : nat) (a : acc) (o : nat) : Prop :=
  match nth_error (pcs (rc s)) t with
  | Some (Del q) => a = Destroy /\ q = o
  | Some Idle =>
      exists h, nth_error (slots (rc s)) h = Some (Some o) /\
      match nth_error (wk s) t with
      | Some (Reading h' _ _) | Some (Copying h' _ _ _) | Some (Finding h' _ _) => h' = h /\ a = ElemRead
      | Some (Writing h' (_ :: _)) | Some (Poking h' _ _) => h' = h /\ (a = ElemWrite \/ a = ElemRead)
      | _ => False
      end
  | _ => False
  end.

(** Two accesses by different threads that must not be simultaneous. *)
Definition conflict (a b : acc) : Prop :=
  match a, b with
  | ElemRead, ElemRead => False
  | _, _ => True
  end.

(** Nothing is in progress. *)
Definition at_rest (s : sstate A) : Prop :=
  Forall (fun p => p = Idle) (pcs (rc s)) /\ Forall (fun w => w = Free) (wk s).

(** The elements a variable refers to. *)
Definition elements (s : sstate A) (h : nat) : list A :=
  match nth_error (slots (rc s)) h with
  | Some (Some o) =>
      match nth h (vw s) None with
      | Some (i, n) => firstn n (skipn i (nth o (mem s) []))
      | None => nth o (mem s) []
      end
  | _ => []
  end.
End Spec.
