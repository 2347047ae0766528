(** What a program may expect of strings used from several threads: every
    variable behaves as a value of its own. *)
From Verif Require Import Base UTF8Model RefModel ConcModel.

(** The value of every variable after the requests of a log, if no two
    variables shared anything. *)
Definition set {A} (v : nat -> A) (h : nat) (x : A) : nat -> A :=
  fun k => if Nat.eqb k h then x else v k.

Definition apply_all (fs : list (list Z -> list Z)) (b : list Z) : list Z :=
  fold_left (fun x f => f x) fs b.

Definition after (v : nat -> list Z) (e : entry) : nat -> list Z :=
  match e with
  | LMake h b => set v h b
  | LCopy d s => set v d (v s)
  | LDrop h => set v h []
  | LEdit h fs => set v h (apply_all fs (v h))
  | LRead _ _ _ | LCount _ _ _ => v
  end.

Definition value (l : list entry) : nat -> list Z := fold_left after l (fun _ => []).

(** Edits write bytes, and strings are made of bytes. *)
Definition byte_event (e : cevent) : Prop :=
  match e with
  | EMake _ _ b => bytes b
  | EEdit _ _ fs => Forall (fun f => forall b, bytes b -> bytes (f b)) fs
  | _ => True
  end.

(** Whether the number of characters of a variable has been counted since it was
    last edited. *)
Definition known_after (v : nat -> bool) (e : entry) : nat -> bool :=
  match e with
  | LMake h _ | LDrop h => set v h true
  | LCopy d s => set v d (v s)
  | LEdit h _ => set v h false
  | LRead _ h _ | LCount _ h _ => set v h true
  end.
Definition known (l : list entry) : nat -> bool := fold_left known_after l (fun _ => true).

(** Every copy is taken of a variable whose characters are counted. *)
Definition counts_first (l : list entry) : Prop :=
  forall l1 d s l2, l = l1 ++ LCopy d s :: l2 -> known l1 s = true.

(** The accesses a thread is about to make. *)
Inductive acc := TextRead | TextWrite | CountRead | CountWrite | Destroy.

(** Thread [t] can make access [a] to body [o] in its next step. *)
Definition about_to (s : cstate) (t : nat) (a : acc) (o : nat) : Prop :=
  match nth_error (pcs (rc s)) t with
  | Some (Del q) => a = Destroy /\ q = o
  | Some Idle =>
      exists h, nth_error (slots (rc s)) h = Some (Some o) /\
      match nth_error (wk s) t with
      | Some (Reading h' _ _) | Some (Copying h' _ _ _) => h' = h /\ a = TextRead
      | Some (Writing h' (_ :: _)) => h' = h /\ (a = TextWrite \/ a = TextRead)
      | Some (Writing h' []) => h' = h /\ a = CountWrite
      | Some (Counting h' c _) => h' = h /\
          match c with
          | CTest | CInc _ | CRet => a = CountRead
          | CLoop _ => a = TextRead
          | CWr _ _ => a = CountWrite
          end
      | _ => False
      end
  | _ => False
  end.

(** Two accesses by different threads that must not be simultaneous. *)
Definition text_conflict (a b : acc) : Prop :=
  match a, b with
  | TextWrite, (TextRead | TextWrite) | TextRead, TextWrite => True
  | Destroy, _ | _, Destroy => True
  | _, _ => False
  end.
Definition count_conflict (a b : acc) : Prop :=
  match a, b with
  | CountWrite, (CountRead | CountWrite) | CountRead, CountWrite => True
  | _, _ => False
  end.

(** Nothing is in progress. *)
Definition at_rest (s : cstate) : Prop :=
  Forall (fun p => p = Idle) (pcs (rc s)) /\ Forall (fun w => w = Free) (wk s).

(** The bytes a variable refers to. *)
Definition bytes_of (s : cstate) (h : nat) : list Z :=
  match nth_error (slots (rc s)) h with
  | Some (Some o) => nth o (txt s) []
  | _ => []
  end.
