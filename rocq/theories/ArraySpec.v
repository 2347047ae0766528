(** Specification of array values: what a program can see of an array is the
    list of its elements; each operation is a list operation. *)
From Verif Require Import Base RefModel ArrayModel.

Fixpoint all_some {A} (l : list (option A)) : option (list A) :=
  match l with
  | [] => Some []
  | None :: _ => None
  | Some a :: r => match all_some r with Some l' => Some (a :: l') | None => None end
  end.

(** The elements of a slice, read cell by cell. *)
Definition view {A} (h : heap A) (s : slice) : option (list A) :=
  match s_body s with
  | None => if s_num s =? 0 then Some [] else None
  | Some b =>
      match nth_error h b with
      | Some (Some x) =>
          let cells := firstn (Z.to_nat (s_num s)) (skipn (Z.to_nat (s_off s)) (b_data x)) in
          if Z.of_nat (length cells) =? s_num s then all_some cells else None
      | _ => None
      end
  end.

(** The contents of variable [v]. *)
Definition contents {A} (st : state A) (v : nat) : option (list A) :=
  match nth_error (vars st) v with Some s => view (hp st) s | None => None end.

(** List operations. *)
Definition l_slice {A} (l : list A) (at_ len : nat) : list A := firstn len (skipn at_ l).
Definition l_insert {A} (l : list A) (pos : nat) (m : list A) : list A := firstn pos l ++ m ++ skipn pos l.
Definition l_remove {A} (l : list A) (at_ len : nat) : list A := firstn at_ l ++ skipn (at_ + len) l.
Definition l_set {A} (l : list A) (i : nat) (a : A) : list A := firstn i l ++ a :: skipn (S i) l.

(** C++ argument types: an Index is a uint32_t, an int is a 32-bit int. *)
Definition is_index (i : Z) : Prop := 0 <= i < 2^32.
Definition is_int (i : Z) : Prop := - 2^31 <= i < 2^31.

(** Positions inside the array, where the code has no working check of its
    own: remove's range, insert's position, and insert's addend being another
    variable. *)
Definition op_ok {A} (st : state A) (o : op A) : Prop :=
  match o with
  | OMake _ l al => is_index (Z.of_nat (length l)) /\ is_index al
  | OStatic _ l => is_index (Z.of_nat (length l))
  | OSlice _ _ at_ len => is_index at_ /\ is_int len
  | OHead _ _ n | OTail _ _ n => 0 <= n < 2^31
  | OShorter _ v n => 0 <= n /\ (forall l, contents st v = Some l -> n <= Z.of_nat (length l) < 2^31)
  | ODrop _ _ n => 0 <= n < 2^31
  | OSet _ i _ => is_int i
  | OInsert v pos w => v <> w /\ 0 <= pos /\
      (forall l, contents st v = Some l -> pos <= Z.of_nat (length l))
  | ORemove v at_ len => 0 <= at_ /\
      (forall l, contents st v = Some l ->
         at_ <= Z.of_nat (length l) /\
         (len = -1 /\ Z.of_nat (length l) < 2^31 \/ 0 <= len <= Z.of_nat (length l) - at_))
  | ODeleteAt _ at_ => 0 <= at_ < 2^31
  | _ => True
  end.

(** A history all of whose operations are in range when they are made. *)
Fixpoint hist_ok {A} (st : state A) (os : list (op A)) : Prop :=
  match os with
  | [] => True
  | o :: r => op_ok st o /\ match step st o with Ok st' => hist_ok st' r | _ => True end
  end.

(** Number of variables that refer to body [b]. *)
Definition handles {A} (st : state A) (b : nat) : nat :=
  length (filter (fun s => match s_body s with Some c => Nat.eqb c b | None => false end) (vars st)).

(** The variable shares its body with nothing else. *)
Definition unshared {A} (st : state A) (v : nat) : Prop :=
  exists s b x, nth_error (vars st) v = Some s /\ s_body s = Some b /\
    nth_error (hp st) b = Some (Some x) /\ b_refs x <= 1.
(** The variable starts at the beginning of its body (no prefix was cut off). *)
Definition at_start {A} (st : state A) (v : nat) : Prop :=
  exists s, nth_error (vars st) v = Some s /\ s_off s = 0.

(** What each operation should leave in its target variable, as a function of
    the contents of the variables before.  [None]: no such list (some variable
    does not exist, or the position is outside). *)
Definition expected {A} (st : state A) (o : op A) : option (list A) :=
  let on v (f : list A -> option (list A)) := match contents st v with Some l => f l | None => None end in
  match o with
  | OMake _ l _ => Some l
  | OStatic _ l => Some l
  | OEmpty _ => Some []
  | OCopy _ v => contents st v
  | OSlice _ v at_ len => on v (fun l => Some (
      let rest := skipn (Z.to_nat at_) l in if len =? -1 then rest else firstn (Z.to_nat len) rest))
  | OHead _ v n => on v (fun l => Some (firstn (Z.to_nat n) l))
  | OTail _ v n => on v (fun l => Some (if n <=? Z.of_nat (length l) then skipn (length l - Z.to_nat n) l else []))
  | OShorter _ v n => on v (fun l => Some (firstn (length l - Z.to_nat n) l))
  | OPlus _ v a => on v (fun l => Some (l ++ [a]))
  | ODrop _ v n => on v (fun l => Some (skipn (Z.to_nat n) l))
  | OSet v i a => on v (fun l => Some (l_set l (Z.to_nat i) a))
  | OPush v a => on v (fun l => Some (l ++ [a]))
  | OInsert v pos w => on v (fun l => on w (fun m => Some (l_insert l (Z.to_nat pos) m)))
  | ORemove v at_ len => on v (fun l => Some (
      if len =? -1 then firstn (Z.to_nat at_) l else l_remove l (Z.to_nat at_) (Z.to_nat len)))
  | ODeleteAt v at_ => on v (fun l => Some (l_remove l (Z.to_nat at_) 1))
  | OShift v => on v (fun l => Some (tl l))
  | OPull v => on v (fun l => Some (removelast l))
  | OClear v => on v (fun l => Some [])
  end.

(** Operations that locate elements by position in the body. *)
Definition positional {A} (o : op A) : bool :=
  match o with OPush _ _ | OInsert _ _ _ | ORemove _ _ _ | ODeleteAt _ _ => true | _ => false end.

(** Reference semantics of the read-only operations. *)
Fixpoint lex_compare {A} (ltb : A -> A -> bool) (l m : list A) : Z :=
  match l, m with
  | [], [] => 0
  | [], _ :: _ => -1
  | _ :: _, [] => 1
  | a :: l', b :: m' => if ltb a b then -1 else if ltb b a then 1 else lex_compare ltb l' m'
  end.
(** [i] is the first index at or after [from] satisfying [p]; -1 if none. *)
Definition first_at {A} (p : A -> bool) (l : list A) (from : nat) (i : Z) : Prop :=
  (i = -1 /\ forall j a, (from <= j)%nat -> nth_error l j = Some a -> p a = false) \/
  (exists n a, i = Z.of_nat n /\ (from <= n)%nat /\ nth_error l n = Some a /\ p a = true /\
     forall j b, (from <= j < n)%nat -> nth_error l j = Some b -> p b = false).
(** [i] is the last index in [lo,hi) satisfying [p]; -1 if none. *)
Definition last_in {A} (p : A -> bool) (l : list A) (lo hi : nat) (i : Z) : Prop :=
  (i = -1 /\ forall j a, (lo <= j < hi)%nat -> nth_error l j = Some a -> p a = false) \/
  (exists n a, i = Z.of_nat n /\ (lo <= n < hi)%nat /\ nth_error l n = Some a /\ p a = true /\
     forall j b, (n < j < hi)%nat -> nth_error l j = Some b -> p b = false).

(** Room for the new elements: Index is 32 bits, and storage is allocated in
    multiples of 8. *)
Definition added {A} (st : state A) (o : op A) : Z :=
  match o with
  | OPlus _ _ _ | OPush _ _ => 1
  | OInsert _ _ w => match contents st w with Some l => Z.of_nat (length l) | None => 0 end
  | _ => 0
  end.
Definition fits {A} (st : state A) (o : op A) : Prop :=
  (forall b x, nth_error (hp st) b = Some (Some x) -> b_num x + added st o <= 2^32 - 8) /\
  match o with OMake _ l al => Z.of_nat (length l) <= 2^32 - 8 /\ al <= 2^32 - 8 | _ => True end.

(** Single-element positions that exist. *)
Definition in_range {A} (st : state A) (o : op A) : Prop :=
  match o with
  | OSet v i _ => forall l, contents st v = Some l -> 0 <= i < Z.of_nat (length l)
  | ODeleteAt v i => forall l, contents st v = Some l -> 0 <= i < Z.of_nat (length l)
  | OShift v | OPull v => forall l, contents st v = Some l -> l <> []
  | ODrop _ v n => forall l, contents st v = Some l -> n <= Z.of_nat (length l)
  | OSlice _ _ _ _ | OHead _ _ _ | OTail _ _ _ | OShorter _ _ _ => False
  | _ => True
  end.

