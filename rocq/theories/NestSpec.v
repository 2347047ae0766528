(** Specification of programs over nested arrays: variables hold values. *)
From Verif Require Import Base RefModel NestModel.

Inductive tree := Null | Number (z : Z) | Node (l : list tree).

(** ** What a variable holds: the value reading it through the accessors gives;
    [f] bounds the depth. *)
Fixpoint all_some {A} (l : list (option A)) : option (list A) :=
  match l with
  | [] => Some []
  | Some a :: l => match all_some l with Some r => Some (a :: r) | None => None end
  | None :: _ => None
  end.
(** The elements, inside what the body has. *)
Definition elements (h : heap) (s : slice) : option (list elem) :=
  match s_body s with
  | None => if Nat.eqb (s_len s) 0 then Some [] else None
  | Some b =>
    match nth_error h b with
    | Some (Some x) =>
      if ((s_off s + s_len s <=? b_num x) && (b_num x <=? length (b_cells x)))%nat
      then Some (firstn (s_len s) (skipn (s_off s) (b_cells x))) else None
    | _ => None
    end
  end.
Fixpoint denote (f : nat) (h : heap) (e : elem) : option tree :=
  match f with
  | O => None
  | S f =>
    match e with
    | Nil => Some Null
    | Num z => Some (Number z)
    | Arr s =>
      match elements h s with
      | Some l => match all_some (map (denote f h) l) with Some ts => Some (Node ts) | None => None end
      | None => None
      end
    end
  end.
Definition means (h : heap) (e : elem) (t : tree) : Prop := exists f, denote f h e = Some t.

(** ** Programs on values *)
Definition env : Type := nat -> option tree.
Definition put (e : env) (x : nat) (t : option tree) : env := fun y => if (y =? x)%nat then t else e y.
Definition bind {A B} (x : option A) (k : A -> option B) : option B := match x with Some a => k a | None => None end.
Definition list_of (e : env) (x : nat) : option (list tree) := match e x with Some (Node l) => Some l | _ => None end.

Definition expected (e : env) (i : init) : option tree :=
  match i with
  | INil => Some Null
  | INum z => Some (Number z)
  | IEmpty => Some (Node [])
  | IArr ys => bind (all_some (map e ys)) (fun l => Some (Node l))
  | ICopy y => e y
  | IElem y i => bind (list_of e y) (fun l => nth_error l i)
  | ISlice y pos n => bind (list_of e y) (fun l => Some (Node (firstn n (skipn pos l))))
  end.

(** [None]: not a program, or an assertion fails. *)
Definition effect (n : nat) (e : env) (o : op) : option env :=
  let change x k := bind (list_of e x) (fun l => bind (k l) (fun l' => Some (put e x (Some (Node l'))))) in
  match o with
  | New x i =>
    if (x <? n)%nat then match e x with Some _ => None | None => bind (expected e i) (fun t => Some (put e x (Some t))) end else None
  | Assign x y => bind (e x) (fun _ => bind (e y) (fun t => Some (put e x (Some t))))
  | Delete x => bind (e x) (fun _ => Some (put e x None))
  | Push x y => bind (e y) (fun t => change x (fun l => Some (l ++ [t])))
  | Set_ x i y | SetLeft x i y =>
    bind (e y) (fun t => change x (fun l => if (i <? length l)%nat then Some (firstn i l ++ t :: skipn (S i) l) else None))
  | SetNum x i z =>
    change x (fun l => match nth_error l i with Some (Number _) => Some (firstn i l ++ Number z :: skipn (S i) l) | _ => None end)
  | Insert x pos y => bind (list_of e y) (fun m => change x (fun l => Some (firstn pos l ++ m ++ skipn pos l)))
  | Remove x pos n => change x (fun l => if (pos + n <=? length l)%nat then Some (firstn pos l ++ skipn (pos + n) l) else None)
  | Pull x => change x (fun l => match l with [] => None | _ => Some (removelast l) end)
  end.

(** The variables of [st] have the values of [e]. *)
Definition shows (st : state) (e : env) : Prop := forall x,
  match nth_error (st_vars st) x with
  | Some (Some v) => exists t, e x = Some t /\ means (st_heap st) v t
  | _ => e x = None
  end.

(** ** What is left out, because it is wrong without nesting already (C16):
    restructuring a slice that does not start its storage and is alone on it;
    positions beyond the end; inserting an array into itself. *)
Definition at_start (st : state) (x : nat) : Prop :=
  forall s b y, nth_error (st_vars st) x = Some (Some (Arr s)) -> s_body s = Some b -> nth_error (st_heap st) b = Some (Some y) ->
    b_refs y = 1%nat -> s_off s = 0%nat.
Definition op_ok (st : state) (e : env) (o : op) : Prop :=
  match o with
  | Push x _ => at_start st x
  | Insert x pos y => at_start st x /\ x <> y /\ forall l, list_of e x = Some l -> (pos <= length l)%nat
  | Remove x pos n => pos = 0%nat \/ (forall l, list_of e x = Some l -> (pos + n = length l)%nat) \/ at_start st x
  | SetLeft x _ y => x <> y
  | _ => True
  end.
(** A slice up to the last element of its storage fails an assertion (C16). *)
Definition is_slice (o : op) : bool := match o with New _ (ISlice _ _ _) => true | _ => false end.

(** A history that leaves these out. *)
Fixpoint run_ok (st : state) (os : list op) : Prop :=
  match os with
  | [] => True
  | o :: os => (forall e, shows st e -> op_ok st e o) /\ forall st', step st o = Ok st' -> run_ok st' os
  end.
(** What it does to the values. *)
Fixpoint effects (n : nat) (e : env) (os : list op) : option env :=
  match os with
  | [] => Some e
  | o :: os => bind (effect n e o) (fun e => effects n e os)
  end.
(** The variable an operation is about. *)
Definition target (o : op) : nat :=
  match o with
  | New x _ | Assign x _ | Delete x | Push x _ | Set_ x _ _ | SetLeft x _ _ | SetNum x _ _ | Insert x _ _ | Remove x _ _ | Pull x => x
  end.
