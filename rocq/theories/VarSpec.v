(** Specification of programs over variants: variables hold values (trees). *)
From Verif Require Import Base CowModel StrFindSpec VarModel.

Inductive tree :=
| Null
| Int (z : Z)
| Long (z : Z)
| LongLong (z : Z)
| Str (t : list Z)
| Strs (l : list (list Z))
| Vars (l : list tree)
| Map (l : list (list Z * tree)).

Definition type_of (t : tree) : vtype :=
  match t with
  | Null => TNone | Int _ => TInteger | Long _ => TLong | LongLong _ => TLongLong
  | Str _ => TString | Strs _ => TStrArray | Vars _ => TVarArray | Map _ => TStrVarMap
  end.

Fixpoint all_some {A} (l : list (option A)) : option (list A) :=
  match l with
  | [] => Some []
  | Some a :: l => match all_some l with Some r => Some (a :: r) | None => None end
  | None :: _ => None
  end.

(** The value that reading a variant through its accessors gives; [f] bounds
    the depth. *)
Definition ok {A} (x : outcome A) : option A := match x with Ok a => Some a | _ => None end.
Definition bind {A B} (x : option A) (k : A -> option B) : option B := match x with Some a => k a | None => None end.
Definition refd (u : slot) : option ref := match u with Obj r => Some r | Bits _ => None end.

Fixpoint denote (f : nat) (h : heap) (v : variant) : option tree :=
  match f with
  | O => None
  | S f =>
    match v_type v with
    | TNone => Some Null
    | TInteger => Some (Int (get_i (v_u v)))
    | TLong => Some (Long (get_l (v_u v)))
    | TLongLong => Some (LongLong (get_l (v_u v)))
    | TString => bind (refd (v_u v)) (fun r => bind (ok (text h r)) (fun t => Some (Str t)))
    | TStrArray =>
      bind (refd (v_u v)) (fun r => bind (ok (strings h r)) (fun l =>
      bind (all_some (map (fun r => ok (text h r)) l)) (fun ts => Some (Strs ts))))
    | TVarArray =>
      bind (refd (v_u v)) (fun r => bind (ok (variants h r)) (fun l =>
      bind (all_some (map (denote f h) l)) (fun ts => Some (Vars ts))))
    | TStrVarMap =>
      bind (refd (v_u v)) (fun r => bind (ok (entries h r)) (fun l =>
      bind (all_some (map (fun p => bind (ok (text h (fst p))) (fun k => bind (denote f h (snd p)) (fun t => Some (k, t)))) l))
           (fun ts => Some (Map ts))))
    end
  end.
Definition means (h : heap) (v : variant) (t : tree) : Prop := exists f, denote f h v = Some t.

(** ** Programs on values: which value each variable in scope has. *)
Definition env : Type := nat -> option tree.
Definition put (e : env) (x : nat) (t : option tree) : env := fun y => if (y =? x)%nat then t else e y.

Definition as_str (t : option tree) : option (list Z) := match t with Some (Str s) => Some s | _ => None end.

(** A map has its keys in the order of their texts; a key that is there already
    is left alone. *)
Fixpoint add_new (k : list Z) (t : tree) (m : list (list Z * tree)) : list (list Z * tree) :=
  match m with
  | [] => [(k, t)]
  | (k', t') :: r =>
    match lex k k' with
    | Eq => m
    | Lt => (k, t) :: m
    | Gt => (k', t') :: add_new k t r
    end
  end.
Definition build (ks : list (list Z)) (ts : list tree) : list (list Z * tree) :=
  fold_left (fun m p => add_new (fst p) (snd p) m) (combine ks ts) [].

Definition element (e : env) (y i : nat) : option tree :=
  match e y with Some (Vars l) => nth_error l i | _ => None end.

(** A value of each type. *)
Definition empty (ty : vtype) : tree :=
  match ty with
  | TNone => Null | TInteger => Int 0 | TLong => Long 0 | TLongLong => LongLong 0
  | TString => Str [] | TStrArray => Strs [] | TVarArray => Vars [] | TStrVarMap => Map []
  end.
(** What a map has for a key; nothing if it hasn't the key. *)
Fixpoint at_key (k : list Z) (m : list (list Z * tree)) : tree :=
  match m with
  | [] => Null
  | (k', t) :: r => if list_eq_dec Z.eq_dec k k' then t else at_key k r
  end.

Definition expected (e : env) (i : init) : option tree :=
  match i with
  | INone => Some Null
  | IInt z => Some (Int z)
  | ILong z => Some (Long z)
  | ILongLong z => Some (LongLong z)
  | IStr t => Some (Str t)
  | ISub y off len => bind (as_str (e y)) (fun t => Some (Str (firstn len (skipn off t))))
  | ICopy y => e y
  | IStrs ys => bind (all_some (map (fun y => as_str (e y)) ys)) (fun l => Some (Strs l))
  | IVars ys => bind (all_some (map e ys)) (fun l => Some (Vars l))
  | IMap ks ys =>
    bind (all_some (map (fun y => as_str (e y)) ks)) (fun kl =>
    bind (all_some (map e ys)) (fun l => Some (Map (build kl l))))
  | IElem y i => element e y i
  | IPair y z => bind (e y) (fun a => bind (e z) (fun b => Some (Vars [a; b])))
  | IDefault ty => Some (empty ty)
  | ISlice y off len => match e y with Some (Vars l) => Some (Vars (firstn len (skipn off l))) | _ => None end
  | IKey y k =>
    bind (as_str (e k)) (fun t => match e y with Some (Map m) => Some (at_key t m) | _ => None end)
  end.

(** The numbers in a program fit their types. *)
Definition fits (i : init) : Prop :=
  match i with
  | IInt z => -2^31 <= z < 2^31
  | ILong z | ILongLong z => -2^63 <= z < 2^63
  | _ => True
  end.

Definition op_fits (o : op) : Prop := match o with New _ i => fits i | _ => True end.
(** The operations that coerce a variable to a type. *)
Definition coerces (o : op) : option (nat * vtype) :=
  match o with Coerce x ty | Write x ty _ => Some (x, ty) | _ => None end.
Definition is_coerce (o : op) : bool := match coerces o with Some _ => true | None => false end.

(** With [n] variables; [None]: not a program (a name out of scope, or in scope
    already), or a value of the wrong type, which asserts. *)
Definition effect (n : nat) (e : env) (o : op) : option env :=
  match o with
  | New x i =>
    if (x <? n)%nat then
      match e x with
      | Some _ => None
      | None => bind (expected e i) (fun t => Some (put e x (Some t)))
      end
    else None
  | Assign x y => bind (e x) (fun _ => bind (e y) (fun t => Some (put e x (Some t))))
  | AssignElem x y i => bind (e x) (fun _ => bind (element e y i) (fun t => Some (put e x (Some t))))
  | Delete x => bind (e x) (fun _ => Some (put e x None))
  | Coerce _ _ | Write _ _ _ => None
  end.

(** The variables of [st] have the values of [e]. *)
Definition shows (st : state) (e : env) : Prop := forall x,
  match nth_error (st_vars st) x with
  | Some (Some v) => exists t, e x = Some t /\ means (st_heap st) v t
  | _ => e x = None
  end.

(** ** Conversions *)
Definition number (t : tree) : option Z :=
  match t with Int z | Long z | LongLong z => Some z | _ => None end.
Definition numeric (ty : vtype) : bool := match ty with TInteger | TLong | TLongLong => true | _ => false end.
Definition with_number (ty : vtype) (z : Z) : tree :=
  match ty with TInteger => Int z | TLong => Long z | _ => LongLong z end.
(** [z] can be represented in the number type [ty]. *)
Definition in_type (ty : vtype) (z : Z) : Prop :=
  match ty with
  | TInteger => -2^31 <= z < 2^31
  | TLong | TLongLong => -2^63 <= z < 2^63
  | _ => False
  end.
(** What the reference returned by as_int(), as_long() or as_longlong() reads. *)
Definition reads (ty : vtype) (st : state) (x : nat) : option Z :=
  match nth_error (st_vars st) x with
  | Some (Some v) => Some (match ty with TInteger => get_i (v_u v) | _ => get_l (v_u v) end)
  | _ => None
  end.
(** [l] is the decimal notation of [z]: an optional minus sign and digits with
    no superfluous zeroes. *)
Definition decimal_text (z : Z) (l : list Z) : Prop := exists ds,
  l = (if z <? 0 then [45] else []) ++ map (fun d => 48 + d) ds /\
  Forall (fun d => 0 <= d <= 9) ds /\ ds <> [] /\ ((length ds > 1)%nat -> hd 0 ds <> 0) /\
  fold_left (fun a d => 10 * a + d) ds 0 = Z.abs z.
(** The variable an operation gives a new value. *)
Definition target (o : op) : nat :=
  match o with New x _ | Assign x _ | AssignElem x _ _ | Delete x | Coerce x _ | Write x _ _ => x end.
