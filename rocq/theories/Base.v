(** Common vocabulary of the strpp model: outcomes of C++ code, machine
    integers, checked memory reads. *)
From Coq Require Export List ZArith Lia Bool Arith.
From Coq Require Export ZifyBool ZifyNat ZifyN.
Export ListNotations.
Open Scope Z_scope.

(** What running a piece of C++ can do.  [Abort]: a failed [assert] (the
    project's Makefile does not define NDEBUG, so asserts are active).  [UB]:
    undefined behaviour (out-of-bounds access, null or dangling pointer, ...). *)
Inductive outcome (A : Type) : Type :=
| Ok (a : A)
| Abort
| UB.
Arguments Ok {A} a.
Arguments Abort {A}.
Arguments UB {A}.

Definition obind {A B} (x : outcome A) (f : A -> outcome B) : outcome B :=
  match x with
  | Ok a => f a
  | Abort => Abort
  | UB => UB
  end.

Notation "'do' x <- e ; f" := (obind e (fun x => f))
  (at level 200, x pattern, e at level 100, f at level 200, right associativity).

(** [assert(b); k] *)
Definition cassert {A} (b : bool) (k : outcome A) : outcome A :=
  if b then k else Abort.

(** Machine integers: unsigned N-bit wrap and signed 32-bit reinterpretation. *)
Definition u8  (x : Z) : Z := x mod 256.
Definition u16 (x : Z) : Z := x mod 65536.
Definition u32 (x : Z) : Z := x mod 4294967296.
Definition u64 (x : Z) : Z := x mod 18446744073709551616.
Definition s32 (x : Z) : Z :=
  let y := x mod 4294967296 in
  if y <? 2147483648 then y else y - 4294967296.

(** Bounds-checked read of cell [i] of a buffer. *)
Definition rd {A} (m : list A) (i : nat) : outcome A :=
  match nth_error m i with
  | Some b => Ok b
  | None => UB
  end.

(** Bounds-checked read at a possibly negative position. *)
Definition rdZ {A} (m : list A) (i : Z) : outcome A :=
  if i <? 0 then UB else rd m (Z.to_nat i).

Definition is_byte (b : Z) : Prop := 0 <= b < 256.
Definition bytes (l : list Z) : Prop := Forall is_byte l.

Lemma obind_ok {A B} (x : outcome A) (f : A -> outcome B) (b : B) :
  obind x f = Ok b <-> exists a, x = Ok a /\ f a = Ok b.
Proof.
  destruct x; simpl; split; intros H.
  - eauto.
  - destruct H as (a' & E & H); inversion E; subst; exact H.
  - discriminate.
  - destruct H as (a' & E & H); discriminate.
  - discriminate.
  - destruct H as (a' & E & H); discriminate.
Qed.

Lemma rd_ok {A} (m : list A) i b : rd m i = Ok b <-> nth_error m i = Some b.
Proof. unfold rd; destruct (nth_error m i); split; intros H; inversion H; reflexivity. Qed.
