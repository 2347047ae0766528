(** Model of references to array elements (include/array.h): elem_mut and
    last_mut (75-78, 242-243), the pointer asElements() (81-82), and their use:
    reading and writing through the reference, and passing it to push, [<<], +=
    and set of an array.  Everything else is ArrayModel. *)
From Verif Require Import Base RefModel ArrayModel.

Section Refs.
Context {A : Type}.

(** The address of cell [p_cell] of the storage that body [p_body] had when its
    num_alloc was [p_alloc].  resize (array.h 597-615) is the only thing that
    replaces the storage of a body, and then num_alloc grows, so the pair names
    the storage ([resize_moves] in ElemRefProofs). *)
Record ptr := { p_body : nat; p_alloc : Z; p_cell : Z }.

(** Reading and writing *p: the body must not be deleted and must still have that storage. *)
Definition deref (h : heap A) (p : ptr) : outcome A :=
  do x <- hget h (p_body p);
  if b_alloc x =? p_alloc p then cell_rd (b_data x) (p_cell p) else UB.
Definition assign_to (h : heap A) (p : ptr) (a : A) : outcome (heap A) :=
  do x <- hget h (p_body p);
  if b_alloc x =? p_alloc p then
    do d <- cell_wr (b_data x) (p_cell p) a;
    Ok (hput h (p_body p) {| b_data := d; b_num := b_num x; b_alloc := b_alloc x; b_refs := b_refs x; b_static := b_static x |})
  else UB.

(** elem_mut (array.h 75-78); last_mut is elem_mut(num_elements-1). *)
Definition elem_mut (h : heap A) (s : slice) (i : Z) : outcome (heap A * slice * ptr) :=
  cassert ((0 <=? i) && (i <? s_num s) && match s_body s with Some _ => true | None => false end)
    (do r <- unshare h s 0;
     let (h1, s1) := r : heap A * slice in
     match s_body s1 with
     | None => UB
     | Some b => do x <- hget h1 b; Ok (h1, s1, {| p_body := b; p_alloc := b_alloc x; p_cell := s_off s1 + i |})
     end).

(** asElements()+i (array.h 81-82); no check and no Unshare. *)
Definition elem_ptr (h : heap A) (s : slice) (i : Z) : outcome ptr :=
  match s_body s with
  | None => UB
  | Some b => do x <- hget h b; Ok {| p_body := b; p_alloc := b_alloc x; p_cell := s_off s + i |}
  end.

(** set(elem_num, e) with e a reference (array.h 187-191): e is read after Unshare. *)
Definition set_ref (h : heap A) (s : slice) (i : Z) (p : ptr) : outcome (heap A * slice) :=
  do r <- elem_mut h s i;
  let '(h1, s1, q) := r : heap A * slice * ptr in
  do a <- deref h1 p;
  do h2 <- assign_to h1 q a;
  Ok (h2, s1).

(** += with a reference (array.h 231-237, 543-563): the element is read after
    Unshare and after the storage has been enlarged. *)
Definition push_ref (h : heap A) (s : slice) (p : ptr) : outcome (heap A * slice) :=
  do r <- unshare h s 1;
  let (h1, s1) := r : heap A * slice in
  match s_body s1 with
  | None => UB
  | Some b =>
      do x <- hget h1 b;
      do x' <- (if Nat.eqb (p_body p) b
                then if b_alloc x =? p_alloc p then body_insert x (s_num s1) (Self (p_cell p)) 1 else UB
                else body_insert x (s_num s1) (Ext (fun _ => deref h1 p)) 1);
      Ok (hput h1 b x', {| s_body := s_body s1; s_off := s_off s1; s_num := u32 (s_num s1 + 1) |})
  end.

(** Programs: the operations of ArrayModel on array variables, reference
    variables, and the list of values read so far. *)
Record rstate := { r_st : state A; r_refs : list (option ptr); r_out : list A }.

Inductive rop :=
| RDo (o : op A)
| RMut (r v : nat) (i : Z)               (* r = &v.elem_mut(i) *)
| RPeek (r v : nat) (i : Z)              (* r = v.asElements()+i *)
| RGet (r : nat)                         (* read *r *)
| RPut (r : nat) (a : A)                 (* *r = a *)
| RPush (v r : nat)                      (* v.push( *r) *)
| RSet (v : nat) (i : Z) (r : nat).      (* v.set(i, *r) *)

Definition on_ref {B} (st : rstate) (r : nat) (k : ptr -> outcome B) : outcome B :=
  match nth_error (r_refs st) r with Some (Some p) => k p | _ => UB end.
Definition on_var (st : rstate) (v : nat) (k : slice -> outcome rstate) : outcome rstate :=
  match nth_error (vars (r_st st)) v with Some s => k s | None => Ok st end.
Definition with_st (st : rstate) (s : state A) : rstate := {| r_st := s; r_refs := r_refs st; r_out := r_out st |}.

Definition rstep (st : rstate) (o : rop) : outcome rstate :=
  let h := hp (r_st st) in
  match o with
  | RDo o => do s <- step (r_st st) o; Ok (with_st st s)
  | RMut r v i => on_var st v (fun s =>
      do e <- elem_mut h s i;
      do s' <- store (r_st st) v (Ok (fst e));
      Ok {| r_st := s'; r_refs := upd (r_refs st) r (Some (snd e)); r_out := r_out st |})
  | RPeek r v i => on_var st v (fun s =>
      do p <- elem_ptr h s i; Ok {| r_st := r_st st; r_refs := upd (r_refs st) r (Some p); r_out := r_out st |})
  | RGet r => on_ref st r (fun p => do a <- deref h p; Ok {| r_st := r_st st; r_refs := r_refs st; r_out := r_out st ++ [a] |})
  | RPut r a => on_ref st r (fun p => do h' <- assign_to h p a; Ok (with_st st {| hp := h'; vars := vars (r_st st) |}))
  | RPush v r => on_var st v (fun s => on_ref st r (fun p => do s' <- store (r_st st) v (push_ref h s p); Ok (with_st st s')))
  | RSet v i r => on_var st v (fun s => on_ref st r (fun p => do s' <- store (r_st st) v (set_ref h s i p); Ok (with_st st s')))
  end.
Fixpoint rrun (st : rstate) (os : list rop) : outcome rstate :=
  match os with
  | [] => Ok st
  | o :: r => do st' <- rstep st o; rrun st' r
  end.
(** [n] empty arrays, [m] references not set. *)
Definition rinit (n m : nat) : rstate := {| r_st := init n; r_refs := repeat None m; r_out := [] |}.
End Refs.
Arguments rstate A : clear implicits.
Arguments rop A : clear implicits.
