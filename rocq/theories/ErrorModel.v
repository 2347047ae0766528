(** Model of the class Error (include/error.h 79-119): a reference counted body
    with the number, the default text and the parameters, shared by copies.
    Built on RefModel.v, so any number of threads, each with its own variables,
    run in any interleaving of their atomic steps.

    const char* and const void* are addresses, 0 the null pointer; the
    parameters are a stub in the code, too. *)
From Verif Require Import Base RefModel ErrNumModel.

(** error.h 103-118 Error::Body; the object of the same index in RefModel has
    its reference count. *)
Record ebody := mkebody { e_num : Z; e_text : Z; e_params : Z }.
Record estate := mkest { es_ref : state; es_bodies : list ebody }.

Inductive eevent :=
| EMake (t dst : nat) (n d p : Z)   (* Error dst(n, d, p)            error.h 86-87; as an assignment of a
                                       temporary: EMake, ECopy and EDrop of the temporary *)
| ECopy (t dst src : nat)           (* Error dst(src), dst = src     error.h 88-91 *)
| EDrop (t dst : nat)               (* ~Error, dst = Error()         error.h 84-85 *)
| EGive (t x t' : nat)              (* hand a variable over to another thread *)
| EStep (t : nat).                  (* the next atomic step of the thread *)

Definition estep (s : estate) (e : eevent) : outcome estate :=
  let r := es_ref s in
  let only (v : event) := do r <- step r v; Ok (mkest r (es_bodies s)) in
  match e with
  | EMake t dst n d p =>
      if idle r t && owns r t dst then
        do r <- step r (New t dst); Ok (mkest r (es_bodies s ++ [mkebody (ErrNum1 n) d p]))   (* error.h 107-109 *)
      else Ok s
  | ECopy t dst src => only (Copy t dst src)
  | EDrop t dst => only (Drop t dst)
  | EGive t x t' => only (Give t x t')
  | EStep t => only (Step t)
  end.
Fixpoint erun (s : estate) (es : list eevent) : outcome estate :=
  match es with
  | [] => Ok s
  | e :: es => do s <- estep s e; erun s es
  end.
(** [nt] threads, and the variables they own: Error() each. *)
Definition einit (nt : nat) (owners : list nat) : estate := mkest (init nt owners) [].

(** Following the pointer of a variable: the body, if it is not null. *)
Definition body_of (s : estate) (x : nat) : outcome (option ebody) :=
  match nth_error (slots (es_ref s)) x with
  | Some (Some o) =>
      do _ <- access (es_ref s) o;
      match nth_error (es_bodies s) o with Some b => Ok (Some b) | None => UB end
  | Some None => Ok None
  | None => UB
  end.
(** error.h 92-93 operator ErrNum, 98 operator int32_t *)
Definition error_num (s : estate) (x : nat) : outcome Z :=
  do b <- body_of s x; Ok (match b with Some b => e_num b | None => ErrNum1 0 end).
Definition error_int (s : estate) (x : nat) : outcome Z :=
  do b <- body_of s x; Ok (match b with Some b => e_num b | None => 0 end).
(** error.h 94-95 *)
Definition default_text (s : estate) (x : nat) : outcome Z :=
  do b <- body_of s x; Ok (match b with Some b => e_text b | None => 0 end).
(** error.h 96-97 *)
Definition parameters (s : estate) (x : nat) : outcome Z :=
  do b <- body_of s x; Ok (match b with Some b => e_params b | None => 0 end).
