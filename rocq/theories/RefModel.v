(** Interleaving model of reference counting, include/refcount.h.

    Threads own handles ([Ref<T>] variables, "slots").  Every atomic access to
    a reference count is one step; the non-atomic parts of an operation touch
    only the handles owned by the running thread.  Handles change owner only by
    an explicit hand-over ([Give]), which stands for whatever synchronised
    channel the program uses; two threads racing on the same [Ref] variable is
    a data race the class does not support.  The count is a wrapping int32.
    Sequential consistency is assumed (std::atomic's default order). *)
From Verif Require Import Base.

Record obj := { o_count : Z;      (* std::atomic<int> ref_count, refcount.h 23 *)
                o_dels  : nat }.  (* how often [delete this] ran *)

(** Where a thread is inside AddRef / Ref::operator= / Release. *)
Inductive pc :=
| Idle
| AddChk (dst o : nat)            (* after ref_count++, before the assert; refcount.h 16 *)
| Swap (dst : nat) (o : option nat) (* before [old = ptr; ptr = o]; refcount.h 41-42, 51-52 *)
| RelChk (o : nat)                (* Release: before its assert's load; refcount.h 17 *)
| RelDec (o : nat)                (* Release: before --ref_count *)
| Del (o : nat).                  (* Release: saw zero, before delete this *)

Record state := { objs : list obj;
                  slots : list (option nat);
                  owner : list nat;
                  pcs : list pc }.

Inductive event :=
| Copy (t dst src : nat)    (* dst = src, or constructing dst from src: refcount.h 34-46 *)
| Drop (t dst : nat)        (* dst = 0 / ~Ref: refcount.h 31, 47-56 *)
| New (t dst : nat)         (* dst = new T: refcount.h 33, 47-56 *)
| Unshare (t dst : nat)     (* refcount.h 73-81 *)
| Give (t slot t' : nat)    (* hand a handle over to another thread *)
| Step (t : nat).           (* next atomic step of the operation in progress *)

Fixpoint upd {A} (l : list A) (i : nat) (x : A) : list A :=
  match l, i with
  | [], _ => []
  | _ :: r, O => x :: r
  | a :: r, S j => a :: upd r j x
  end.

Definition idle (s : state) (t : nat) : bool :=
  match nth_error (pcs s) t with Some Idle => true | _ => false end.
Definition owns (s : state) (t slot : nat) : bool :=
  match nth_error (owner s) slot with Some u => Nat.eqb u t | None => false end.

Definition set_pc (s : state) (t : nat) (p : pc) : state :=
  {| objs := objs s; slots := slots s; owner := owner s; pcs := upd (pcs s) t p |}.
Definition set_obj (s : state) (o : nat) (ob : obj) : state :=
  {| objs := upd (objs s) o ob; slots := slots s; owner := owner s; pcs := pcs s |}.
Definition set_slot (s : state) (i : nat) (v : option nat) : state :=
  {| objs := objs s; slots := upd (slots s) i v; owner := owner s; pcs := pcs s |}.
Definition add_obj (s : state) (ob : obj) : state :=
  {| objs := objs s ++ [ob]; slots := slots s; owner := owner s; pcs := pcs s |}.

(** Access to an object: [UB] if it does not exist or has been deleted. *)
Definition access (s : state) (o : nat) : outcome obj :=
  match nth_error (objs s) o with
  | Some ob => if Nat.eqb (o_dels ob) 0 then Ok ob else UB
  | None => UB
  end.

(** The atomic increment of AddRef (refcount.h 16). *)
Definition addref (s : state) (o : nat) : outcome state :=
  do ob <- access s o;
  Ok (set_obj s o {| o_count := s32 (o_count ob + 1); o_dels := o_dels ob |}).

(** One event; an event that is not possible in the state is skipped. *)
Definition step (s : state) (e : event) : outcome state :=
  match e with
  | Copy t dst src =>
      if idle s t && owns s t dst && owns s t src then
        match nth_error (slots s) src with
        | Some (Some o) => do s' <- addref s o; Ok (set_pc s' t (AddChk dst o))
        | Some None => Ok (set_pc s t (Swap dst None))
        | None => Ok s
        end
      else Ok s
  | Drop t dst =>
      if idle s t && owns s t dst then Ok (set_pc s t (Swap dst None)) else Ok s
  | New t dst =>
      if idle s t && owns s t dst then
        (* RefCounted() : ref_count(0), then AddRef; the object is still private *)
        let o := length (objs s) in
        Ok (set_pc (add_obj s {| o_count := s32 (0 + 1); o_dels := 0 |}) t (AddChk dst o))
      else Ok s
  | Unshare t dst =>
      if idle s t && owns s t dst then
        match nth_error (slots s) dst with
        | Some (Some o) =>
            do ob <- access s o;                       (* GetRefCount() *)
            if o_count ob <=? 1 then Ok s
            else                                       (* *this = new T( *o ) *)
              do _ <- access s o;
              let n := length (objs s) in
              Ok (set_pc (add_obj s {| o_count := s32 (0 + 1); o_dels := 0 |}) t (AddChk dst n))
        | _ => Ok s
        end
      else Ok s
  | Give t slot t' =>
      if idle s t && owns s t slot && idle s t' then
        Ok {| objs := objs s; slots := slots s; owner := upd (owner s) slot t'; pcs := pcs s |}
      else Ok s
  | Step t =>
      match nth_error (pcs s) t with
      | Some (AddChk dst o) =>
          do ob <- access s o;
          cassert (negb (o_count ob =? 0)) (Ok (set_pc s t (Swap dst (Some o))))
      | Some (Swap dst v) =>
          match nth_error (slots s) dst with
          | Some (Some old) => Ok (set_pc (set_slot s dst v) t (RelChk old))
          | Some None => Ok (set_pc (set_slot s dst v) t Idle)
          | None => UB
          end
      | Some (RelChk o) =>
          do ob <- access s o;
          cassert (o_count ob >? 0) (Ok (set_pc s t (RelDec o)))
      | Some (RelDec o) =>
          do ob <- access s o;
          let c := s32 (o_count ob - 1) in
          let s' := set_obj s o {| o_count := c; o_dels := o_dels ob |} in
          Ok (set_pc s' t (if c =? 0 then Del o else Idle))
      | Some (Del o) =>
          do ob <- access s o;
          Ok (set_pc (set_obj s o {| o_count := o_count ob; o_dels := S (o_dels ob) |}) t Idle)
      | Some Idle => Ok s
      | None => Ok s
      end
  end.

(** Any schedule of events from a state. *)
Fixpoint run (s : state) (es : list event) : outcome state :=
  match es with
  | [] => Ok s
  | e :: r => do s' <- step s e; run s' r
  end.

(** [nt] threads, and handles with the given owners, all null. *)
Definition init (nt : nat) (owners : list nat) : state :=
  {| objs := []; slots := repeat None (length owners); owner := owners; pcs := repeat Idle nt |}.
