(** Specification for C60, in terms of a history: the steps that happened and
    what the joinAny calls returned.  Nothing here looks at ids, at the map of
    threads or at the fields of Thread objects. *)
From Verif Require Import Base ThreadModel ThreadIdModel.

(** What a history has done so far. *)
Record seen := { made : list nat;      (* constructed objects *)
                 runs : list nat;      (* objects resumed, in order: thread number k runs on the k-th of them *)
                 ran : list nat;       (* objects whose run() has returned *)
                 joining : list nat;   (* objects for which join() has seen the thread end *)
                 joined : list nat;    (* objects for which join() has returned *)
                 collected : list nat; (* objects returned by joinAny *)
                 gone : list nat }.    (* destroyed objects *)
Definition nothing : seen := {| made := []; runs := []; ran := []; joining := []; joined := []; collected := []; gone := [] |}.

Definition see (g : seen) (e : ievent) (r : iresult) : seen :=
  match e with
  | ENew o _ _ => {| made := o :: made g; runs := runs g; ran := ran g; joining := joining g; joined := joined g; collected := collected g; gone := gone g |}
  | EResume o _ => {| made := made g; runs := runs g ++ [o]; ran := ran g; joining := joining g; joined := joined g; collected := collected g; gone := gone g |}
  | EFinish k =>
      match nth_error (runs g) k with
      | Some o => {| made := made g; runs := runs g; ran := o :: ran g; joining := joining g; joined := joined g; collected := collected g; gone := gone g |}
      | None => g
      end
  | EPJoin o => {| made := made g; runs := runs g; ran := ran g; joining := o :: joining g; joined := joined g; collected := collected g; gone := gone g |}
  | EErase o => {| made := made g; runs := runs g; ran := ran g; joining := joining g; joined := o :: joined g; collected := collected g; gone := gone g |}
  | EDestroy o => {| made := made g; runs := runs g; ran := ran g; joining := joining g; joined := joined g; collected := collected g; gone := o :: gone g |}
  | EJoinAny _ =>
      match r with
      | IGot o => {| made := made g; runs := runs g; ran := ran g; joining := joining g; joined := joined g; collected := o :: collected g; gone := gone g |}
      | _ => g
      end
  | EStart _ | EExit _ | EFail _ _ => g
  end.
Fixpoint sees (g : seen) (es : list ievent) (rs : list iresult) : seen :=
  match es, rs with
  | e :: es', r :: rs' => sees (see g e r) es' rs'
  | _, _ => g
  end.

(** A thread that was started and that nobody has joined, collected or
    destroyed: joinAny has to know about it. *)
Definition pending (g : seen) (o : nat) : Prop :=
  In o (runs g) /\ ~ In o (joined g) /\ ~ In o (collected g) /\ ~ In o (gone g).

(** The duties of a program, and the exclusions of the partial theorems:
    objects are used between construction and destruction; a thread is started
    once, joined at most once, destroyed when its run() has returned and no
    join() of it is in progress; the system can create threads; Thread::exit is
    not used, and an uninitialised
    state does not happen to read as Ended (C37).  [orderly]: and no thread is
    started while there is an object that has been joined and still exists. *)
Definition duty (g : seen) (e : ievent) : Prop :=
  match e with
  | ENew o s _ => ~ In o (made g) /\ s <> TEnded
  | EResume o _ => In o (made g) /\ ~ In o (runs g)
  | EPJoin o => In o (runs g) /\ ~ In o (joining g) /\ ~ In o (gone g)
  | EErase o => ~ In o (gone g)
  | EDestroy o => In o (ran g) /\ ~ In o (gone g) /\ (In o (joining g) -> In o (joined g))
  | EExit _ | EFail _ _ => False
  | EStart _ | EFinish _ | EJoinAny _ => True
  end.
Definition orderly (g : seen) (e : ievent) : Prop :=
  duty g e /\
  match e with EResume _ _ => forall p, In p (joining g) -> In p (gone g) | _ => True end.

Fixpoint each (P : seen -> ievent -> Prop) (g : seen) (es : list ievent) (rs : list iresult) : Prop :=
  match es, rs with
  | e :: es', r :: rs' => P g e /\ each P (see g e r) es' rs'
  | _, _ => True
  end.
