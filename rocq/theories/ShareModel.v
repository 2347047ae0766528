(** Interleaving model of arrays and maps used from several threads
    (include/array.h, include/cowmap.h, on top of the reference counts of
    include/refcount.h).

    A handle is an Array or CowMap variable; it is owned by one thread at a time,
    as in RefModel, and copies in different threads share one body.  Every access
    to a reference count and to one element of a body is a separate step, and the
    steps of the threads interleave in any order (sequential consistency).

    Simplifications: a body is the list of its elements (for a map: its pairs in
    key order), allocation sizes are left out; a search or an erase in a map is
    one step; the changes a restructuring function makes to a body are an
    arbitrary list of small steps; a temporary Array that is assigned and then
    destroyed is the variable it is assigned to. *)
From Verif Require Import Base RefModel.

Section Model.
Context {A : Type}.                                  (* the element type *)

Definition edit := list A -> list A.

(** What a thread is doing. *)
Inductive work :=
| Free
| Reading (h i : nat) (got : list A)
| Finding (h : nat) (f : list A -> option (list A)) (fs : list edit)  (* put: before find(k), cowmap.h 78 *)
| Poking (h : nat) (f : list A -> option (list A)) (fs : list edit)   (* put: before body->erase(k), cowmap.h 80 *)
| Copying (h i : nat) (got : list A) (fs : list edit)                 (* inside Unshare *)
| Writing (h : nat) (fs : list edit).

(** What the program asked for, in the order of the requests; the results of
    reads are entered when they are complete. *)
Inductive entry :=
| LMake (h : nat) (b : list A)                       (* h = Array(b) *)
| LCopy (d s : nat)                                  (* d = s *)
| LSlice (d s a n : nat)                             (* d = s.slice(a, n) *)
| LTrim (h a n : nat)                                (* h keeps n elements from a *)
| LJoin (h k : nat)                                  (* h.insert(h.length(), k) *)
| LDrop (h : nat)                                    (* h = Array() *)
| LEdit (h : nat) (fs : list edit)                   (* h.insert(...) etc. *)
| LPut (h : nat) (f : list A -> option (list A)) (fs : list edit)   (* h.put(k, v) *)
| LRead (t h : nat) (res : list A).                  (* thread t read all of h *)

Record sstate := { rc : state;                       (* handles and reference counts *)
                   mem : list (list A);              (* the elements of every body *)
                   vw : list (option (nat * nat));   (* offset and num_elements of every handle, array.h
                                                        455-456; None: the whole body, and maps *)
                   wk : list work;
                   log : list entry }.

Inductive sevent :=
| EMake (t h : nat) (b : list A)
| ECopy (t d s : nat)
| ESlice (t d s a n : nat)
| ETrim (t h a n : nat)
| EJoin (t h k : nat)
| EDrop (t h : nat)
| EGive (t h t' : nat)
| EEdit (t h : nat) (fs : list edit)
| ESet (t h : nat) (ws : list (nat * A))
| EPut (t h : nat) (f : list A -> option (list A)) (fs : list edit)
| ERead (t h : nat)
| EStep (t : nat).

Definition free (s : sstate) (t : nat) : bool :=
  idle (rc s) t && match nth_error (wk s) t with Some Free => true | _ => false end.

Definition set_wk (s : sstate) (t : nat) (w : work) : sstate :=
  {| rc := rc s; mem := mem s; vw := vw s; wk := upd (wk s) t w; log := log s |}.
Definition set_rc (s : sstate) (r : state) : sstate :=
  {| rc := r; mem := mem s; vw := vw s; wk := wk s; log := log s |}.
Definition set_mem (s : sstate) (o : nat) (b : list A) : sstate :=
  {| rc := rc s; mem := upd (mem s) o b; vw := vw s; wk := wk s; log := log s |}.
Definition set_vw (s : sstate) (h : nat) (v : option (nat * nat)) : sstate :=
  {| rc := rc s; mem := mem s; vw := upd (vw s) h v; wk := wk s; log := log s |}.
Definition add_log (s : sstate) (e : entry) : sstate :=
  {| rc := rc s; mem := mem s; vw := vw s; wk := wk s; log := log s ++ [e] |}.
Definition add_body (s : sstate) (b : list A) : sstate :=
  {| rc := rc s; mem := mem s ++ [b]; vw := vw s; wk := wk s; log := log s |}.

Definition view (s : sstate) (h : nat) : option (nat * nat) := nth h (vw s) None.

(** The body a handle refers to; [UB] if it was deleted. *)
Definition body_of (s : sstate) (h : nat) : outcome (option nat) :=
  match nth_error (slots (rc s)) h with
  | Some (Some o) => do _ <- access (rc s) o; Ok (Some o)
  | Some None => Ok None
  | None => UB
  end.

Definition text_at (s : sstate) (b : option nat) : list A :=
  match b with Some o => nth o (mem s) [] | None => [] end.

(** offset and num_elements (array.h 455-456). *)
Definition bounds (v : option (nat * nat)) (b : list A) : nat * nat :=
  match v with Some p => p | None => (0%nat, length b) end.

(** Element [i] of a handle, [None] past its end (body->data()[offset+i],
    array.h 67, 285-292; or the [i]th pair of a map, cowmap.h 63-66). *)
Definition elem_at (v : option (nat * nat)) (b : list A) (i : nat) : outcome (option A) :=
  let (o, n) := bounds v b in
  if (i <? n)%nat then match nth_error b (o + i) with Some x => Ok (Some x) | None => UB end else Ok None.

(** One change to the elements of a handle, in its body (array.h 187-191:
    body->data()[offset+elem_num] = e). *)
Definition write_at (v : option (nat * nat)) (b : list A) (f : edit) : list A :=
  let (o, n) := bounds v b in
  firstn o b ++ f (firstn n (skipn o b)) ++ skipn (o + n) b.

(** Unshare (array.h 458-466, cowmap.h 162-173): GetRefCount() <= 1, else copy. *)
Definition is_shared (s : sstate) (h : nat) : outcome bool :=
  match nth_error (slots (rc s)) h with
  | Some (Some o) => do ob <- access (rc s) o; Ok (negb (o_count ob <=? 1))
  | Some None => Ok true
  | None => UB
  end.

Definition unshare (s : sstate) (t h : nat) (fs : list edit) : outcome sstate :=
  do sh <- is_shared s h;
  Ok (set_wk s t (if sh then Copying h 0 [] fs else Writing h fs)).

(** The next step of thread [t]. *)
Definition thread_step (s : sstate) (t : nat) : outcome sstate :=
  if negb (idle (rc s) t) then
    (* inside AddRef, Ref::operator= or Release *)
    do r <- step (rc s) (Step t); Ok (set_rc s r)
  else
  match nth_error (wk s) t with
  | Some (Reading h i got) =>
      do b <- body_of s h;
      do x <- elem_at (view s h) (text_at s b) i;
      match x with
      | Some x => Ok (set_wk s t (Reading h (S i) (got ++ [x])))
      | None => Ok (set_wk (add_log s (LRead t h got)) t Free)
      end
  | Some (Finding h f fs) =>
      do b <- body_of s h;
      match f (text_at s b) with
      | Some _ => Ok (set_wk s t (Poking h f fs))
      | None => unshare s t h fs                     (* insert(k, v), cowmap.h 81, 72-73 *)
      end
  | Some (Poking h f fs) =>
      do b <- body_of s h;
      match b with
      | Some o => unshare (set_mem s o (match f (text_at s b) with Some b' => b' | None => text_at s b end)) t h fs
      | None => UB
      end
  | Some (Copying h i got fs) =>
      (* new Body(asElements(), true, num_elements, ...), array.h 464; cowmap.h 168-170 *)
      do b <- body_of s h;
      do x <- elem_at (view s h) (text_at s b) i;
      match x with
      | Some x => Ok (set_wk s t (Copying h (S i) (got ++ [x]) fs))
      | None => do r <- step (rc s) (New t h);
                Ok (set_wk (set_vw (add_body (set_rc s r) got) h None) t (Writing h fs))
      end
  | Some (Writing h fs) =>
      do b <- body_of s h;
      match b with
      | None => UB
      | Some o =>
          match fs with
          | f :: fs' => Ok (set_wk (set_mem s o (write_at (view s h) (text_at s b) f)) t (Writing h fs'))
          | [] => Ok (set_wk s t Free)
          end
      end
  | _ => Ok s
  end.

(** A copy of [h], its view narrowed by [v] (array.h 37-38, 49-50, 116-131,
    444-449; cowmap.h 38-39, 47-48). *)
Definition copy_to (s : sstate) (t d h : nat) (v : option (nat * nat)) (e : entry) : outcome sstate :=
  do r <- step (rc s) (Copy t d h);
  Ok (add_log (set_vw (set_rc s r) d v) e).

(** One event; a request that is not possible in the state is skipped. *)
Definition sstep (s : sstate) (e : sevent) : outcome sstate :=
  match e with
  | EMake t h b =>                   (* array.h 39-46, cowmap.h 40-46 *)
      if free s t && owns (rc s) t h then
        do r <- step (rc s) (New t h);
        Ok (add_log (set_vw (add_body (set_rc s r) b) h None) (LMake h b))
      else Ok s
  | ECopy t d h =>                   (* array.h 37-38, 49-50; cowmap.h 38-39, 47-48 *)
      if free s t && owns (rc s) t d && owns (rc s) t h then
        copy_to s t d h (view s h) (LCopy d h)
      else Ok s
  | ESlice t d h a n =>              (* array.h 116-131, 444-449; the slices whose assertions fail are left out *)
      if free s t && owns (rc s) t d && owns (rc s) t h then
        do b <- body_of s h;
        let (o, m) := bounds (view s h) (text_at s b) in
        if (a + n <=? m)%nat && (o + a + n <? length (text_at s b))%nat then
          copy_to s t d h (Some ((o + a)%nat, n)) (LSlice d h a n)
        else Ok s
      else Ok s
  | ETrim t h a n =>                 (* remove at an end, pull, shift, clear: array.h 72-73, 177, 192-210, 244-245 *)
      if free s t && owns (rc s) t h then
        do b <- body_of s h;
        let (o, m) := bounds (view s h) (text_at s b) in
        if (a + n <=? m)%nat then Ok (add_log (set_vw s h (Some ((o + a)%nat, n))) (LTrim h a n)) else Ok s
      else Ok s
  | EJoin t h k =>                   (* insert of what follows in the same body, array.h 250-259 *)
      if free s t && owns (rc s) t h && owns (rc s) t k then
        do b <- body_of s h;
        do b' <- body_of s k;
        match b, b' with
        | Some q, Some q' =>
            let (o, m) := bounds (view s h) (text_at s b) in
            let (o', m') := bounds (view s k) (text_at s b') in
            if Nat.eqb q q' && Nat.eqb (o + m) o'
            then Ok (add_log (set_vw s h (Some (o, (m + m')%nat))) (LJoin h k))
            else Ok s
        | _, _ => Ok s
        end
      else Ok s
  | EDrop t h =>
      if free s t && owns (rc s) t h then
        do r <- step (rc s) (Drop t h); Ok (add_log (set_vw (set_rc s r) h None) (LDrop h))
      else Ok s
  | EGive t h t' =>
      if free s t && owns (rc s) t h && free s t' then
        do r <- step (rc s) (Give t h t'); Ok (set_rc s r)
      else Ok s
  | EEdit t h fs =>
      (* insert, remove, push, unshift (array.h 192-275), insert, remove (cowmap.h 72-75).
         On a proper slice that is the only reference to its body these use
         positions of the body (C16): left out *)
      if free s t && owns (rc s) t h then
        do sh <- is_shared s h;
        match sh, view s h with
        | false, Some _ => Ok s
        | _, _ => unshare (add_log s (LEdit h fs)) t h fs
        end
      else Ok s
  | ESet t h ws =>                   (* set, elem_mut, last_mut, reverse: array.h 75-78, 187-191, 242-243, 280-294 *)
      if free s t && owns (rc s) t h then
        do b <- body_of s h;
        match b with
        | None => Ok s                                             (* assert(... && body) *)
        | Some _ =>
            let (o, m) := bounds (view s h) (text_at s b) in
            if forallb (fun w => (fst w <? m)%nat) ws
            then let fs := map (fun w l => upd l (fst w) (snd w)) ws in
                 unshare (add_log s (LEdit h fs)) t h fs
            else Ok s
        end
      else Ok s
  | EPut t h f fs =>                 (* CowMap::put, cowmap.h 76-83 *)
      if free s t && owns (rc s) t h then
        match view s h with
        | None => Ok (set_wk (add_log s (LPut h f fs)) t (Finding h f fs))
        | Some _ => Ok s
        end
      else Ok s
  | ERead t h =>
      if free s t && owns (rc s) t h then Ok (set_wk s t (Reading h 0 [])) else Ok s
  | EStep t => thread_step s t
  end.

Fixpoint srun (s : sstate) (es : list sevent) : outcome sstate :=
  match es with
  | [] => Ok s
  | e :: es => do s' <- sstep s e; srun s' es
  end.

(** [nt] threads and handles with the given owners, all empty. *)
Definition sinit (nt : nat) (owners : list nat) : sstate :=
  {| rc := init nt owners; mem := []; vw := repeat None (length owners); wk := repeat Free nt; log := [] |}.
End Model.
Arguments work : clear implicits.
Arguments entry : clear implicits.
Arguments sstate : clear implicits.
Arguments sevent : clear implicits.
Arguments edit : clear implicits.
