(** Interleaving model of string values used from several threads
    (include/strval.h, on top of the reference counts of include/refcount.h).

    A handle is a StrVal variable that covers its whole body; it is owned by one
    thread at a time, as in RefModel, and copies in different threads share one
    body.  Every access to a reference count, to one byte of the characters, and
    to the character count cached in the body is a separate step, and the steps
    of the threads interleave in any order (sequential consistency).

    Simplifications: a null handle stands for a string on the shared static
    empty body (strval.h 81, 302-306), which holds no characters and whose count
    stays 0; slices, bookmarks and binary strings are left out; the changes an
    editing function makes to the bytes are an arbitrary list of small steps; one
    call of UTF8Get inside countChars is one step; counts do not wrap (fewer than
    2^32 bytes, the range of Index); the temporary a constructor is assigned from
    is the new body itself. *)
From Verif Require Import Base UTF8Model RefModel.
From Verif Require StrModel.

(** What follows body->numChars(): nthChar (strval.h 111-170) calls it in
    asUTF8 (432-445), copyBody (789-804) and insert (699-706). *)
Inductive kont :=
| KCount                                   (* the caller wanted the count *)
| KRead                                    (* then the bytes are read *)
| KCopy (fs : list (list Z -> list Z))     (* copyBody, then the edit [fs] *)
| KWrite (fs : list (list Z -> list Z)).   (* the body is ours: edit in place *)

(** Where a thread is inside numChars/countChars (strval.h 99-106, 249-265). *)
Inductive cpc :=
| CTest                   (* before [num_chars == 0] *)
| CLoop (i : nat)         (* before the loop test at byte i *)
| CInc (i : nat)          (* num_chars++: before the load *)
| CWr (i : nat) (v : Z)   (* num_chars++: loaded v, before the store *)
| CRet.                   (* before [return num_chars] *)

(** What a thread is doing. *)
Inductive work :=
| Free
| Counting (h : nat) (c : cpc) (k : kont)
| Reading (h i : nat) (got : list Z)
| Copying (h i : nat) (got : list Z) (fs : list (list Z -> list Z))
| Writing (h : nat) (fs : list (list Z -> list Z)).

(** What the program asked for, in the order of the requests; the results of
    reads and counts are entered when they are complete. *)
Inductive entry :=
| LMake (h : nat) (b : list Z)                       (* h = StrVal(b) *)
| LCopy (d s : nat)                                  (* d = s *)
| LDrop (h : nat)                                    (* h = StrVal() *)
| LEdit (h : nat) (fs : list (list Z -> list Z))     (* h.insert(...) etc. *)
| LRead (t h : nat) (res : list Z)                   (* thread t read h's bytes *)
| LCount (t h : nat) (n : Z).                        (* thread t counted h's characters *)

Record cstate := { rc : state;              (* handles and reference counts *)
                   txt : list (list Z);     (* the bytes of every body, without the NUL *)
                   cnt : list Z;            (* num_chars of every body *)
                   wk : list work;
                   log : list entry }.

Inductive cevent :=
| EMake (t h : nat) (b : list Z)
| ECopy (t d s : nat)
| EDrop (t h : nat)
| EGive (t h t' : nat)
| EEdit (t h : nat) (fs : list (list Z -> list Z))
| ERead (t h : nat)
| ECount (t h : nat)
| EStep (t : nat).

(** countChars started at byte [i] (strval.h 254-264): how often it increments. *)
Fixpoint chars_from (fuel : nat) (m : list Z) (i : nat) : nat :=
  if (i <? length m)%nat then
    match fuel with
    | O => 0%nat
    | S f => match UTF8Get (skipn i (m ++ [0])) with
             | Ok r => if (fst r =? StrModel.UCS4_NONE) || (length m <? i + snd r)%nat then 0%nat
                       else S (chars_from f m (i + snd r))
             | _ => 0%nat
             end
    end
  else 0%nat.

Definition free (s : cstate) (t : nat) : bool :=
  idle (rc s) t && match nth_error (wk s) t with Some Free => true | _ => false end.

Definition set_wk (s : cstate) (t : nat) (w : work) : cstate :=
  {| rc := rc s; txt := txt s; cnt := cnt s; wk := upd (wk s) t w; log := log s |}.
Definition set_rc (s : cstate) (r : state) : cstate :=
  {| rc := r; txt := txt s; cnt := cnt s; wk := wk s; log := log s |}.
Definition set_txt (s : cstate) (o : nat) (b : list Z) : cstate :=
  {| rc := rc s; txt := upd (txt s) o b; cnt := cnt s; wk := wk s; log := log s |}.
Definition set_cnt (s : cstate) (o : nat) (n : Z) : cstate :=
  {| rc := rc s; txt := txt s; cnt := upd (cnt s) o n; wk := wk s; log := log s |}.
Definition add_log (s : cstate) (e : entry) : cstate :=
  {| rc := rc s; txt := txt s; cnt := cnt s; wk := wk s; log := log s ++ [e] |}.
Definition add_body (s : cstate) (b : list Z) (n : Z) : cstate :=
  {| rc := rc s; txt := txt s ++ [b]; cnt := cnt s ++ [n]; wk := wk s; log := log s |}.

(** The body a handle refers to; [UB] if it was deleted. *)
Definition body_of (s : cstate) (h : nat) : outcome (option nat) :=
  match nth_error (slots (rc s)) h with
  | Some (Some o) => do _ <- access (rc s) o; Ok (Some o)
  | Some None => Ok None
  | None => UB
  end.

Definition text_at (s : cstate) (b : option nat) : list Z :=
  match b with Some o => nth o (txt s) [] | None => [] end.
Definition count_at (s : cstate) (b : option nat) : Z :=
  match b with Some o => nth o (cnt s) 0 | None => 0 end.

(** numChars returned [n] to its caller. *)
Definition counted (s : cstate) (t h : nat) (n : Z) (k : kont) : cstate :=
  match k with
  | KCount => set_wk (add_log s (LCount t h n)) t Free
  | KRead => set_wk s t (Reading h 0 [])
  | KCopy fs => set_wk s t (Copying h 0 [] fs)
  | KWrite fs => set_wk s t (Writing h fs)
  end.

(** One step of numChars / countChars on body [b] (strval.h 99-106, 249-265). *)
Definition count_step (s : cstate) (t h : nat) (b : option nat) (c : cpc) (k : kont) : outcome cstate :=
  match c with
  | CTest => Ok (set_wk s t (Counting h (if count_at s b =? 0 then CLoop 0 else CRet) k))
  | CLoop i =>
      let m := text_at s b in
      if (i <? length m)%nat then
        do r <- UTF8Get (skipn i (m ++ [0]));
        if (fst r =? StrModel.UCS4_NONE) || (length m <? i + snd r)%nat
        then Ok (set_wk s t (Counting h CRet k))
        else Ok (set_wk s t (Counting h (CInc (i + snd r)) k))
      else Ok (set_wk s t (Counting h CRet k))
  | CInc i => Ok (set_wk s t (Counting h (CWr i (count_at s b)) k))
  | CWr i v =>
      match b with
      | Some o => Ok (set_wk (set_cnt s o (v + 1)) t (Counting h (CLoop i) k))
      | None => UB
      end
  | CRet => Ok (counted s t h (count_at s b) k)
  end.

(** The next step of thread [t]. *)
Definition thread_step (s : cstate) (t : nat) : outcome cstate :=
  if negb (idle (rc s) t) then
    (* inside AddRef, Ref::operator= or Release *)
    do r <- step (rc s) (Step t); Ok (set_rc s r)
  else
  match nth_error (wk s) t with
  | Some (Counting h c k) => do b <- body_of s h; count_step s t h b c k
  | Some (Reading h i got) =>
      do b <- body_of s h;
      match nth_error (text_at s b) i with
      | Some x => Ok (set_wk s t (Reading h (S i) (got ++ [x])))
      | None => Ok (set_wk (add_log s (LRead t h got)) t Free)
      end
  | Some (Copying h i got fs) =>
      (* new Body(cp, StrUTF8, ep-cp), strval.h 797; then body = ... *)
      do b <- body_of s h;
      match nth_error (text_at s b) i with
      | Some x => Ok (set_wk s t (Copying h (S i) (got ++ [x]) fs))
      | None => do r <- step (rc s) (New t h);
                Ok (set_wk (add_body (set_rc s r) got 0) t (Counting h CTest (KWrite fs)))
      end
  | Some (Writing h fs) =>
      do b <- body_of s h;
      match b with
      | None => UB
      | Some o =>
          match fs with
          | f :: fs' => Ok (set_wk (set_txt s o (f (text_at s b))) t (Writing h fs'))
          | [] => Ok (set_wk (set_cnt s o 0) t Free)       (* num_chars = 0, strval.h 182-187 *)
          end
      end
  | _ => Ok s
  end.

(** One event; a request that is not possible in the state is skipped. *)
Definition cstep (s : cstate) (e : cevent) : outcome cstate :=
  match e with
  | EMake t h b =>                   (* strval.h 314-319: counted before it is shared *)
      if free s t && owns (rc s) t h then
        do r <- step (rc s) (New t h);
        Ok (add_log (add_body (set_rc s r) b (Z.of_nat (chars_from (length b) b 0))) (LMake h b))
      else Ok s
  | ECopy t d h =>                   (* strval.h 307-310, 346-352 *)
      if free s t && owns (rc s) t d && owns (rc s) t h then
        do r <- step (rc s) (Copy t d h); Ok (add_log (set_rc s r) (LCopy d h))
      else Ok s
  | EDrop t h =>
      if free s t && owns (rc s) t h then
        do r <- step (rc s) (Drop t h); Ok (add_log (set_rc s r) (LDrop h))
      else Ok s
  | EGive t h t' =>
      if free s t && owns (rc s) t h && free s t' then
        do r <- step (rc s) (Give t h t'); Ok (set_rc s r)
      else Ok s
  | EEdit t h fs =>                  (* Unshare, strval.h 806-813: isShared() is ref_count > 1 *)
      if free s t && owns (rc s) t h then
        match nth_error (slots (rc s)) h with
        | Some (Some o) =>
            do ob <- access (rc s) o;
            Ok (set_wk (add_log s (LEdit h fs)) t
                  (Counting h CTest (if o_count ob >? 1 then KCopy fs else KWrite fs)))
        | Some None => Ok (set_wk (add_log s (LEdit h fs)) t (Counting h CTest (KCopy fs)))
        | None => UB
        end
      else Ok s
  | ERead t h =>
      if free s t && owns (rc s) t h then Ok (set_wk s t (Counting h CTest KRead)) else Ok s
  | ECount t h =>
      if free s t && owns (rc s) t h then Ok (set_wk s t (Counting h CTest KCount)) else Ok s
  | EStep t => thread_step s t
  end.

Fixpoint crun (s : cstate) (es : list cevent) : outcome cstate :=
  match es with
  | [] => Ok s
  | e :: es => do s' <- cstep s e; crun s' es
  end.

(** [nt] threads and handles with the given owners, all empty strings. *)
Definition cinit (nt : nat) (owners : list nat) : cstate :=
  {| rc := init nt owners; txt := []; cnt := []; wk := repeat Free nt; log := [] |}.
