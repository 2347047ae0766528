(** Model of the guarded pointer classes, include/char_ptr.h and
    include/utf8_ptr.h.  A text is the list of bytes of the buffer, the
    terminating NUL included; a pointer is an index relative to the origin
    (index 0); it may leave the buffer, in which case dereferencing is [UB].
    None of the member functions is virtual, so each body calls the version
    visible in its own class. *)
From Verif Require Import Base UTF8Model.

(** char_ptr.h 73 / 112: [while (i > 0 && *s != '\0') { s++; i--; }]; the result
    is (s, i).  [n] is max(i,0). *)
Fixpoint adv (m : list Z) (s : Z) (n : nat) : outcome (Z * Z) :=
  match n with
  | O => Ok (s, 0)
  | S n' => do b <- rdZ m s;
            if b =? 0 then Ok (s, Z.of_nat n) else adv m (s + 1) n'
  end.

(** char_ptr.h 71-76 : NulGuardedCharPtr::operator+= (note [s -= i] with i<0) *)
Definition nul_plus (m : list Z) (p : Z) (i : Z) : outcome Z :=
  if i >=? 0 then do r <- adv m p (Z.to_nat i); Ok (fst r)
  else Ok (p - i).

(** char_ptr.h 78 : operator-=, defined in NulGuardedCharPtr in terms of its
    own operator+=; GuardedCharPtr inherits it unchanged. *)
Definition nul_minus (m : list Z) (p : Z) (i : Z) : outcome Z := nul_plus m p (- i).

(** char_ptr.h 82 : preincr, both guarded classes *)
Definition nul_incr (m : list Z) (p : Z) : outcome Z :=
  do b <- rdZ m p; Ok (if b =? 0 then p else p + 1).

(** char_ptr.h 47-48 : predecr of the base class; no class overrides it *)
Definition ptr_decr (m : list Z) (p : Z) : outcome Z := Ok (p - 1).

(** char_ptr.h 109-117 : GuardedCharPtr::operator+= *)
Definition guarded_plus (m : list Z) (p : Z) (i : Z) : outcome Z :=
  do r <- (if i >=? 0 then adv m p (Z.to_nat i) else Ok (p, i));
  let '(s, i') := r in
  if - i' >? s - 0 then Ok 0 else Ok (s + i').

(** ---- UTF-8 pointers ---- *)

(** UTF8Get at position [s]: new position *)
Definition get_at (m : list Z) (s : Z) : outcome (Z * Z) :=
  if s <? 0 then UB
  else do r <- UTF8Get (skipn (Z.to_nat s) m); Ok (fst r, s + Z.of_nat (snd r)).

(** utf8_ptr.h 45 / 81: [while (i > 0 && *s != '\0') { UTF8Get(s); i--; }] *)
Fixpoint uadv (m : list Z) (s : Z) (n : nat) : outcome Z :=
  match n with
  | O => Ok s
  | S n' => do b <- rdZ m s;
            if b =? 0 then Ok s
            else do r <- get_at m s; uadv m (snd r) n'
  end.

(** utf8_ptr.h 46: [while (i < 0) { s = UTF8Backup(s); i++; }].  UTF8Backup
    without a limit never returns null. *)
Fixpoint ubackup_n (m : list Z) (s : Z) (n : nat) : outcome Z :=
  match n with
  | O => Ok s
  | S n' => do r <- UTF8Backup m s None;
            match r with Some s' => ubackup_n m s' n' | None => UB end
  end.

(** utf8_ptr.h 82: [while (i < 0 && s > origin) { s = UTF8Backup(s); i++; }] *)
Fixpoint ubackup_g (m : list Z) (s : Z) (n : nat) : outcome Z :=
  match n with
  | O => Ok s
  | S n' => if s >? 0
            then do r <- UTF8Backup m s None;
                 match r with Some s' => ubackup_g m s' n' | None => UB end
            else Ok s
  end.

(** utf8_ptr.h 43-48 : NulGuardedUTF8Ptr::operator+= *)
Definition unul_plus (m : list Z) (p : Z) (i : Z) : outcome Z :=
  if i >=? 0 then uadv m p (Z.to_nat i) else ubackup_n m p (Z.to_nat (- i)).

(** utf8_ptr.h 80-85 : GuardedUTF8Ptr::operator+= *)
Definition uguarded_plus (m : list Z) (p : Z) (i : Z) : outcome Z :=
  if i >=? 0 then uadv m p (Z.to_nat i) else ubackup_g m p (Z.to_nat (- i)).

(** utf8_ptr.h 55 : preincr; [at_eof] (27-28) decodes the character. *)
Definition unul_incr (m : list Z) (p : Z) : outcome Z :=
  do r <- get_at m p;
  Ok (if fst r =? 0 then p else snd r).

(** utf8_ptr.h 57, reached by operator-- (62-63) of both classes *)
Definition unul_decr (m : list Z) (p : Z) : outcome Z :=
  do r <- UTF8Backup m p None;
  match r with Some s => Ok s | None => UB end.

(** utf8_ptr.h 87 : GuardedUTF8Ptr::predecr; it hides the base's, but
    operator-- of the base calls the base's. *)
Definition uguarded_predecr (m : list Z) (p : Z) : outcome Z :=
  if p =? 0 then Ok p else unul_decr m p.

(** ---- Sequences of operations on one pointer ---- *)
Inductive pclass := NulChar | GuardChar | NulUTF8 | GuardUTF8.
Definition is_char (c : pclass) : bool := match c with NulChar | GuardChar => true | _ => false end.
(** [PIncr] is ++p and p++, [PDecr] is --p and p--, [PPredecr] is p.predecr(),
    [PAdd i] is p += i, [PSub i] is p -= i. *)
Inductive pop := PIncr | PDecr | PPredecr | PAdd (i : Z) | PSub (i : Z).

(** The member function each operation reaches, char_ptr.h 62-88 and 91-118,
    utf8_ptr.h 42-68 and 72-91. *)
Definition pstep (c : pclass) (m : list Z) (p : Z) (o : pop) : outcome Z :=
  match o with
  | PIncr => if is_char c then nul_incr m p else unul_incr m p
  | PDecr => if is_char c then ptr_decr m p else unul_decr m p
  | PPredecr =>
      match c with
      | GuardUTF8 => uguarded_predecr m p
      | NulUTF8 => unul_decr m p
      | _ => ptr_decr m p
      end
  | PAdd i =>
      match c with
      | NulChar => nul_plus m p i
      | GuardChar => guarded_plus m p i
      | NulUTF8 => unul_plus m p i
      | GuardUTF8 => uguarded_plus m p i
      end
  | PSub i => if is_char c then nul_minus m p i else unul_plus m p (- i)
  end.
Fixpoint prun (c : pclass) (m : list Z) (p : Z) (os : list pop) : outcome Z :=
  match os with
  | [] => Ok p
  | o :: os => do q <- pstep c m p o; prun c m q os
  end.
