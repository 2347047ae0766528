(** Model of RxResult and the captures it shares copy-on-write
    (rx/strregex.h 178-222, rx/rxmatch.cpp 29-62 and 676-905): result variables
    referring to reference counted RxCaptures objects in a heap.

    Simplifications: a fixed number of result variables, each starting as a
    failed result; constructing one in place is assigning it a new one,
    destroying one is clearing it.  An exception that std::vector throws (at
    with a bad index, resize with a negative size) is [Abort].  Sharing between
    system threads is not modelled here (RefModel has the reference counts). *)
From Verif Require Import Base RefModel.

(** rxmatch.cpp:17 *)
Definition NORESULT : Z := 4294967295.

(** RxCaptures (rxmatch.cpp 56-61): capture_max, counter_max and counters_used
    (unsigned char both), values. *)
Record body := mkbody { k_pmax : Z; k_cmax : Z; k_used : Z; k_vals : list Z }.
(** A heap cell: the reference count and the object; [None] is freed. *)
Definition heap := list (option (Z * body)).
(** RxResult (strregex.h 219-220): cap0, cap1, captures. *)
Record rvar := mkvar { x_cap0 : Z; x_cap1 : Z; x_ref : option nat }.
Record rstate := mkstate { rh : heap; rv : list rvar }.

(** rxmatch.cpp 57, 53 *)
Definition counterBase (b : body) : Z := k_pmax b * 2 - 2.
Definition reserved (b : body) : bool := (0 <? length (k_vals b))%nat.
(** rxmatch.cpp 683-687 reserve *)
Definition reserve (b : body) : outcome body :=
  if reserved b then Ok b
  else let n := (k_pmax b - 1) * 2 + k_cmax b * 2 in
       if n <? 0 then Abort else Ok (mkbody (k_pmax b) (k_cmax b) (k_used b) (repeat 0 (Z.to_nat n))).
(** values.at(i) as a value and as a place *)
Definition at_ (l : list Z) (i : Z) : outcome Z :=
  if i <? 0 then Abort else match nth_error l (Z.to_nat i) with Some x => Ok x | None => Abort end.
Definition put_at (b : body) (i x : Z) : outcome body :=
  do _ <- at_ (k_vals b) i; Ok (mkbody (k_pmax b) (k_cmax b) (k_used b) (upd (k_vals b) (Z.to_nat i) x)).
Definition with_used (b : body) (u : Z) : body := mkbody (k_pmax b) (k_cmax b) (u8 u) (k_vals b).

(** rxmatch.cpp 676-681 *)
Definition new_body (c p : Z) : body := mkbody p (u8 c) 0 [].
(** rxmatch.cpp 39-40 *)
Definition b_counterNum (b : body) : Z := k_used b / 2.
Definition b_counterGet (b : body) (i : Z) : outcome Z :=
  if reserved b then rdZ (k_vals b) (counterBase b + k_used b - i * 2 - 1) else Ok 0.
(** rxmatch.cpp 697-707 *)
Definition b_pushZero (off : Z) (b : body) : outcome (body * Z) :=
  do b <- reserve b;
  cassert (k_used b <? k_cmax b * 2) (
    do b1 <- put_at b (counterBase b + k_used b) off;
    let b1 := with_used b1 (k_used b1 + 1) in
    do b2 <- put_at b1 (counterBase b1 + k_used b1) 0;
    Ok (with_used b2 (k_used b2 + 1), 0)).
(** rxmatch.cpp 709-717 *)
Definition b_incr (off : Z) (b : body) : outcome (body * Z) :=
  do b <- reserve b;
  cassert (k_used b >? 0) (
    do b <- put_at b (counterBase b + k_used b - 2) off;
    do c <- at_ (k_vals b) (counterBase b + k_used b - 1);
    do b <- put_at b (counterBase b + k_used b - 1) (u32 (c + 1));
    Ok (b, u32 (c + 1))).
(** rxmatch.cpp 719-728 *)
Definition b_pop (b : body) : outcome (body * Z) :=
  do b <- reserve b;
  cassert (k_used b >? 1) (Ok (with_used b (k_used b - 2), 0)).
(** rxmatch.cpp 730-735 *)
Definition b_top (b : body) : outcome (Z * Z) :=
  cassert (k_used b >? 0) (
    do o <- at_ (k_vals b) (counterBase b + k_used b - 2);
    do c <- at_ (k_vals b) (counterBase b + k_used b - 1);
    Ok (o, c)).
(** rxmatch.cpp 743-750 *)
Definition b_capture (b : body) (i : Z) : outcome Z :=
  cassert (negb ((i <? 1) || (i >=? k_pmax b * 2))) (
    if (i <? 2) || (i >=? k_pmax b * 2) || negb (reserved b) then Ok 0
    else at_ (k_vals b) (i - 2)).
(** rxmatch.cpp 752-760 *)
Definition b_captureSet (i x : Z) (b : body) : outcome (body * Z) :=
  cassert (negb ((i <? 1) || (i >=? k_pmax b * 2))) (
    if (i <? 2) || (i >=? k_pmax b * 2) then Ok (b, 0)
    else do b <- reserve b; do b <- put_at b (i - 2) x; Ok (b, x)).

(** ** The heap *)

Definition hget (h : heap) (b : nat) : outcome (Z * body) :=
  match nth_error h b with Some (Some x) => Ok x | _ => UB end.
(** refcount.h 16-17, through a pointer that may be null *)
Definition addref (h : heap) (r : option nat) : outcome heap :=
  match r with
  | None => Ok h
  | Some b => do x <- hget h b; Ok (upd h b (Some (fst x + 1, snd x)))
  end.
Definition release (h : heap) (r : option nat) : outcome heap :=
  match r with
  | None => Ok h
  | Some b =>
    do x <- hget h b;
    cassert (fst x >? 0) (Ok (upd h b (if fst x - 1 =? 0 then None else Some (fst x - 1, snd x))))
  end.
(** refcount.h 36-56 Ref::operator= *)
Definition rassign (h : heap) (old new : option nat) : outcome heap :=
  do h <- addref h new; release h old.
(** rxmatch.cpp 808-814 Unshare: a null reference is dereferenced *)
Definition runshare (h : heap) (r : option nat) : outcome (heap * nat) :=
  match r with
  | None => UB
  | Some b =>
    do x <- hget h b;
    if fst x <=? 1 then Ok (h, b)
    else do h2 <- rassign (h ++ [Some (0, snd x)]) (Some b) (Some (length h)); Ok (h2, length h)
  end.

(** ** Calls on result variables *)
Inductive rop :=
| RNew (d : nat) (counters groups : Z)   (* d = RxResult(counters, groups) *)
| RFail (d : nat)                        (* d = RxResult() *)
| RCopy (d v : nat)                      (* d = v *)
| RClear (v : nat)                       (* v.clear() *)
| RSet (v : nat) (i x : Z)               (* v.captureSet(i, x) *)
| RPush (v : nat) (off : Z)              (* v.counterPushZero(off) *)
| RIncr (v : nat) (off : Z)              (* v.counterIncr(off) *)
| RPop (v : nat).                        (* v.counterPop() *)

(** Unshare, then change the object *)
Definition rchange (s : rstate) (v : nat) (y : rvar) (f : body -> outcome (body * Z)) : outcome (rstate * Z) :=
  do u <- runshare (rh s) (x_ref y);
  do x <- hget (fst u) (snd u);
  do z <- f (snd x);
  Ok (mkstate (upd (fst u) (snd u) (Some (fst x, fst z)))
              (upd (rv s) v (mkvar (x_cap0 y) (x_cap1 y) (Some (snd u)))), snd z).
(** v's captures become [r], its ends [c0] and [c1] *)
Definition rset (s : rstate) (h : heap) (v : nat) (y : rvar) (r : option nat) (c0 c1 : Z) : outcome (rstate * Z) :=
  do h <- rassign h (x_ref y) r;
  Ok (mkstate h (upd (rv s) v (mkvar c0 c1 r)), 0).

(** One call, with the number it returns (0 if it returns nothing) *)
Definition rstep (s : rstate) (o : rop) : outcome (rstate * Z) :=
  let on v f := match nth_error (rv s) v with Some y => f y | None => Ok (s, 0) end in
  match o with
  | RNew d c p =>                        (* rxmatch.cpp 762-768, 786-792 *)
    on d (fun y => rset s (rh s ++ [Some (0, new_body c p)]) d y (Some (length (rh s))) 0 NORESULT)
  | RFail d =>                           (* rxmatch.cpp 770-775 *)
    on d (fun y => rset s (rh s) d y None 0 NORESULT)
  | RCopy d v =>                         (* rxmatch.cpp 786-792 *)
    on v (fun z => on d (fun y => rset s (rh s) d y (x_ref z) (x_cap0 z) (x_cap1 z)))
  | RClear v =>                          (* rxmatch.cpp 794-800 *)
    on v (fun y => rset s (rh s) v y None 0 NORESULT)
  | RSet v i x =>                        (* rxmatch.cpp 837-852 *)
    on v (fun y =>
      if i <=? 1 then
        Ok (mkstate (rh s) (upd (rv s) v (if i =? 0 then mkvar x (x_cap1 y) (x_ref y) else mkvar (x_cap0 y) x (x_ref y))), 0)
      else cassert (match x_ref y with Some _ => true | None => false end)
             (do r <- rchange s v y (b_captureSet i x); Ok (fst r, 0)))
  | RPush v off => on v (fun y => rchange s v y (b_pushZero off))   (* rxmatch.cpp 877-883 *)
  | RIncr v off => on v (fun y => rchange s v y (b_incr off))       (* rxmatch.cpp 885-891 *)
  | RPop v => on v (fun y => rchange s v y b_pop)                   (* rxmatch.cpp 893-899 *)
  end.

Fixpoint rrun (s : rstate) (os : list rop) : outcome (rstate * list Z) :=
  match os with
  | [] => Ok (s, [])
  | o :: os => do x <- rstep s o; do y <- rrun (fst x) os; Ok (fst y, snd x :: snd y)
  end.
(** [n] failed results (rxmatch.cpp 770-775) *)
Definition rinit (n : nat) : rstate := mkstate [] (repeat (mkvar 0 NORESULT None) n).

(** ** Reading a result *)
Section Read.
Variables (s : rstate) (y : rvar).
(** strregex.h 200-201, rxmatch.cpp 802-806 *)
Definition q_offset : Z := x_cap0 y.
Definition q_succeeded : bool := negb (x_cap1 y =? NORESULT).
Definition q_length : Z := if q_succeeded then u32 (x_cap1 y - x_cap0 y) else 0.
(** A call on the captures, or what is returned when there are none *)
Definition q_on {A} (f : body -> outcome A) (none : outcome A) : outcome A :=
  match x_ref y with Some b => do x <- hget (rh s) b; f (snd x) | None => none end.
(** rxmatch.cpp 820-835 *)
Definition q_captureMax : outcome Z := q_on (fun b => Ok (k_pmax b)) (Ok 1).
Definition q_capture (i : Z) : outcome Z :=
  if i <=? 1 then Ok (if i =? 0 then x_cap0 y else if q_succeeded then x_cap1 y else 0)
  else q_on (fun b => b_capture b i) (Ok 0).
(** rxmatch.cpp 865-875, 901-905 *)
Definition q_counterNum : outcome Z := q_on (fun b => Ok (b_counterNum b)) (Ok 0).
Definition q_counterGet (i : Z) : outcome Z := q_on (fun b => b_counterGet b i) (Ok 0).
Definition q_counterTop : outcome (Z * Z) := q_on b_top UB.
End Read.
(** rxmatch.cpp 854-863 countersSame *)
Fixpoint same_loop (s : rstate) (y z : rvar) (i : Z) (n : nat) : outcome bool :=
  match n with
  | O => Ok true
  | S n =>
    do a <- q_counterGet s y i;
    do b <- q_counterGet s z i;
    if a =? b then same_loop s y z (i + 1) n else Ok false
  end.
Definition q_countersSame (s : rstate) (y z : rvar) : outcome bool :=
  do a <- q_counterNum s y;
  do b <- q_counterNum s z;
  if a =? b then same_loop s y z 0 (Z.to_nat a) else Ok false.
