(** Model of arrays of variants edited in place (include/array.h over
    include/variant.h): a Variant is nothing, a number, or a VariantArray, and a
    VariantArray is a slice of a shared, reference counted body whose cells are
    Variants again.  Here the constructors, assignments and destructors of the
    elements are modelled, which ArrayModel.v (elements without resources) and
    VarModel.v (bodies that never change) leave out.

    Simplifications.  Sizes and counts are natural numbers (ArrayModel.v has the
    32-bit arithmetic; sizes stay below 2^30 here).  Strings and maps in variants
    are left out.  A Variant variable that holds an array and a VariantArray
    variable are the same thing. *)
From Verif Require Import Base RefModel.

(** array.h 443-446; a null body is an empty array. *)
Record slice := mkslice { s_body : option nat; s_off : nat; s_len : nat }.
(** variant.h 32-44, 388-401: None, Integer, VarArray. *)
Inductive elem := Nil | Num (z : Z) | Arr (s : slice).
(** array.h 495-593: [cells] is all the storage, num_alloc of them, the first
    [b_num] of them are elements. *)
Record body := mkbody { b_refs : nat; b_num : nat; b_cells : list elem }.
Definition heap : Type := list (option body).

Definition owned (e : elem) : list nat := match e with Arr (mkslice (Some b) _ _) => [b] | _ => [] end.
Definition kids (x : body) : list nat := flat_map owned (b_cells x).

Definition get (h : heap) (b : nat) : outcome body :=
  match nth_error h b with Some (Some x) => Ok x | _ => UB end.
Definition set_body (h : heap) (b : nat) (x : body) : heap := upd h b (Some x).

(** refcount.h 16 AddRef *)
Definition add_ref (h : heap) (b : nat) : outcome heap :=
  do x <- get h b; Ok (set_body h b (mkbody (S (b_refs x)) (b_num x) (b_cells x))).
(** refcount.h 17 Release, array.h 501-506: the last reference deletes the body,
    and so all its cells. *)
Fixpoint release (f : nat) (h : heap) (todo : list nat) : outcome heap :=
  match todo with
  | [] => Ok h
  | b :: rest =>
    match f with
    | O => UB
    | S f =>
      do x <- get h b;
      match b_refs x with
      | O => Abort
      | S O => release f (upd h b None) (kids x ++ rest)
      | S n => release f (set_body h b (mkbody n (b_num x) (b_cells x))) rest
      end
    end
  end.
(** Each step takes one reference away, so these are enough. *)
Definition all_refs (h : heap) : nat :=
  list_sum (map (fun o => match o with Some x => b_refs x | None => 0%nat end) h).
Definition drop (h : heap) (todo : list nat) : outcome heap := release (S (all_refs h)) h todo.

(** variant.h 110-125, array.h 37-38: a copy refers to the same body. *)
Fixpoint copies (h : heap) (bs : list nat) : outcome heap :=
  match bs with
  | [] => Ok h
  | b :: bs => do h <- add_ref h b; copies h bs
  end.
Definition copy (h : heap) (e : elem) : outcome heap := copies h (owned e).

(** [cells[i] = e] where the cell is already discarded (a raw store). *)
Definition store (h : heap) (b i : nat) (e : elem) : outcome heap :=
  do x <- get h b;
  if (i <? length (b_cells x))%nat then Ok (set_body h b (mkbody (b_refs x) (b_num x) (upd (b_cells x) i e))) else UB.
Definition load (h : heap) (b i : nat) : outcome elem :=
  do x <- get h b; match nth_error (b_cells x) i with Some e => Ok e | None => UB end.

(** variant.h 128-145 operator= on cell [i]: the parameter is a copy of the
    operand; the old value is discarded, the new one copied, the parameter destroyed. *)
Definition assign_cell (h : heap) (b i : nat) (e : elem) : outcome heap :=
  do h <- copy h e;
  do old <- load h b i;
  do h <- store h b i Nil;
  do h <- drop h (owned old);
  do h <- copy h e;
  do h <- store h b i e;
  drop h (owned e).

(** array.h 597-615 resize: [new Element[n]] makes cells of nothing; assigning to
    such a cell is a copy.  The old cells are destroyed. *)
Definition round8 (n : nat) : nat := match n with O => O | S m => m / 8 * 8 + 8 end.
Definition grow (alloc minimum : nat) : nat :=
  max (round8 minimum) (match alloc with O => O | _ => alloc * 3 / 2 / 16 * 16 + 16 end).
Definition padded (n : nat) (l : list elem) : list elem := l ++ repeat Nil (n - length l).
Definition resize (h : heap) (b minimum : nat) : outcome heap :=
  do x <- get h b;
  if (minimum <=? length (b_cells x))%nat then Ok h
  else
    let l := firstn (b_num x) (b_cells x) in
    do h <- copies h (flat_map owned l);
    do x1 <- get h b;
    drop (set_body h b (mkbody (b_refs x1) (b_num x1) (padded (grow (length (b_cells x)) minimum) l))) (kids x).

(** array.h 543-563 insert: move up from the end, then assign the new elements. *)
Fixpoint move_up (k : nat) (h : heap) (b pos n : nat) : outcome heap :=
  match k with
  | O => Ok h
  | S k => do e <- load h b (pos + k); do h <- assign_cell h b (pos + k + n) e; move_up k h b pos n
  end.
Fixpoint fill (h : heap) (b pos : nat) (es : list elem) : outcome heap :=
  match es with
  | [] => Ok h
  | e :: es => do h <- assign_cell h b pos e; fill h b (S pos) es
  end.
Definition set_num (h : heap) (b n : nat) : outcome heap :=
  do x <- get h b; Ok (set_body h b (mkbody (b_refs x) n (b_cells x))).
Definition body_insert (h : heap) (b pos : nat) (es : list elem) : outcome heap :=
  do x <- get h b;
  cassert (b_refs x <=? 1)%nat
    (match es with
     | [] => Ok h
     | _ =>
       cassert (pos <=? b_num x)%nat
         (do h <- resize h b (b_num x + length es);
          do h <- move_up (b_num x - pos) h b pos (length es);
          do h <- fill h b pos es;
          set_num h b (b_num x + length es))
     end).
(** array.h 564-580 remove: move down; the cells at the end keep their values. *)
Fixpoint move_down (k : nat) (h : heap) (b i n : nat) : outcome heap :=
  match k with
  | O => Ok h
  | S k => do e <- load h b (i + n); do h <- assign_cell h b i e; move_down k h b (S i) n
  end.
Definition body_remove (h : heap) (b pos n : nat) : outcome heap :=
  do x <- get h b;
  cassert ((b_refs x <=? 1)%nat && (pos <? b_num x)%nat)
    (do h <- move_down (b_num x - n - pos) h b pos n; set_num h b (b_num x - n)).

(** A new body with one reference to it: array.h 509-530 (copying). *)
Definition new_body (h : heap) (alloc : nat) (l : list elem) : heap * nat :=
  (h ++ [Some (mkbody 1 (length l) (padded (round8 alloc) l))], length h).
(** The elements of an array, in its storage. *)
Definition view (h : heap) (s : slice) : outcome (list elem) :=
  match s_body s with
  | None => Ok []
  | Some b => do x <- get h b; Ok (firstn (s_len s) (skipn (s_off s) (b_cells x)))
  end.
(** array.h 449-458 Unshare *)
Definition unshare (h : heap) (s : slice) (extra : nat) : outcome (heap * nat * slice) :=
  match s_body s with
  | None => let '(h, b) := new_body h extra [] in Ok (h, b, mkslice (Some b) 0 (s_len s))
  | Some b =>
    do x <- get h b;
    if (b_refs x <=? 1)%nat then Ok (h, b, s)
    else
      do l <- view h s;
      do h <- copies h (flat_map owned l);
      let '(h, b') := new_body h (s_len s + extra) l in
      do h <- drop h [b];
      Ok (h, b', mkslice (Some b') 0 (s_len s))
  end.

(** array.h 75-78 elem_mut: the cell it refers to. *)
Definition elem_mut (h : heap) (s : slice) (i : nat) : outcome (heap * slice * nat * nat) :=
  cassert ((i <? s_len s)%nat && match s_body s with Some _ => true | None => false end)
    (do r <- unshare h s 0;
     let '(h, b, s) := r in Ok (h, s, b, (s_off s + i)%nat)).

(** [a.push(Variant(y))], array.h 228-237 *)
Definition push (h : heap) (s : slice) (e : elem) : outcome (heap * slice) :=
  do h <- copy h e;
  do r <- unshare h s 1;
  let '(h, b, s) := r in
  do h <- body_insert h b (s_len s) [e];
  do h <- drop h (owned e);
  Ok (h, mkslice (s_body s) (s_off s) (S (s_len s))).
(** [a.set(i, Variant(y))], array.h 187-191 *)
Definition set (h : heap) (s : slice) (i : nat) (e : elem) : outcome (heap * slice) :=
  do h <- copy h e;
  do r <- elem_mut h s i;
  let '(h, s, b, c) := r in
  do h <- assign_cell h b c e;
  do h <- drop h (owned e);
  Ok (h, s).
(** [a.elem_mut(i) = y], the left operand first: C++11 leaves that order to the compiler. *)
Definition set_left (h : heap) (s : slice) (i : nat) (y : heap -> slice -> outcome elem) : outcome (heap * slice) :=
  do r <- elem_mut h s i;
  let '(h, s, b, c) := r in
  do e <- y h s;
  do h <- assign_cell h b c e;
  Ok (h, s).
(** [a.elem_mut(i).as_int() = z], variant.h 157: any other type asserts. *)
Definition set_num_elem (h : heap) (s : slice) (i : nat) (z : Z) : outcome (heap * slice) :=
  do r <- elem_mut h s i;
  let '(h, s, b, c) := r in
  do e <- load h b c;
  match e with
  | Num _ => do h <- store h b c (Num z); Ok (h, s)
  | _ => Abort
  end.
(** [a.insert(pos, b)], array.h 246-277 *)
Definition opt_eqb (a b : option nat) : bool :=
  match a, b with Some a, Some b => Nat.eqb a b | None, None => true | _, _ => false end.
Definition insert (h : heap) (s : slice) (pos : nat) (t : slice) : outcome (heap * slice) :=
  if opt_eqb (s_body s) (s_body t) && Nat.eqb pos (s_len s) && Nat.eqb (s_off s + pos) (s_off t)
  then Ok (h, mkslice (s_body s) (s_off s) (s_len s + s_len t))
  else if opt_eqb (s_body s) (s_body t) && Nat.eqb pos 0 && Nat.eqb (s_off t + s_len t) (s_off s)
  then Ok (h, mkslice (s_body s) (s_off s - s_len t) (s_len s + s_len t))
  else
    do r <- unshare h s (s_len t);
    let '(h, b, s) := r in
    do l <- view h t;
    do h <- body_insert h b pos l;
    Ok (h, mkslice (s_body s) (s_off s) (s_len s + s_len t)).
(** [a.remove(at, n)], array.h 192-217 *)
Definition remove (h : heap) (s : slice) (pos n : nat) : outcome (heap * slice) :=
  cassert (pos + n <=? s_len s)%nat
    (if Nat.eqb pos (s_len s) || Nat.eqb n 0 then Ok (h, s)
     else if Nat.eqb (pos + n) (s_len s) then Ok (h, mkslice (s_body s) (s_off s) (s_len s - n))
     else if Nat.eqb pos 0 then Ok (h, mkslice (s_body s) (s_off s + n) (s_len s - n))
     else
       do r <- unshare h s 0;
       let '(h, b, s) := r in
       do h <- body_remove h b pos n;
       Ok (h, mkslice (s_body s) (s_off s) (s_len s - n))).
(** [a.slice(at, n)], array.h 116-135, 430-435 *)
Definition cut (h : heap) (s : slice) (pos n : nat) : outcome (heap * slice) :=
  if (s_len s <=? pos)%nat || Nat.eqb n 0 then Ok (h, mkslice None 0 0)
  else
    let n := min n (s_len s - pos) in
    match s_body s with
    | None => UB
    | Some b =>
      do x <- get h b;
      cassert (s_off s + pos + n <? b_num x)%nat
        (do h <- add_ref h b; Ok (h, mkslice (Some b) (s_off s + pos) n))
    end.

(** ** Programs *)
Inductive init :=
| INil                            (* Variant() *)
| INum (z : Z)                    (* Variant(z) *)
| IEmpty                          (* VariantArray() *)
| IArr (ys : list nat)            (* VariantArray of copies of variables, array.h 39-46 *)
| ICopy (y : nat)
| IElem (y i : nat)               (* Variant(y[i]), array.h 63-67 *)
| ISlice (y pos n : nat).         (* y.slice(pos, n) *)
Inductive op :=
| New (x : nat) (i : init)
| Assign (x y : nat)              (* x = y *)
| Delete (x : nat)
| Push (x y : nat)                (* x.push(Variant(y)) *)
| Set_ (x i y : nat)              (* x.set(i, Variant(y)) *)
| SetLeft (x i y : nat)           (* x.elem_mut(i) = y, the left side first *)
| SetNum (x i : nat) (z : Z)      (* x.elem_mut(i).as_int() = z *)
| Insert (x pos y : nat)          (* x.insert(pos, y) *)
| Remove (x pos n : nat)          (* x.remove(pos, n) *)
| Pull (x : nat).                 (* x.pull(), array.h 70-71 *)

Record state := mkstate { st_heap : heap; st_vars : list (option elem) }.
(** A variable in scope; anything else is not a program. *)
Definition var (st : state) (x : nat) : outcome elem :=
  match nth_error (st_vars st) x with Some (Some e) => Ok e | _ => Abort end.
Definition free_var (st : state) (x : nat) : bool :=
  match nth_error (st_vars st) x with Some None => true | _ => false end.
Fixpoint vars (st : state) (xs : list nat) : outcome (list elem) :=
  match xs with
  | [] => Ok []
  | x :: xs => do e <- var st x; do es <- vars st xs; Ok (e :: es)
  end.
(** must_be(VarArray) *)
Definition arr (e : elem) : outcome slice := match e with Arr s => Ok s | _ => Abort end.

Definition element (h : heap) (s : slice) (i : nat) : outcome elem :=
  cassert (i <? s_len s)%nat
    (do l <- view h s; match nth_error l i with Some e => Ok e | None => UB end).

Definition construct (st : state) (i : init) : outcome (heap * elem) :=
  let h := st_heap st in
  match i with
  | INil => Ok (h, Nil)
  | INum z => Ok (h, Num z)
  | IEmpty => Ok (h, Arr (mkslice None 0 0))
  | IArr ys =>
    do es <- vars st ys;
    do h <- copies h (flat_map owned es);
    let '(h, b) := new_body h (length es) es in
    Ok (h, Arr (mkslice (Some b) 0 (length es)))
  | ICopy y => do e <- var st y; do h <- copy h e; Ok (h, e)
  | IElem y i => do e <- var st y; do s <- arr e; do e <- element h s i; do h <- copy h e; Ok (h, e)
  | ISlice y pos n => do e <- var st y; do s <- arr e; do r <- cut h s pos n; Ok (fst r, Arr (snd r))
  end.

(** An operation on the array [x]. *)
Definition on_array (st : state) (x : nat) (k : slice -> outcome (heap * slice)) : outcome state :=
  do e <- var st x; do s <- arr e; do r <- k s;
  Ok (mkstate (fst r) (upd (st_vars st) x (Some (Arr (snd r))))).

Definition step (st : state) (o : op) : outcome state :=
  let h := st_heap st in
  match o with
  | New x i =>
    if free_var st x then
      do r <- construct st i; Ok (mkstate (fst r) (upd (st_vars st) x (Some (snd r))))
    else Abort
  | Assign x y =>
    do v <- var st x; do w <- var st y;
    do h <- copy h w; do h <- drop h (owned v);
    Ok (mkstate h (upd (st_vars st) x (Some w)))
  | Delete x => do v <- var st x; do h <- drop h (owned v); Ok (mkstate h (upd (st_vars st) x None))
  | Push x y => do e <- var st y; on_array st x (fun s => push h s e)
  | Set_ x i y => do e <- var st y; on_array st x (fun s => set h s i e)
  | SetLeft x i y =>
    do e <- var st y;
    on_array st x (fun s => set_left h s i (fun h s => Ok (if Nat.eqb x y then Arr s else e)))
  | SetNum x i z => on_array st x (fun s => set_num_elem h s i z)
  | Insert x pos y => do e <- var st y; do t <- arr e; on_array st x (fun s => insert h s pos t)
  | Remove x pos n => on_array st x (fun s => remove h s pos n)
  | Pull x => on_array st x (fun s => cassert (0 <? s_len s)%nat (Ok (h, mkslice (s_body s) (s_off s) (s_len s - 1))))
  end.
Fixpoint run (st : state) (os : list op) : outcome state :=
  match os with
  | [] => Ok st
  | o :: os => do st <- step st o; run st os
  end.
(** [n] variables, none in scope yet. *)
Definition start (n : nat) : state := mkstate [] (repeat None n).
