(** Model of Array<E> (include/array.h): slices sharing reference counted
    bodies on a heap.  Index is uint32_t (array.h 20-21).  The element type is a
    parameter.  A cell of allocated storage that was never written is [None];
    reading it, reading or writing outside the allocation, or using a body
    that has been deleted is [UB].  Single threaded here; C14/C46 cover the
    counting under threads.  Not modelled: members that do not compile when
    instantiated (reverse, unshift, append(ArrayR), operator+(ArrayR),
    operator+=(ArrayR), last_ref, elem_ref), and references into the array
    passed back as arguments (an element argument is a value here;
    ElemRefModel has the references). *)
From Verif Require Import Base RefModel.

Section Arr.
Context {A : Type}.

(** ArrayBody (array.h 494-626): start[], num_elements, num_alloc, ref_count.
    [b_static]: constructed with copy=false over borrowed data (array.h 524-529),
    which takes one reference of its own and has num_alloc 0. *)
Record body := { b_data : list (option A); b_num : Z; b_alloc : Z; b_refs : Z; b_static : bool }.
(** The heap: a deleted body is [None]. *)
Definition heap := list (option body).
(** ArrayR (array.h 453-456). *)
Record slice := { s_body : option nat; s_off : Z; s_num : Z }.
Definition null_slice : slice := {| s_body := None; s_off := 0; s_num := 0 |}.   (* array.h 35-36 *)

Definition hget (h : heap) (b : nat) : outcome body :=
  match nth_error h b with Some (Some x) => Ok x | _ => UB end.
Definition hput (h : heap) (b : nat) (x : body) : heap := upd h b (Some x).

(** RefCounted::AddRef / Release through a Ref<Body> (refcount.h 16-17). *)
Definition set_refs (x : body) (n : Z) : body :=
  {| b_data := b_data x; b_num := b_num x; b_alloc := b_alloc x; b_refs := n; b_static := b_static x |}.
Definition addref (h : heap) (o : option nat) : outcome heap :=
  match o with
  | None => Ok h
  | Some b => do x <- hget h b; Ok (hput h b (set_refs x (b_refs x + 1)))
  end.
Definition release (h : heap) (o : option nat) : outcome heap :=
  match o with
  | None => Ok h
  | Some b =>
      do x <- hget h b;
      cassert (b_refs x >? 0)
        (if b_refs x - 1 =? 0 then Ok (upd h b None)       (* delete this *)
         else Ok (hput h b (set_refs x (b_refs x - 1))))
  end.

(** Cells of an allocation. *)
Definition cell_rd (d : list (option A)) (i : Z) : outcome A :=
  do c <- rdZ d i; match c with Some a => Ok a | None => UB end.
Definition cell_wr (d : list (option A)) (i : Z) (a : A) : outcome (list (option A)) :=
  if (0 <=? i) && (i <? Z.of_nat (length d)) then Ok (upd d (Z.to_nat i) (Some a)) else UB.

(** for (i = lo; i < lo+k; i++) dst[i+dd] = src[i+ds]  (array.h 520-521, 610-611) *)
Fixpoint copy_up (k : nat) (i : Z) (src : Z -> outcome A) (off : Z) (dst : list (option A)) : outcome (list (option A)) :=
  match k with
  | O => Ok dst
  | S k' => do a <- src i; do dst' <- cell_wr dst (off + i) a; copy_up k' (i + 1) src off dst'
  end.

(** resize (array.h 597-615).  Returns the body and whether storage moved.
    [minimum] is a 64-bit size_t, num_alloc 32 bits. *)
Definition resize (x : body) (minimum : Z) : outcome (body * bool) :=
  if minimum <=? b_alloc x then Ok (x, false)
  else
    let minimum := u64 (Z.lor (u64 (minimum - 1)) 7 + 1) in
    let alloc1 := if b_alloc x =? 0 then b_alloc x
                  else u32 (Z.lor (u32 (b_alloc x * 3) / 2) 15 + 1) in
    let alloc2 := if alloc1 <? minimum then u32 minimum else alloc1 in
    do newdata <- copy_up (Z.to_nat (b_num x)) 0 (cell_rd (b_data x)) 0 (repeat None (Z.to_nat alloc2));
    Ok ({| b_data := newdata; b_num := b_num x; b_alloc := alloc2; b_refs := b_refs x; b_static := b_static x |}, true).

(** ArrayBody(data, copy=true, length, allocate) (array.h 509-523). *)
Definition new_body (src : Z -> outcome A) (length allocate : Z) : outcome body :=
  let allocate := if allocate <? length then length else allocate in
  do r <- resize {| b_data := []; b_num := 0; b_alloc := 0; b_refs := 0; b_static := false |} allocate;
  do d <- copy_up (Z.to_nat length) 0 src 0 (b_data (fst r));
  Ok {| b_data := d; b_num := length; b_alloc := b_alloc (fst r); b_refs := 0; b_static := false |}.

(** for (i = num_elements+num; i && i > pos+num; --i) start[i-1] = start[i-1-num]
    (array.h 556-558); the recursion is on i. *)
Fixpoint shift_up (i : nat) (pos num : Z) (d : list (option A)) : outcome (list (option A)) :=
  match i with
  | O => Ok d
  | S j =>
      if Z.of_nat i >? u32 (pos + num) then
        do a <- cell_rd d (Z.of_nat i - 1 - num);
        do d' <- cell_wr d (Z.of_nat i - 1) a;
        shift_up j pos num d'
      else Ok d
  end.

(** Where the elements to be inserted live: outside this body, or inside the
    very same body (array.h 272 when an array is inserted into itself). *)
Inductive source :=
| Ext (src : Z -> outcome A)
| Self (off : Z).

(** for (i = 0; i < num; i++) start[pos+i] = elements[i]  (array.h 559-561) *)
Fixpoint copy_in (k : nat) (i pos : Z) (src : source) (d : list (option A)) : outcome (list (option A)) :=
  match k with
  | O => Ok d
  | S k' =>
      do a <- match src with Ext f => f i | Self off => cell_rd d (off + i) end;
      do d' <- cell_wr d (u32 (pos + i)) a;
      copy_in k' (i + 1) pos src d'
  end.

(** ArrayBody::insert (array.h 543-563). *)
Definition body_insert (x : body) (pos : Z) (src : source) (num : Z) : outcome body :=
  cassert (b_refs x <=? 1)
    (if num <=? 0 then Ok x
     else cassert (pos <=? b_num x)
       (let new_size := u32 (b_num x + num) in
        cassert (new_size >=? b_num x)
          (do r <- resize x new_size;
           match src, snd r with
           | Self _, true => UB                    (* the old storage was deleted *)
           | _, _ =>
               do d1 <- (if b_num x >? pos
                         then shift_up (Z.to_nat (u32 (b_num x + num))) pos num (b_data (fst r))
                         else Ok (b_data (fst r)));
               do d2 <- copy_in (Z.to_nat num) 0 pos src d1;
               Ok {| b_data := d2; b_num := u32 (b_num x + num); b_alloc := b_alloc (fst r);
                     b_refs := b_refs x; b_static := b_static x |}
           end))).

(** for (i = at; i < num_elements-len; i++) start[i] = start[i+len]  (array.h 575-576) *)
Fixpoint shift_down (k : nat) (i len : Z) (d : list (option A)) : outcome (list (option A)) :=
  match k with
  | O => Ok d
  | S k' => do a <- cell_rd d (i + len); do d' <- cell_wr d i a; shift_down k' (i + 1) len d'
  end.

(** ArrayBody::remove (array.h 564-579). *)
Definition body_remove (x : body) (at_ len : Z) : outcome body :=
  cassert (b_refs x <=? 1)
    (if len =? 0 then Ok x
     else cassert (len >=? -1)
       (cassert (at_ <? b_num x)
          (let len := if len =? -1 then b_num x - at_ else len in
           let stop := u32 (b_num x - len) in
           do d <- shift_down (Z.to_nat (stop - at_)) at_ len (b_data x);
           Ok {| b_data := d; b_num := stop; b_alloc := b_alloc x; b_refs := b_refs x; b_static := b_static x |}))).

(** Elements as seen through a slice: asElements()[i] (array.h 81-82). *)
Definition elem_at (h : heap) (s : slice) (i : Z) : outcome A :=
  match s_body s with
  | None => UB
  | Some b => do x <- hget h b; cell_rd (b_data x) (s_off s + i)
  end.

(** Unshare(extra) (array.h 458-466). *)
Definition unshare (h : heap) (s : slice) (extra : Z) : outcome (heap * slice) :=
  let copy :=
    do x <- new_body (elem_at h s) (s_num s) (u32 (s_num s + extra));
    let b := length h in
    do h1 <- addref (h ++ [Some x]) (Some b);
    do h2 <- release h1 (s_body s);
    Ok (h2, {| s_body := Some b; s_off := 0; s_num := s_num s |}) in
  match s_body s with
  | Some b => do x <- hget h b; if b_refs x <=? 1 then Ok (h, s) else copy
  | None => copy
  end.

(** ** Operations on one slice: heap and slice in, heap and slice out *)

(** Array(data, size, allocate) (array.h 39-46). *)
Definition make (h : heap) (l : list A) (allocate : Z) : outcome (heap * slice) :=
  let size := Z.of_nat (length l) in
  do x <- new_body (fun i => rdZ l i) size (if allocate <? size then size else allocate);
  do h1 <- addref (h ++ [Some x]) (Some (length h));
  Ok (h1, {| s_body := Some (length h); s_off := 0; s_num := size |}).

(** Array(Body* ) over a body with borrowed data (array.h 47-48, 524-529). *)
Definition make_static (h : heap) (l : list A) : outcome (heap * slice) :=
  let x := {| b_data := map Some l; b_num := Z.of_nat (length l); b_alloc := 0; b_refs := 0 + 1; b_static := true |} in
  do h1 <- addref (h ++ [Some x]) (Some (length h));
  Ok (h1, {| s_body := Some (length h); s_off := 0; s_num := Z.of_nat (length l) |}).

(** Copy construction (array.h 37-38). *)
Definition copy (h : heap) (s : slice) : outcome (heap * slice) :=
  do h1 <- addref h (s_body s); Ok (h1, s).

(** operator[] / elem (array.h 63-67); the argument is a signed int. *)
Definition elem (h : heap) (s : slice) (i : Z) : outcome A :=
  cassert ((0 <=? i) && (i <? s_num s) && match s_body s with Some _ => true | None => false end)
    (elem_at h s i).

(** set via elem_mut (array.h 75-78, 187-191). *)
Definition set (h : heap) (s : slice) (i : Z) (a : A) : outcome (heap * slice) :=
  cassert ((0 <=? i) && (i <? s_num s) && match s_body s with Some _ => true | None => false end)
    (do r <- unshare h s 0;
     let (h1, s1) := r : heap * slice in
     match s_body s1 with
     | None => UB
     | Some b =>
         do x <- hget h1 b;
         do d <- cell_wr (b_data x) (s_off s1 + i) a;
         Ok (hput h1 b {| b_data := d; b_num := b_num x; b_alloc := b_alloc x; b_refs := b_refs x; b_static := b_static x |}, s1)
     end).

(** ArrayR(body, offs, len) (array.h 444-449). *)
Definition mk_slice (h : heap) (b : option nat) (offs len : Z) : outcome (heap * slice) :=
  do h1 <- addref h b;
  match b with
  | None => UB                                       (* body->length() on null *)
  | Some bi =>
      do x <- hget h1 bi;
      cassert (offs <? b_num x)
        (cassert (u32 (offs + len) <? b_num x)
          (Ok (h1, {| s_body := b; s_off := offs; s_num := len |})))
  end.

(** slice (array.h 116-131); [at_] unsigned, [len] signed. *)
Definition slice_op (h : heap) (s : slice) (at_ len : Z) : outcome (heap * slice) :=
  cassert (len >=? -1)
    (if (at_ >=? s_num s) || (len =? 0) then Ok (h, null_slice)
     else
       let len := if len =? -1 then s_num s - at_
                  else if len >? s_num s - at_ then s_num s - at_ else len in
       mk_slice h (s_body s) (u32 (s_off s + at_)) len).
(** head, tail, shorter (array.h 132-137); Index arguments. *)
Definition head (h : heap) (s : slice) (n : Z) := slice_op h s 0 (s32 n).
Definition tail (h : heap) (s : slice) (n : Z) := slice_op h s (u32 (s_num s - n)) (s32 n).
Definition shorter (h : heap) (s : slice) (n : Z) := slice_op h s 0 (s32 (s_num s - n)).

(** clear (array.h 177) *)
Definition clear (h : heap) (s : slice) : outcome (heap * slice) :=
  Ok (h, {| s_body := s_body s; s_off := s_off s; s_num := 0 |}).

(** pull (array.h 72-73) *)
Definition pull (h : heap) (s : slice) : outcome (heap * slice * A) :=
  cassert (s_num s >? 0)
    (do e <- elem h s (s_num s - 1);
     Ok (h, {| s_body := s_body s; s_off := s_off s; s_num := s_num s - 1 |}, e)).

(** remove (array.h 192-216); [at_] unsigned, [len] signed int. *)
Definition remove (h : heap) (s : slice) (at_ len : Z) : outcome (heap * slice) :=
  let n := s_num s in
  let len := if len =? -1 then s32 (n - at_) else len in
  cassert (u32 (n - len) >=? at_)
    (if (at_ =? n) || (len =? 0) then Ok (h, s)
     else if u32 (at_ + len) =? n then Ok (h, {| s_body := s_body s; s_off := s_off s; s_num := u32 (n - len) |})
     else if at_ =? 0 then Ok (h, {| s_body := s_body s; s_off := u32 (s_off s + len); s_num := u32 (n - len) |})
     else
       do r <- unshare h s 0;
       let (h1, s1) := r : heap * slice in
       match s_body s1 with
       | None => UB
       | Some b =>
           do x <- hget h1 b;
           do x' <- body_remove x at_ len;
           Ok (hput h1 b x', {| s_body := s_body s1; s_off := s_off s1; s_num := u32 (n - len) |})
       end).

(** delete_at, shift (array.h 217-222, 244-245); delete_at's argument is an Index
    converted to int for operator[]. *)
Definition delete_at (h : heap) (s : slice) (at_ : Z) : outcome (heap * slice * A) :=
  do e <- elem h s (s32 at_);
  do r <- remove h s at_ 1;
  Ok (r, e).
Definition shift (h : heap) (s : slice) : outcome (heap * slice * A) :=
  cassert (s_num s >? 0) (delete_at h s 0).

(** operator+=(Element), push, << , append(Element) (array.h 231-241, 278-279). *)
Definition push (h : heap) (s : slice) (a : A) : outcome (heap * slice) :=
  do r <- unshare h s 1;
  let (h1, s1) := r : heap * slice in
  match s_body s1 with
  | None => UB
  | Some b =>
      do x <- hget h1 b;
      do x' <- body_insert x (s_num s1) (Ext (fun i => rdZ [a] i)) 1;
      Ok (hput h1 b x', {| s_body := s_body s1; s_off := s_off s1; s_num := u32 (s_num s1 + 1) |})
  end.

Definition same_body (a b : option nat) : bool :=
  match a, b with
  | None, None => true
  | Some x, Some y => Nat.eqb x y
  | _, _ => false
  end.

(** insert(pos, addend) (array.h 248-275).  [self]: addend is this very array. *)
Definition insert (h : heap) (s : slice) (pos : Z) (w : slice) (self : bool) : outcome (heap * slice) :=
  if same_body (s_body s) (s_body w) && (pos =? s_num s) && (u32 (s_off s + pos) =? s_off w) then
    Ok (h, {| s_body := s_body s; s_off := s_off s; s_num := u32 (s_num s + s_num w) |})
  else if same_body (s_body s) (s_body w) && (pos =? 0) && (u32 (s_off w + s_num w) =? s_off s) then
    Ok (h, {| s_body := s_body s; s_off := u32 (s_off s - s_num w); s_num := u32 (s_num s + s_num w) |})
  else
    do r <- unshare h s (s_num w);
    let (h1, s1) := r : heap * slice in
    match s_body s1 with
    | None => UB
    | Some b =>
        do x <- hget h1 b;
        do x' <- body_insert x pos (if self then Self (s_off s1) else Ext (elem_at h1 w)) (s_num w);
        Ok (hput h1 b x', {| s_body := s_body s1; s_off := s_off s1; s_num := u32 (s_num s1 + s_num w) |})
    end.

(** operator+(Element) (array.h 170-175). *)
Definition plus (h : heap) (s : slice) (a : A) : outcome (heap * slice) :=
  do x <- new_body (elem_at h s) (s_num s) (u32 (s_num s + 1));
  do h1 <- addref (h ++ [Some x]) (Some (length h));
  push h1 {| s_body := Some (length h); s_off := 0; s_num := s_num s |} a.

(** drop (array.h 178-183): copies, removes from the copy, returns a copy of it. *)
Definition drop (h : heap) (s : slice) (n : Z) : outcome (heap * slice) :=
  cassert (s_num s >=? n)
    (do r <- copy h s;
     let (h1, s1) := r : heap * slice in
     do r2 <- remove h1 s1 0 (s32 n);
     let (h2, s2) := r2 : heap * slice in
     do r3 <- copy h2 s2;
     let (h3, s3) := r3 : heap * slice in
     do h4 <- release h3 (s_body s2);
     Ok (h4, s3)).

(** ** Read-only operations *)

(** compare (array.h 89-103) for an element order [ltb] (operator< ). *)
Fixpoint compare_loop (k : nat) (i : Z) (ltb : A -> A -> bool) (h : heap) (s w : slice) : outcome (option Z * Z) :=
  match k with
  | O => Ok (None, i)
  | S k' =>
      if (i <? s_num s) && (i <? s_num w) then
        do a <- elem h s i; do b <- elem h w i;
        if ltb a b then Ok (Some (-1), i)
        else if ltb b a then Ok (Some 1, i)
        else compare_loop k' (i + 1) ltb h s w
      else Ok (None, i)
  end.
Definition compare (ltb : A -> A -> bool) (h : heap) (s w : slice) : outcome Z :=
  do r <- compare_loop (S (Z.to_nat (s_num s))) 0 ltb h s w;
  match fst r with
  | Some c => Ok c
  | None => if snd r <? s_num w then Ok (-1) else Ok 0
  end.

(** operator== (array.h 104-112) *)
Fixpoint equal_loop (k : nat) (i : Z) (eqb : A -> A -> bool) (h : heap) (s w : slice) : outcome bool :=
  match k with
  | O => Ok true
  | S k' =>
      if (i <? s_num s) && (i <? s_num w) then
        do a <- elem h s i; do b <- elem h w i;
        if eqb a b then equal_loop k' (i + 1) eqb h s w else Ok false
      else Ok true
  end.
Definition equal (eqb : A -> A -> bool) (h : heap) (s w : slice) : outcome bool :=
  if negb (s_num s =? s_num w) then Ok false
  else equal_loop (S (Z.to_nat (s_num s))) 0 eqb h s w.

(** body->data() of a slice: null body is UB for every helper that starts with it. *)
Definition with_body {B} (s : slice) (k : outcome B) : outcome B :=
  match s_body s with None => UB | Some _ => k end.

(** find (array.h 140-148, 364-372): element comparison as a predicate. *)
Fixpoint find_loop (k : nat) (i : Z) (p : A -> bool) (h : heap) (s : slice) : outcome Z :=
  match k with
  | O => Ok (-1)
  | S k' => if i <? s_num s then
              do a <- elem_at h s i; if p a then Ok i else find_loop k' (i + 1) p h s
            else Ok (-1)
  end.
Definition find (p : A -> bool) (h : heap) (s : slice) (after : Z) : outcome Z :=
  with_body s (let i := if after <? 0 then 0 else after + 1 in
               find_loop (S (Z.to_nat (s_num s - i))) i p h s).

(** rfind (array.h 149-157, 373-381): from before-1 down, while bp > dp. *)
Fixpoint rfind_loop (i : nat) (p : A -> bool) (h : heap) (s : slice) : outcome Z :=
  match i with
  | O => Ok (-1)
  | S j => do a <- elem_at h s (Z.of_nat i); if p a then Ok (Z.of_nat i) else rfind_loop j p h s
  end.
Definition rfind (p : A -> bool) (h : heap) (s : slice) (before : Z) : outcome Z :=
  with_body s (rfind_loop (Z.to_nat ((if before <? 0 then s_num s else before) - 1)) p h s).

(** The loop shared by each, all, any, one, select, map, inject (array.h
    321-361, 384-412): visits the elements in order, folding with [f]. *)
Fixpoint visit {B} (k : nat) (i : Z) (f : B -> A -> B) (acc : B) (h : heap) (s : slice) : outcome B :=
  match k with
  | O => Ok acc
  | S k' => do a <- elem_at h s i; visit k' (i + 1) f (f acc a) h s
  end.
Definition inject {B} (start : B) (f : B -> A -> B) (h : heap) (s : slice) : outcome B :=
  with_body s (visit (Z.to_nat (s_num s)) 0 f start h s).

(** all / any / one (array.h 330-361): stop at the first deciding element. *)
Fixpoint all_loop (k : nat) (i : Z) (p : A -> bool) (h : heap) (s : slice) : outcome bool :=
  match k with
  | O => Ok true
  | S k' => do a <- elem_at h s i; if p a then all_loop k' (i + 1) p h s else Ok false
  end.
Fixpoint any_loop (k : nat) (i : Z) (p : A -> bool) (h : heap) (s : slice) : outcome bool :=
  match k with
  | O => Ok false
  | S k' => do a <- elem_at h s i; if p a then Ok true else any_loop k' (i + 1) p h s
  end.
Fixpoint one_loop (k : nat) (i : Z) (found : bool) (p : A -> bool) (h : heap) (s : slice) : outcome bool :=
  match k with
  | O => Ok found
  | S k' => do a <- elem_at h s i;
            if p a then (if found then Ok false else one_loop k' (i + 1) true p h s)
            else one_loop k' (i + 1) found p h s
  end.
Definition all (p : A -> bool) h s := with_body s (all_loop (Z.to_nat (s_num s)) 0 p h s).
Definition any (p : A -> bool) h s := with_body s (any_loop (Z.to_nat (s_num s)) 0 p h s).
Definition one (p : A -> bool) h s := with_body s (one_loop (Z.to_nat (s_num s)) 0 false p h s).

(** select / map (array.h 384-405): append to a result array, for each element
    in order.  [f] gives the element to append, if any.  The result has the same
    element type here. *)
Fixpoint collect_loop (k : nat) (i : Z) (f : A -> option A) (h : heap) (s : slice) (sel : slice) : outcome (heap * slice) :=
  match k with
  | O => Ok (h, sel)
  | S k' =>
      do a <- elem_at h s i;
      match f a with
      | None => collect_loop k' (i + 1) f h s sel
      | Some b =>
          do r <- push h sel b;
          let (h1, sel1) := r : heap * slice in collect_loop k' (i + 1) f h1 s sel1
      end
  end.
Definition select (p : A -> bool) (h : heap) (s : slice) : outcome (heap * slice) :=
  with_body s (collect_loop (Z.to_nat (s_num s)) 0 (fun a => if p a then Some a else None) h s null_slice).
Definition map_ (f : A -> A) (h : heap) (s : slice) : outcome (heap * slice) :=
  do r <- make h [] (s_num s);
  let (h1, out) := r : heap * slice in
  with_body s (collect_loop (Z.to_nat (s_num s)) 0 (fun a => Some (f a)) h1 s out).

(** bsearch (array.h 413-430); the fuel is the number of iterations allowed,
    [None] when it runs out. *)
Fixpoint bsearch_loop (fuel : nat) (l r : Z) (c : A -> Z) (h : heap) (s : slice) : outcome (option Z) :=
  match fuel with
  | O => Ok None
  | S f =>
      if r >? l then
        let m := u32 (l + u32 (r - l + 1) / 2) in
        do a <- elem_at h s m;
        if c a =? 0 then Ok (Some m)
        else if c a >? 0 then bsearch_loop f l (u32 (m - 1)) c h s
        else bsearch_loop f (u32 (m + 1)) r c h s
      else Ok (Some (-1))
  end.

(** delete_if (array.h 295-318), unshared body: nothing is ever moved, and the
    final test [bp < dp] is never true because bp ends at or after dp. *)
Fixpoint delete_if_loop (k : nat) (i bp : Z) (p : A -> bool) (h : heap) (s : slice) : outcome Z :=
  match k with
  | O => Ok bp
  | S k' => do a <- elem_at h s i;
            delete_if_loop k' (i + 1) ((if p a then bp - 1 else bp) + 1) p h s
  end.
Definition delete_if_unshared (p : A -> bool) (h : heap) (s : slice) : outcome (heap * slice) :=
  if s_num s =? 0 then Ok (h, s)
  else do bp <- with_body s (delete_if_loop (Z.to_nat (s_num s)) 0 0 p h s);
       if bp <? 0 then Ok (h, {| s_body := s_body s; s_off := s_off s; s_num := s_num s - (0 - bp) |})
       else Ok (h, s).

(** ** Programs over any number of array variables *)
Record state := { hp : heap; vars : list slice }.

Inductive op :=
| OMake (d : nat) (l : list A) (allocate : Z)      (* d = Array(data, n, allocate) *)
| OStatic (d : nat) (l : list A)                   (* d = Array(static body) *)
| OEmpty (d : nat)                                 (* d = Array() *)
| OCopy (d v : nat)                                (* d = v *)
| OSlice (d v : nat) (at_ len : Z)                 (* d = v.slice(at,len) *)
| OHead (d v : nat) (n : Z) | OTail (d v : nat) (n : Z) | OShorter (d v : nat) (n : Z)
| OPlus (d v : nat) (a : A)                        (* d = v + a *)
| ODrop (d v : nat) (n : Z)                        (* d = v.drop(n) *)
| OSet (v : nat) (i : Z) (a : A)
| OPush (v : nat) (a : A)
| OInsert (v : nat) (pos : Z) (w : nat)            (* v.insert(pos, w) *)
| ORemove (v : nat) (at_ len : Z)
| ODeleteAt (v : nat) (at_ : Z)
| OShift (v : nat)
| OPull (v : nat)
| OClear (v : nat).

(** The only variable an operation assigns. *)
Definition target (o : op) : nat :=
  match o with
  | OMake d _ _ | OStatic d _ | OEmpty d | OCopy d _ | OSlice d _ _ _ | OHead d _ _ | OTail d _ _
  | OShorter d _ _ | OPlus d _ _ | ODrop d _ _ => d
  | OSet v _ _ | OPush v _ | OInsert v _ _ | ORemove v _ _ | ODeleteAt v _ | OShift v | OPull v | OClear v => v
  end.

(** Assigning a temporary to a variable (array.h 49-50, refcount.h 35-46), then
    destroying the temporary. *)
Definition assign (st : state) (d : nat) (r : outcome (heap * slice)) : outcome state :=
  match nth_error (vars st) d with
  | None => Ok st
  | Some old =>
      do p <- r;
      let (h, tmp) := p : heap * slice in
      do h1 <- addref h (s_body tmp);
      do h2 <- release h1 (s_body old);
      do h3 <- release h2 (s_body tmp);
      Ok {| hp := h3; vars := upd (vars st) d tmp |}
  end.
(** Storing the result of a mutating member. *)
Definition store (st : state) (v : nat) (r : outcome (heap * slice)) : outcome state :=
  do p <- r; let (h, s) := p : heap * slice in Ok {| hp := h; vars := upd (vars st) v s |}.

Definition step (st : state) (o : op) : outcome state :=
  let h := hp st in
  let on v k := match nth_error (vars st) v with Some s => k s | None => Ok st end in
  match o with
  | OMake d l al => assign st d (make h l al)
  | OStatic d l => assign st d (make_static h l)
  | OEmpty d => assign st d (Ok (h, null_slice))
  | OCopy d v => on v (fun s => assign st d (copy h s))
  | OSlice d v at_ len => on v (fun s => assign st d (slice_op h s at_ len))
  | OHead d v n => on v (fun s => assign st d (head h s n))
  | OTail d v n => on v (fun s => assign st d (tail h s n))
  | OShorter d v n => on v (fun s => assign st d (shorter h s n))
  | OPlus d v a => on v (fun s => assign st d (plus h s a))
  | ODrop d v n => on v (fun s => assign st d (drop h s n))
  | OSet v i a => on v (fun s => store st v (set h s i a))
  | OPush v a => on v (fun s => store st v (push h s a))
  | OInsert v pos w => on v (fun s => on w (fun sw => store st v (insert h s pos sw (Nat.eqb v w))))
  | ORemove v at_ len => on v (fun s => store st v (remove h s at_ len))
  | ODeleteAt v at_ => on v (fun s => do r <- delete_at h s at_; store st v (Ok (fst r)))
  | OShift v => on v (fun s => do r <- shift h s; store st v (Ok (fst r)))
  | OPull v => on v (fun s => do r <- pull h s; store st v (Ok (fst r)))
  | OClear v => on v (fun s => store st v (clear h s))
  end.

Fixpoint run (st : state) (os : list op) : outcome state :=
  match os with
  | [] => Ok st
  | o :: r => do st' <- step st o; run st' r
  end.

(** [n] empty array variables. *)
Definition init (n : nat) : state := {| hp := []; vars := repeat null_slice n |}.
End Arr.

Arguments body A : clear implicits.
Arguments heap A : clear implicits.
Arguments state A : clear implicits.
Arguments op A : clear implicits.
Arguments source A : clear implicits.
