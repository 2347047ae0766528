(** Model of Variant (include/variant.h): a type tag and a union of numbers
    and reference counted objects (strings, arrays of strings, arrays of
    variants, maps from strings to variants).

    x86-64, little-endian: int has 32 bits, long and long long have 64 bits,
    and u.i is the low half of u.l and u.ll.

    Simplifications.  A string is the list of its characters (StrModel.v models
    StrVal itself; C22 connects the two), and also the empty string
    or array has a body of its own.  The bodies are immutable: the operations modelled here never
    edit a shared or unshared body in place (ArrayModel.v, CowModel.v and
    StrModel.v model the editing operations).  A temporary that takes and drops
    a reference to a body that something else still refers to is left out.
    std::map is modelled by its contract, as in CowModel.v, with the keys in
    lexicographic order (C23). *)
From Verif Require Import Base RefModel CowModel StrFindSpec StrNumProofs.

(** variant.h:32-44 *)
Inductive vtype := TNone | TInteger | TLong | TLongLong | TString | TStrArray | TVarArray | TStrVarMap.

(** A StrRef, StringArray or VariantArray: body, offset and length; a
    StrVariantMap: body only. *)
Record ref := mkref { r_body : nat; r_off : nat; r_len : nat }.

(** variant.h:388-401, the union: its first eight bytes as an unsigned number,
    or an object. *)
Inductive slot := Bits (z : Z) | Obj (r : ref).
Record variant := mkvar { v_type : vtype; v_u : slot }.

Inductive data :=
| DStr (t : list Z)
| DStrs (l : list ref)
| DVars (l : list variant)
| DMap (l : list (ref * variant)).
Record body := mkbody { b_refs : nat; b_data : data }.
Definition heap : Type := list (option body).

(** ** The numbers in the union *)
Definition s64 (x : Z) : Z :=
  let y := x mod 18446744073709551616 in if y <? 9223372036854775808 then y else y - 18446744073709551616.
Definition bits (u : slot) : Z := match u with Bits z => z | Obj _ => 0 end.
Definition get_i (u : slot) : Z := s32 (bits u).          (* u.i *)
Definition get_l (u : slot) : Z := s64 (bits u).          (* u.l, u.ll *)
(** [u.i = i]: the upper half stays.  After an object, the upper half is a part
    of its pointer; it is modelled as zero. *)
Definition set_i (u : slot) (i : Z) : slot := Bits (bits u - u32 (bits u) + u32 i).
Definition set_l (i : Z) : slot := Bits (u64 i).          (* u.l = i, u.ll = i *)
Definition zeroed : slot := Bits 0.                       (* u.zero() *)

(** ** Bodies *)
Definition owned (v : variant) : list nat :=
  match v_type v, v_u v with
  | TNone, _ | TInteger, _ | TLong, _ | TLongLong, _ => []
  | _, Obj r => [r_body r]
  | _, Bits _ => []
  end.
Definition kids (d : data) : list nat :=
  match d with
  | DStr _ => []
  | DStrs l => map r_body l
  | DVars l => flat_map owned l
  | DMap l => flat_map (fun p => r_body (fst p) :: owned (snd p)) l
  end.

Definition get (h : heap) (b : nat) : outcome body :=
  match nth_error h b with Some (Some x) => Ok x | _ => UB end.

(** refcount.h:16 AddRef *)
Definition add_ref (h : heap) (b : nat) : outcome heap :=
  do x <- get h b; Ok (upd h b (Some (mkbody (S (b_refs x)) (b_data x)))).

(** refcount.h:17 Release: the last reference deletes the body, which destroys
    its elements; [todo] are the references still to be released. *)
Fixpoint release (f : nat) (h : heap) (todo : list nat) : outcome heap :=
  match todo with
  | [] => Ok h
  | b :: rest =>
    match f with
    | O => UB
    | S f =>
      do x <- get h b;
      match b_refs x with
      | O => Abort                                        (* assert(ref_count > 0) *)
      | S O => release f (upd h b None) (kids (b_data x) ++ rest)
      | S n => release f (upd h b (Some (mkbody n (b_data x)))) rest
      end
    end
  end.
(** Each step takes one reference away, so these are enough. *)
Definition all_refs (h : heap) : nat :=
  list_sum (map (fun o => match o with Some x => b_refs x | None => 0%nat end) h).
Definition release_all (h : heap) (todo : list nat) : outcome heap := release (S (all_refs h)) h todo.

(** A new body with one reference to it. *)
Definition new_body (h : heap) (d : data) : heap * nat := (h ++ [Some (mkbody 1 d)], length h).

Definition slice {A} (r : ref) (l : list A) : list A := firstn (r_len r) (skipn (r_off r) l).

(** The text of a string. *)
Definition text (h : heap) (r : ref) : outcome (list Z) :=
  do x <- get h (r_body r);
  match b_data x with DStr t => Ok (slice r t) | _ => UB end.
Definition strings (h : heap) (r : ref) : outcome (list ref) :=
  do x <- get h (r_body r);
  match b_data x with DStrs l => Ok (slice r l) | _ => UB end.
Definition variants (h : heap) (r : ref) : outcome (list variant) :=
  do x <- get h (r_body r);
  match b_data x with DVars l => Ok (slice r l) | _ => UB end.
Definition entries (h : heap) (r : ref) : outcome (list (ref * variant)) :=
  do x <- get h (r_body r);
  match b_data x with DMap l => Ok l | _ => UB end.

(** ** Variants *)

(** variant.h:379-385 must_be *)
Definition vtype_eqb (a b : vtype) : bool :=
  match a, b with
  | TNone, TNone | TInteger, TInteger | TLong, TLong | TLongLong, TLongLong | TString, TString
  | TStrArray, TStrArray | TVarArray, TVarArray | TStrVarMap, TStrVarMap => true
  | _, _ => false
  end.
Definition must_be {A} (v : variant) (t : vtype) (k : outcome A) : outcome A :=
  cassert (vtype_eqb (v_type v) t) k.

(** The object of a variant whose type says that it has one. *)
Definition object (v : variant) : outcome ref :=
  match v_u v with Obj r => Ok r | Bits _ => UB end.

(** variant.h:110-125 copy constructor; the object types take one reference. *)
Definition copy (h : heap) (v : variant) : outcome (heap * variant) :=
  match v_type v with
  | TNone => Ok (h, mkvar TNone zeroed)
  | TInteger => Ok (h, mkvar TInteger (set_i zeroed (get_i (v_u v))))
  | TLong => Ok (h, mkvar TLong (set_l (get_l (v_u v))))
  | TLongLong => Ok (h, mkvar TLongLong (set_l (get_l (v_u v))))
  | t =>
    do r <- object v;
    do h <- add_ref h (r_body r);
    Ok (h, mkvar t (Obj r))
  end.
Fixpoint copies (h : heap) (l : list variant) : outcome (heap * list variant) :=
  match l with
  | [] => Ok (h, [])
  | v :: l =>
    do r <- copy h v;
    do rs <- copies (fst r) l;
    Ok (fst rs, snd r :: snd rs)
  end.

(** variant.h:248-266 coerce_none, also the destructor (56-57). *)
Definition coerce_none (h : heap) (v : variant) : outcome (heap * variant) :=
  do h <- release_all h (owned v);
  Ok (h, mkvar TNone zeroed).

(** variant.h:128-145 operator=: the parameter [v] is a copy of the operand, and
    is destroyed at the end.  The case of a string is that of *this = StrVal(buf)
    in coerce, too. *)
Definition assign (h : heap) (this v : variant) : outcome (heap * variant) :=
  do r <- coerce_none h this;
  do c <- copy (fst r) v;
  do e <- coerce_none (fst c) v;
  Ok (fst e, snd c).

(** ** Numbers as text: snprintf with %d, %ld, %lld into a buffer of [n] bytes *)
Fixpoint dec_digits (f : nat) (z : Z) : list Z :=
  match f with
  | O => []
  | S f => if z <? 10 then [48 + z] else dec_digits f (z / 10) ++ [48 + z mod 10]
  end.
Definition decimal (z : Z) : list Z := if z <? 0 then 45 :: dec_digits 30 (- z) else dec_digits 30 z.
Definition snprintf (n : nat) (z : Z) : list Z := firstn (n - 1) (decimal z).

(** ** variant.h:268-376 coerce *)

(** StrVal::asInt32(&e, 0): the value and whether there was an error.
    [StrNumProofs.pint] is what StrNumModel.as_int32 computes (C26). *)
Definition as_int32 (t : list Z) : outcome (Z * bool) :=
  match pint 0 t with
  | None => UB
  | Some (k, e) => Ok (k, negb (e =? 0))
  end.

(** The result: the heap and the variant.  A number written over a string
    forgets the string without releasing it. *)
Definition coerce (h : heap) (v : variant) (t : vtype) : outcome (heap * variant) :=
  let u := v_u v in
  let keep u' := Ok (h, mkvar (v_type v) u') in           (* u... = ...; return *)
  if vtype_eqb (v_type v) t then Ok (h, v)                                       (* 272-273 *)
  else
    match t with
    | TNone => coerce_none h v                                                   (* 281-284 *)
    | TInteger =>                                                                (* 286-306 *)
      match v_type v with
      | TLong | TLongLong => if get_l u =? s32 (get_l u) then keep (set_i u (get_l u)) else Abort
      | TString =>
        do r <- object v; do tx <- text h r; do ie <- as_int32 tx;
        if negb (snd ie) then Abort else Ok (h, mkvar TInteger (set_i u (fst ie)))
      | _ => Abort
      end
    | TLong =>                                                                   (* 308-327 *)
      match v_type v with
      | TInteger => keep (set_l (get_i u))
      | TLongLong => keep (set_l (get_l u))
      | TString =>
        do r <- object v; do tx <- text h r; do ie <- as_int32 tx;
        if negb (snd ie) then Abort else Ok (h, mkvar TLong (set_l (fst ie)))
      | _ => Abort
      end
    | TLongLong =>                                                               (* 329-347 *)
      match v_type v with
      | TInteger => keep (set_l (get_i u))
      | TLong => keep (set_l (get_l u))
      | TString =>
        do r <- object v; do tx <- text h r; do ie <- as_int32 tx;
        if snd ie then Abort else Ok (h, mkvar TLongLong (set_l (fst ie)))
      | _ => Abort
      end
    | TString =>                                                                 (* 349-369 *)
      match v_type v with
      | TInteger | TLong | TLongLong =>
        let z := match v_type v with TInteger => get_i u | _ => get_l u end in
        let '(h, b) := new_body h (DStr (snprintf 24 z)) in
        assign h v (mkvar TString (Obj (mkref b 0 (length (snprintf 24 z)))))
      | _ => Abort
      end
    | TStrArray | TVarArray | TStrVarMap => Abort                                (* 371-375 *)
    end.

(** ** Programs over variant variables *)

(** How a variable is initialised. *)
Inductive init :=
| INone                                   (* Variant()                variant.h:60-61 *)
| IInt (i : Z)                            (* Variant(int)             62-63 *)
| ILong (i : Z)                           (* Variant(long)            64-65 *)
| ILongLong (i : Z)                       (* Variant(long long)       66-67 *)
| IStr (t : list Z)                       (* Variant(const char* )    70-71 *)
| ISub (y off len : nat)                  (* Variant(y.as_strval().substr(off, len))  68-69 *)
| ICopy (y : nat)                         (* Variant(y)               110-125 *)
| IStrs (ys : list nat)                   (* Variant(StrVal*, count)  74-75 *)
| IVars (ys : list nat)                   (* Variant(Variant*, count) 78-79 *)
| IMap (ks ys : list nat)                 (* Variant(StrVal*, Variant*, count)  80-85 *)
| IElem (y i : nat)                       (* Variant(y.as_variant_array()[i]) *)
| IPair (y z : nat)                       (* Variant(y << z)          76-77, 238-244 *)
| IDefault (t : vtype)                    (* Variant(t)               90-107 *)
| ISlice (y off len : nat)                (* Variant(y.as_variant_array().slice(off, len))  76-77, array.h:116-131 *)
| IKey (y k : nat).                       (* Variant(y.as_variant_map()[k.as_strval()])  110-125, cowmap.h:50-56 *)

Inductive op :=
| New (x : nat) (i : init)
| Assign (x y : nat)                      (* x = y *)
| AssignElem (x y i : nat)                (* x = y.as_variant_array()[i] *)
| Delete (x : nat)
| Coerce (x : nat) (t : vtype)            (* x.as_int() ... *)
| Write (x : nat) (t : vtype) (z : Z).    (* x.as_int() = z, x.as_long() = z, x.as_longlong() = z *)

(** A state: the bodies and the variables, [None] for those not in scope. *)
Record state := mkstate { st_heap : heap; st_vars : list (option variant) }.

(** A variable in scope; anything else is not a program. *)
Definition var (st : state) (x : nat) : outcome variant :=
  match nth_error (st_vars st) x with Some (Some v) => Ok v | _ => Abort end.
Definition free_var (st : state) (x : nat) : bool :=
  match nth_error (st_vars st) x with Some None => true | _ => false end.

Fixpoint vars (st : state) (xs : list nat) : outcome (list variant) :=
  match xs with
  | [] => Ok []
  | x :: xs => do v <- var st x; do vs <- vars st xs; Ok (v :: vs)
  end.
(** as_strval() const of each *)
Fixpoint str_refs (vs : list variant) : outcome (list ref) :=
  match vs with
  | [] => Ok []
  | v :: vs => must_be v TString (do r <- object v; do rs <- str_refs vs; Ok (r :: rs))
  end.
Fixpoint add_refs (h : heap) (rs : list ref) : outcome heap :=
  match rs with
  | [] => Ok h
  | r :: rs => do h <- add_ref h (r_body r); add_refs h rs
  end.

(** StrVal::operator< between strings of the heap. *)
Definition key_text (h : heap) (r : ref) : list Z := match text h r with Ok t => t | _ => [] end.
Definition text_ltb (a b : list Z) : bool := match lex a b with Lt => true | _ => false end.
Definition key_ltb (h : heap) (a b : ref) : bool := text_ltb (key_text h a) (key_text h b).

(** variant.h:82-84: insert the pairs one by one; std::map keeps an entry it
    has, and then no references are taken. *)
Fixpoint build_map (h : heap) (m : list (ref * variant)) (ks : list ref) (vs : list variant)
  : outcome (heap * list (ref * variant)) :=
  match ks, vs with
  | k :: ks, v :: vs =>
    match mfind (key_ltb h) k m with
    | Some _ => build_map h m ks vs
    | None =>
      do h1 <- add_ref h (r_body k);
      do c <- copy h1 v;
      build_map (fst c) (minsert (key_ltb h) k (snd c) m) ks vs
    end
  | _, _ => Ok (h, m)
  end.

Definition elem (st : state) (y i : nat) : outcome variant :=
  do v <- var st y;
  must_be v TVarArray
    (do r <- object v;
     do l <- variants (st_heap st) r;
     match nth_error l i with Some e => Ok e | None => Abort end).

Definition array (h : heap) (vs : list variant) : outcome (heap * variant) :=
  do c <- copies h vs;
  let '(h, b) := new_body (fst c) (DVars (snd c)) in
  Ok (h, mkvar TVarArray (Obj (mkref b 0 (length vs)))).

(** A variant with a new body. *)
Definition fresh (h : heap) (t : vtype) (d : data) (len : nat) : outcome (heap * variant) :=
  let '(h, b) := new_body h d in Ok (h, mkvar t (Obj (mkref b 0 len))).

Definition construct (st : state) (i : init) : outcome (heap * variant) :=
  let h := st_heap st in
  match i with
  | INone => Ok (h, mkvar TNone zeroed)
  | IInt z => Ok (h, mkvar TInteger (set_i zeroed z))
  | ILong z => Ok (h, mkvar TLong (set_l z))
  | ILongLong z => Ok (h, mkvar TLongLong (set_l z))
  | IStr t =>
    let '(h, b) := new_body h (DStr t) in
    Ok (h, mkvar TString (Obj (mkref b 0 (length t))))
  | ISub y off len =>
    do v <- var st y;
    must_be v TString
      (do r <- object v;
       do t <- text h r;
       do h <- add_ref h (r_body r);
       Ok (h, mkvar TString (Obj (mkref (r_body r) (r_off r + min off (length t))
                                        (min len (length t - off))))))
  | ICopy y => do v <- var st y; copy h v
  | IStrs ys =>
    do vs <- vars st ys;
    do rs <- str_refs vs;
    do h <- add_refs h rs;
    let '(h, b) := new_body h (DStrs rs) in
    Ok (h, mkvar TStrArray (Obj (mkref b 0 (length rs))))
  | IVars ys => do vs <- vars st ys; array h vs
  | IMap ks ys =>
    do kv <- vars st ks;
    do rs <- str_refs kv;
    do vs <- vars st ys;
    do m <- build_map h [] rs vs;
    let '(h, b) := new_body (fst m) (DMap (snd m)) in
    Ok (h, mkvar TStrVarMap (Obj (mkref b 0 0)))
  | IElem y i => do e <- elem st y i; copy h e
  | IPair y z => do vs <- vars st [y; z]; array h vs
  | IDefault t =>
    match t with
    | TNone | TInteger | TLong | TLongLong => Ok (h, mkvar t zeroed)
    | TString => fresh h t (DStr []) 0
    | TStrArray => fresh h t (DStrs []) 0
    | TVarArray => fresh h t (DVars []) 0
    | TStrVarMap => fresh h t (DMap []) 0
    end
  | ISlice y off len =>
    do v <- var st y;
    must_be v TVarArray
      (do r <- object v;
       do l <- variants h r;
       if ((length l <=? off) || (len =? 0))%nat then fresh h TVarArray (DVars []) 0
       else
         do h <- add_ref h (r_body r);
         Ok (h, mkvar TVarArray (Obj (mkref (r_body r) (r_off r + off) (min len (length l - off))))))
  | IKey y k =>
    do w <- var st k;
    must_be w TString
      (do kr <- object w;
       do v <- var st y;
       must_be v TStrVarMap
         (do r <- object v;
          do m <- entries h r;
          match mfind (key_ltb h) kr m with
          | Some e => copy h e
          | None => Ok (h, mkvar TNone zeroed)
          end))
  end.

Definition step (st : state) (o : op) : outcome state :=
  match o with
  | New x i =>
    if free_var st x then
      do r <- construct st i;
      Ok (mkstate (fst r) (upd (st_vars st) x (Some (snd r))))
    else Abort
  | Assign x y =>
    do v <- var st x;
    do w <- var st y;
    do c <- copy (st_heap st) w;
    do r <- assign (fst c) v (snd c);
    Ok (mkstate (fst r) (upd (st_vars st) x (Some (snd r))))
  | AssignElem x y i =>
    do v <- var st x;
    do w <- elem st y i;
    do c <- copy (st_heap st) w;
    do r <- assign (fst c) v (snd c);
    Ok (mkstate (fst r) (upd (st_vars st) x (Some (snd r))))
  | Delete x =>
    do v <- var st x;
    do r <- coerce_none (st_heap st) v;
    Ok (mkstate (fst r) (upd (st_vars st) x None))
  | Coerce x t =>
    do v <- var st x;
    do r <- coerce (st_heap st) v t;
    Ok (mkstate (fst r) (upd (st_vars st) x (Some (snd r))))
  | Write x t z =>                                     (* 157-159, and an assignment to the reference *)
    do v <- var st x;
    do u <- match t with
            | TInteger => Ok (fun u => set_i u z)
            | TLong | TLongLong => Ok (fun _ => set_l z)
            | _ => Abort
            end;
    do r <- coerce (st_heap st) v t;
    Ok (mkstate (fst r) (upd (st_vars st) x (Some (mkvar (v_type (snd r)) (u (v_u (snd r)))))))
  end.

Fixpoint run (st : state) (os : list op) : outcome state :=
  match os with
  | [] => Ok st
  | o :: os => do st <- step st o; run st os
  end.
(** [n] variables, none in scope yet. *)
Definition start (n : nat) : state := mkstate [] (repeat None n).
