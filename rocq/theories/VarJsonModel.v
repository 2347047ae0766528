(** Model of Variant::as_json (include/variant.h:168-236).

    Strings are character lists, as in VarModel.v; [StrSpec.json_of] is what
    StrVal::asJSON computes for a character (C22, C27); it aborts on characters
    above 0xFFFFF (C27_abort_refuted).  indent is -2, -1 or not negative. *)
From Verif Require Import Base VarModel.
From Verif Require StrSpec.

(** strval.h:465-485 StrVal::substr, for a position that is not negative *)
Definition substr (t : list Z) (at_ len : Z) : list Z :=
  let n := Z.of_nat (length t) in
  if (len <? -1) || (len =? 0) || (at_ >=? n) then []
  else
    let len := if len >? 0 then Z.min len (n - at_) else n - at_ in
    firstn (Z.to_nat len) (skipn (Z.to_nat at_) t).
(** strval.h:490-491 StrVal::shorter *)
Definition shorter (t : list Z) (n : Z) : list Z := substr t 0 (Z.of_nat (length t) - n).
(** strval.h:675-684 StrVal::operator* *)
Definition times (t : list Z) (n : Z) : list Z := concat (repeat t (Z.to_nat n)).

(** variant.h:170-179 *)
Definition next_indent (indent : Z) : Z := if (indent =? -2) || (indent =? -1) then indent else indent + 1.
Definition separator (indent : Z) : list Z :=
  if indent =? -2 then [44]
  else if indent =? -1 then [44; 32]
  else [44; 10] ++ times [32; 32] (next_indent indent).

(** variant.h:202-203 a string *)
Definition json_string (t : list Z) : outcome (list Z) :=
  if forallb (fun c => c <=? 0xFFFFF) t then Ok ([34] ++ flat_map StrSpec.json_of t ++ [34]) else Abort.

Fixpoint each {A B} (f : A -> outcome B) (l : list A) : outcome (list B) :=
  match l with
  | [] => Ok []
  | a :: l => do b <- f a; do bs <- each f l; Ok (b :: bs)
  end.

(** variant.h:208-210, 217-219, 226-232: the loops; [first] is i == 0. *)
Fixpoint items (sep : list Z) (first : bool) (xs : list (list Z)) : list Z :=
  match xs with
  | [] => []
  | x :: xs => (if first then [] else sep) ++ x ++ items sep false xs
  end.
(** variant.h:207, 211 and the like: opening, items, closing *)
Definition bracket (sep : list Z) (o c : Z) (xs : list (list Z)) : list Z :=
  ([o] ++ substr sep 1 (-1)) ++ items sep true xs ++ shorter (substr sep 1 (-1)) 2 ++ [c].

(** variant.h:168-236 as_json; [f] bounds the depth. *)
Fixpoint as_json (f : nat) (h : heap) (indent : Z) (v : variant) : outcome (list Z) :=
  match f with
  | O => UB
  | S f =>
    let sep := separator indent in
    match v_type v with
    | TNone => Ok [110; 117; 108; 108]
    | TInteger => Ok (snprintf 22 (get_i (v_u v)))
    | TLong | TLongLong => Ok (snprintf 22 (get_l (v_u v)))
    | TString => do r <- object v; do t <- text h r; json_string t
    | TStrArray =>
      do r <- object v; do l <- strings h r;
      do xs <- each (fun s => do t <- text h s; json_string t) l;
      Ok (bracket sep 91 93 xs)
    | TVarArray =>
      do r <- object v; do l <- variants h r;
      do xs <- each (as_json f h (next_indent indent)) l;
      Ok (bracket sep 91 93 xs)
    | TStrVarMap =>
      do r <- object v; do l <- entries h r;
      do xs <- each (fun p => do k <- text h (fst p); do kx <- json_string k;
                              do x <- as_json f h (next_indent indent) (snd p);
                              Ok (kx ++ (if indent =? -2 then [58] else [58; 32]) ++ x)) l;
      Ok (bracket sep 123 125 xs)
    end
  end.
