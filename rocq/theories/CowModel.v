(** Model of CowMap<V,K> (include/cowmap.h): map variables sharing reference
    counted std::map bodies.  std::map is modelled by its contract: a list of
    pairs ordered by the key order [ltb], at most one per equivalence class of
    keys.  Not modelled: keys/values/each/all/any/one/select/map/inject, which do
    not compile when instantiated (they use it.first on an iterator,
    cowmap.h 86-157), and a key argument that refers into the map itself. *)
From Verif Require Import Base RefModel.

Section Cow.
Context {K V : Type} (ltb : K -> K -> bool).

(** Keys are "the same" when neither is less (the std::map contract). *)
Definition eqv (a b : K) : bool := negb (ltb a b) && negb (ltb b a).

(** std::map find / insert (keeps an existing entry) / erase by key / size. *)
Fixpoint mfind (k : K) (m : list (K * V)) : option V :=
  match m with
  | [] => None
  | (k', v) :: r => if eqv k k' then Some v else mfind k r
  end.
Fixpoint mplace (k : K) (v : V) (m : list (K * V)) : list (K * V) :=
  match m with
  | [] => [(k, v)]
  | (k', v') :: r => if ltb k k' then (k, v) :: (k', v') :: r else (k', v') :: mplace k v r
  end.
Definition minsert (k : K) (v : V) (m : list (K * V)) : list (K * V) :=
  match mfind k m with Some _ => m | None => mplace k v m end.
Definition merase (k : K) (m : list (K * V)) : list (K * V) :=
  filter (fun p => negb (eqv k (fst p))) m.

(** CowMapBody: the std::map and the reference count (cowmap.h 175-190). *)
Record cbody := { c_map : list (K * V); c_refs : Z }.
Record cstate := { ch : list (option cbody); cv : list nat }.

Definition cget (h : list (option cbody)) (b : nat) : outcome cbody :=
  match nth_error h b with Some (Some x) => Ok x | _ => UB end.
(** refcount.h 16-17 *)
Definition caddref h b : outcome (list (option cbody)) :=
  do x <- cget h b; Ok (upd h b (Some {| c_map := c_map x; c_refs := c_refs x + 1 |})).
Definition crelease h b : outcome (list (option cbody)) :=
  do x <- cget h b;
  cassert (c_refs x >? 0)
    (Ok (upd h b (if c_refs x - 1 =? 0 then None else Some {| c_map := c_map x; c_refs := c_refs x - 1 |}))).

(** body = o  (refcount.h 35-55): add a reference to the new, drop the old. *)
Definition rebind (h : list (option cbody)) (old new : nat) : outcome (list (option cbody)) :=
  do h1 <- caddref h new; crelease h1 old.
Definition fresh (m : list (K * V)) : option cbody := Some {| c_map := m; c_refs := 0 |}.

(** Unshare (cowmap.h 162-172): copies the entries one by one into a new map. *)
Definition cunshare (h : list (option cbody)) (b : nat) : outcome (list (option cbody) * nat) :=
  do x <- cget h b;
  if c_refs x <=? 1 then Ok (h, b)
  else
    let m := fold_left (fun acc p => minsert (fst p) (snd p) acc) (c_map x) [] in
    do h2 <- rebind (h ++ [fresh m]) b (length h);
    Ok (h2, length h).

Definition write (h : list (option cbody)) (b : nat) (f : list (K * V) -> list (K * V)) : outcome (list (option cbody)) :=
  do x <- cget h b; Ok (upd h b (Some {| c_map := f (c_map x); c_refs := c_refs x |})).

Inductive cop :=
| CNew (d : nat) (kvs : list (K * V))     (* d = CowMap(keys, values, size) *)
| CCopy (d v : nat)                        (* d = v *)
| CClear (v : nat)
| CInsert (v : nat) (k : K) (x : V)
| CRemove (v : nat) (k : K)
| CPut (v : nat) (k : K) (x : V).

(** insert (cowmap.h 72-73) *)
Definition cinsert (h : list (option cbody)) (b : nat) (k : K) (x : V) : outcome (list (option cbody) * nat) :=
  do r <- cunshare h b;
  let (h1, b1) := r : list (option cbody) * nat in
  do h2 <- write h1 b1 (minsert k x); Ok (h2, b1).

Definition cstep (s : cstate) (o : cop) : outcome cstate :=
  let h := ch s in
  let on v f := match nth_error (cv s) v with Some b => f b | None => Ok s end in
  let done v (r : outcome (list (option cbody) * nat)) :=
    do p <- r; Ok {| ch := fst p; cv := upd (cv s) v (snd p) |} in
  match o with
  | CNew d kvs =>                                            (* cowmap.h 40-46 and assignment 47-48 *)
      on d (fun b =>
        let m := fold_left (fun acc p => minsert (fst p) (snd p) acc) kvs [] in
        done d (do h1 <- rebind (h ++ [fresh m]) b (length h); Ok (h1, length h)))
  | CCopy d v =>                                             (* cowmap.h 47-48 *)
      on v (fun b => on d (fun old => done d (do h1 <- rebind h old b; Ok (h1, b))))
  | CClear v =>                                              (* cowmap.h 71 *)
      on v (fun b => done v (do h1 <- rebind (h ++ [fresh []]) b (length h); Ok (h1, length h)))
  | CInsert v k x => on v (fun b => done v (cinsert h b k x))
  | CRemove v k =>                                           (* cowmap.h 74-75 *)
      on v (fun b => done v (
        do r <- cunshare h b;
        let (h1, b1) := r : list (option cbody) * nat in
        do h2 <- write h1 b1 (merase k); Ok (h2, b1)))
  | CPut v k x =>                                            (* cowmap.h 76-83 *)
      on v (fun b => done v (
        do y <- cget h b;
        do h1 <- (match mfind k (c_map y) with
                  | Some _ => write h b (merase k)           (* erase before Unshare *)
                  | None => Ok h
                  end);
        cinsert h1 b k x))
  end.

Fixpoint crun (s : cstate) (os : list cop) : outcome cstate :=
  match os with
  | [] => Ok s
  | o :: r => do s' <- cstep s o; crun s' r
  end.

(** [n] empty maps (cowmap.h 36-37). *)
Definition cinit (n : nat) : cstate :=
  {| ch := repeat (Some {| c_map := []; c_refs := 1 |}) n; cv := seq 0 n |}.

Definition ctarget (o : cop) : nat :=
  match o with CNew d _ => d | CCopy d _ => d | CClear v => v | CInsert v _ _ => v | CRemove v _ => v | CPut v _ _ => v end.

(** operator[] / contains (cowmap.h 50-61) and size (cowmap.h 67-68). *)
Definition clookup (s : cstate) (v : nat) (k : K) : option V :=
  match nth_error (cv s) v with
  | Some b => match nth_error (ch s) b with Some (Some x) => mfind k (c_map x) | _ => None end
  | None => None
  end.
Definition csize (s : cstate) (v : nat) : option nat :=
  match nth_error (cv s) v with
  | Some b => match nth_error (ch s) b with Some (Some x) => Some (length (c_map x)) | _ => None end
  | None => None
  end.
End Cow.
Arguments cop K V : clear implicits.
Arguments cstate K V : clear implicits.
Arguments cbody K V : clear implicits.
