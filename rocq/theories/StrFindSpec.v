(** Specification of string comparison and search. *)
From Verif Require Import Base UTF8Model ArraySpec StrModel StrSpec.

(** [st] is the state after some well-formed string program over [n] variables. *)
Definition reached (n : nat) (st : sstate) : Prop :=
  exists os, run_ok (sinit n) os /\ srun (sinit n) os = Ok st.

(** Lexicographic order of texts, by code point; a proper prefix comes first. *)
Fixpoint lex (a b : list Z) : comparison :=
  match a, b with
  | [], [] => Eq
  | [], _ :: _ => Lt
  | _ :: _, [] => Gt
  | x :: a', y :: b' => match x ?= y with Eq => lex a' b' | c => c end
  end.
(** An int's sign as a comparison. *)
Definition sign (r : Z) : comparison := r ?= 0.

(** The string reaches the end of its body (nothing was cut off its end). *)
Definition to_end (st : sstate) (v : nat) : Prop :=
  exists s, nth_error (sv st) v = Some s /\ v_off s + v_len s = Z.of_nat (length (body_text st v)).
(** The character stored just after the string, 0 at the end of its body. *)
Definition next_char (st : sstate) (v : nat) : Z :=
  match nth_error (sv st) v with Some s => nth (Z.to_nat (v_off s + v_len s)) (body_text st v) 0 | None => 0 end.

(** The outcome of a search for a position [p], lo <= p < hi, with [Q p]: the
    first (last) one, or -1 if there is none. *)
Definition found_first (Q : Z -> Prop) (lo hi r : Z) : Prop :=
  r = -1 /\ (forall p, lo <= p < hi -> ~ Q p) \/
  lo <= r < hi /\ Q r /\ (forall p, lo <= p < r -> ~ Q p).
Definition found_last (Q : Z -> Prop) (lo hi r : Z) : Prop :=
  r = -1 /\ (forall p, lo <= p < hi -> ~ Q p) \/
  lo <= r < hi /\ Q r /\ (forall p, r < p < hi -> ~ Q p).

(** Character [p] of text [t] is [ch]; is in the set; is not in the set; text
    [u] stands at [p], entirely inside [t]. *)
Definition has (t : list Z) (ch p : Z) : Prop := nth_error t (Z.to_nat p) = Some ch.
Definition has_any (t set : list Z) (p : Z) : Prop := exists ch, has t ch p /\ In ch set.
Definition has_not (t set : list Z) (p : Z) : Prop := exists ch, has t ch p /\ ~ In ch set.
Definition occurs (t u : list Z) (p : Z) : Prop :=
  exists a b, t = a ++ u ++ b /\ Z.of_nat (length a) = p.

(** [h'] shows the same text through every string as [st] does. *)
Definition unchanged (st : sstate) (h' : sheap) : Prop :=
  forall u, text {| sh := h'; sv := sv st |} u = text st u.
