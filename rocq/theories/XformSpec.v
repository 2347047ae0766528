(** What transform computes, on characters. *)
From Verif Require Import Base UTF8Model ArrayModel StrModel StrSpec XformModel.

(** How many of the characters [l] start in their first [k] bytes: the
    characters a callback that moved cp by [k] bytes has dealt with. *)
Fixpoint started (l : list Z) (k : Z) : nat :=
  match l with
  | [] => O
  | c :: r => if k <=? 0 then O else S (started r (k - nbytes [c]))
  end.

(** Working through [rest], [pre] being the characters before it: the callback
    is given the text and the position of [rest] in it.  If it leaves cp where
    it is, its string is put there and the rest is kept; otherwise its string
    replaces the characters it moved over, and it is called again after them. *)
Inductive rewrites {K} (cb : callback K) : K -> list Z -> list Z -> list Z -> K -> Prop :=
| R_end k pre : rewrites cb k pre [] [] k
| R_stop k pre rest k' rep :
    rest <> [] -> Forall plain rep ->
    cb k (encode_all (pre ++ rest) ++ [0]) (length (encode_all pre)) = (k', length (encode_all pre), encode_all rep) ->
    rewrites cb k pre rest (rep ++ rest) k'
| R_move k pre rest k' next rep out k'' :
    rest <> [] -> Forall plain rep ->
    cb k (encode_all (pre ++ rest) ++ [0]) (length (encode_all pre)) = (k', next, encode_all rep) ->
    (length (encode_all pre) < next)%nat ->
    let n := started rest (Z.of_nat next - Z.of_nat (length (encode_all pre))) in
    rewrites cb k' (pre ++ firstn n rest) (skipn n rest) out k'' ->
    rewrites cb k pre rest (rep ++ out) k''.

(** How many characters are kept before the callback is first called: one more
    than [after]; all of them if [after] is below -1. *)
Definition kept (after : Z) (t : list Z) : nat :=
  if after <? -1 then length t else Z.to_nat (after + 1).

Definition transforms {K} (cb : callback K) (after : Z) (k : K) (t out : list Z) (k' : K) : Prop :=
  exists o, out = firstn (kept after t) t ++ o /\ rewrites cb k (firstn (kept after t) t) (skipn (kept after t) t) o k'.

(** A callback that does its part on the text [t]: wherever a character starts,
    it leaves cp between there and the end of the text, and returns a string. *)
Definition minds_the_text {K} (cb : callback K) (t : list Z) : Prop :=
  forall k pre rest, t = pre ++ rest -> rest <> [] ->
    exists k' next rep, cb k (encode_all t ++ [0]) (length (encode_all pre)) = (k', next, encode_all rep) /\
      (length (encode_all pre) <= next <= length (encode_all t))%nat /\ Forall plain rep.
