(** Specification of strings: what a program can see of a string is the list of
    its characters; operations are list operations on it. *)
From Verif Require Import Base RefModel UTF8Model ArrayModel ArraySpec CharTables CharModel StrModel.

(** The characters stored in a body: its bytes up to the terminating NUL,
    decoded from the front. *)
Definition body_chars (x : sbody) : option (list Z) :=
  match all_some (firstn (Z.to_nat (b_num (sb_arr x) - 1)) (b_data (sb_arr x))) with
  | Some bs => match decode_all bs with Ok chs => Some chs | _ => None end
  | None => None
  end.

(** The text of a string: length() characters of its body from its offset on. *)
Definition val_text (h : sheap) (s : sval) : option (list Z) :=
  match nth_error h (v_body s) with
  | Some (Some x) =>
      match body_chars x with
      | Some chs => Some (l_slice chs (Z.to_nat (v_off s)) (Z.to_nat (v_len s)))
      | None => None
      end
  | _ => None
  end.

(** The text of variable [v]. *)
Definition text (st : sstate) (v : nat) : option (list Z) :=
  match nth_error (sv st) v with Some s => val_text (sh st) s | None => None end.

(** The text, as a list; the whole text of the body the variable is on; the
    number of bytes of a text. *)
Definition T (st : sstate) (v : nat) : list Z := match text st v with Some t => t | None => [] end.
Definition body_text (st : sstate) (v : nat) : list Z :=
  match nth_error (sv st) v with
  | Some s => match nth_error (sh st) (v_body s) with
              | Some (Some x) => match body_chars x with Some l => l | None => [] end
              | _ => []
              end
  | None => []
  end.
Definition nbytes (l : list Z) : Z := Z.of_nat (length (encode_all l)).

(** Case of one character: the entry of the case table covering it. *)
Definition case_of (up : bool) (ch : Z) : Z :=
  match List.find (fun e => (efirst e <=? ch) && (ch <=? elast e)) (if up then UnicodeToUpper else UnicodeToLower) with
  | Some e => ch + edelta e
  | None => ch
  end.

(** JSON form of one character: the short escapes, \uXXXX for other control
    characters and for surrogates, a pair of \uXXXX above 16 bits (its value is
    the program's, see C27), itself otherwise. *)
Definition hex_char (d : Z) : Z := if d <? 10 then 48 + d else 55 + d.
Definition hex4 (u : Z) : list Z := [92; 117; hex_char (u / 4096 mod 16); hex_char (u / 256 mod 16); hex_char (u / 16 mod 16); hex_char (u mod 16)].
Definition short_escapes : list (Z * Z) := [(0, 48); (34, 34); (92, 92); (47, 47); (8, 98); (12, 102); (10, 110); (13, 114); (9, 116)].
Definition json_of (ch : Z) : list Z :=
  match List.find (fun e => fst e =? ch) short_escapes with
  | Some e => [92; snd e]
  | None => if 0xFFFF <? ch then hex4 (0xD800 + ch / 1024 mod 1024) ++ hex4 (0xDC00 + ch mod 1024)
            else if (ch <? 32) || (0xD800 <=? ch) && (ch <=? 0xDFFF) then hex4 ch else [ch]
  end.

(** substr(at, len): -1 stands for "to the end"; clipped to the string. *)
Definition t_substr (t : list Z) (at_ len : Z) : list Z :=
  l_slice t (Z.to_nat at_) (if len =? -1 then length t else Z.to_nat len).

(** The text an operation gives its target, from the texts of its operands. *)
Definition expected (t : nat -> list Z) (o : sop) : list Z :=
  match o with
  | SLit _ bs _ | SBytes _ bs _ => match decode_all bs with Ok cs => cs | _ => [] end
  | SChar _ ch => [ch]
  | SAssign _ v | SCopy _ v | SAsUTF8 v | SIndex v _ => t v
  | SSubstr _ v at_ len => t_substr (t v) at_ len
  | SPlus _ v w | SAddEq v w => t v ++ t w
  | SPlusChar _ v ch | SAddEqChar v ch => t v ++ [ch]
  | STimes _ v n => concat (repeat (t v) (Z.to_nat n))
  | SAsCase _ v up | SToCase v up => map (case_of up) (t v)
  | SAsJson _ v | SToJson v => flat_map json_of (t v)
  | SInsert v pos w => l_insert (t v) (Z.to_nat pos) (t w)
  end.

(** Characters a string may hold: 32-bit values other than the codes reserved
    for undecodable bytes. *)
Definition plain (ch : Z) : Prop := 0 <= ch < 2^32 /\ ~ (2^31 <= ch <= 2^31 + 255) /\ ch <> 2^32 - 1.
(** [bs] is a text in UTF-8. *)
Definition utf8 (bs : list Z) : Prop := exists cs, bs = encode_all cs /\ Forall plain cs.

Definition operands (o : sop) : list nat :=
  match o with
  | SLit d _ _ | SBytes d _ _ | SChar d _ => [d]
  | SAssign d v | SCopy d v | SSubstr d v _ _ | SPlusChar d v _ | STimes d v _ | SAsCase d v _ | SAsJson d v | SAddEq d v => [d; v]
  | SPlus d v w => [d; v; w]
  | SInsert v _ w => [v; w]
  | SAddEqChar v _ | SToCase v _ | SToJson v | SAsUTF8 v | SIndex v _ => [v]
  end.

(** An edit in place starts at the front of the body, unless the body is shared,
    in which case the edit copies it first. *)
Definition at_front (st : sstate) (v : nat) : Prop :=
  exists s x, nth_error (sv st) v = Some s /\ nth_error (sh st) (v_body s) = Some (Some x) /\ (v_off s = 0 \/ 1 < b_refs (sb_arr x)).
(** ... and covers all of it. *)
Definition covers (st : sstate) (v : nat) : Prop :=
  exists s x, nth_error (sv st) v = Some s /\ nth_error (sh st) (v_body s) = Some (Some x) /\
    (v_off s = 0 /\ v_len s = Z.of_nat (length (body_text st v)) \/ 1 < b_refs (sb_arr x)).
(** No remembered position at all (a bookmark of 0, or one that wrapped below 0,
    is none); none beyond character [pos] of the string. *)
Definition unmarked (st : sstate) (v : nat) : Prop :=
  exists s, nth_error (sv st) v = Some s /\ (fst (v_mk s) = 0 \/ 2^31 <= fst (v_mk s)).
Definition unmarked_after (st : sstate) (v : nat) (pos : Z) : Prop :=
  exists s, nth_error (sv st) v = Some s /\ (fst (v_mk s) <= v_off s + pos \/ 2^31 <= fst (v_mk s)).
Definition is_ascii (l : list Z) : Prop := Forall (fun c => c < 128) l.

(** Arguments in range, sizes below 1 GiB, and what in-place editing needs. *)
Definition step_ok (st : sstate) (o : sop) : Prop :=
  match o with
  | SLit _ bs _ => utf8 bs /\ ~ In 0 bs /\ Z.of_nat (length bs) < 2^30
  | SBytes _ bs al => utf8 bs /\ Z.of_nat (length bs) < 2^30 /\ 0 <= al < 2^31
  | SChar _ ch => plain ch
  | SAssign _ _ | SCopy _ _ | SAsUTF8 _ => True
  | SIndex _ i => -2^31 <= i < 2^31
  | SSubstr _ _ at_ len => 0 <= at_ < 2^32 /\ -2^31 <= len < 2^31
  | SPlus _ v w => nbytes (T st v) + nbytes (T st w) < 2^30
  | SPlusChar _ v ch => plain ch /\ nbytes (T st v) + 6 < 2^30
  | STimes _ v n => nbytes (body_text st v) + Z.max 0 n * nbytes (T st v) < 2^30
  | SAsCase _ v _ => 7 * nbytes (body_text st v) < 2^30
  | SAsJson _ v => Forall (fun c => c <= 0xFFFFF) (T st v) /\ 24 * nbytes (body_text st v) < 2^30
  | SInsert v pos w =>
      v <> w /\ 0 <= pos <= Z.of_nat (length (T st v)) /\ at_front st v /\
      (unmarked_after st v pos \/ is_ascii (body_text st v) /\ is_ascii (T st w)) /\
      nbytes (body_text st v) + nbytes (T st w) < 2^30
  | SAddEq v w => v <> w /\ at_front st v /\ nbytes (body_text st v) + nbytes (T st w) < 2^30
  | SAddEqChar v ch => plain ch /\ at_front st v /\ nbytes (body_text st v) + 6 < 2^30
  | SToCase v _ => covers st v /\ (unmarked st v \/ is_ascii (body_text st v)) /\ 7 * nbytes (body_text st v) < 2^30
  | SToJson v => Forall (fun c => c <= 0xFFFFF) (T st v) /\ covers st v /\ (unmarked st v \/ is_ascii (body_text st v)) /\ 24 * nbytes (body_text st v) < 2^30
  end.
Fixpoint run_ok (st : sstate) (os : list sop) : Prop :=
  match os with
  | [] => True
  | o :: r => Forall (fun v => (v < length (sv st))%nat) (operands o) /\ step_ok st o /\ forall st', sstep st o = Ok st' -> run_ok st' r
  end.

(** The same program on lists of characters. *)
Definition spec_step (ts : list (list Z)) (o : sop) : list (list Z) :=
  upd ts (starget o) (expected (fun v => nth v ts []) o).
