(** StrVal::transform with any callback and any [after] (strval.h 886-958).
    Simplifications: the callback is a function of its own state, the bytes of
    the text (with the NUL) and the position of cp in them; it answers with its
    new state, the new position of cp and the bytes of the string it returns,
    whose length() is their count.  A callback that throws, or that touches the
    string being transformed, is not modelled.  A loop that never ends shows up
    as running out of fuel, that is as UB.  UTF-8 data only. *)
From Verif Require Import Base RefModel UTF8Model ArrayModel StrModel.

Section Xform.
Variable K : Type.
Definition callback : Type := K -> list Z -> nat -> K * nat * list Z.
Variables (m : list Z) (ep : nat) (cb : callback) (after : Z).

(** [while (up < next) { up += UTF8Len(up); processed_chars++; }] (strval.h 917-921) *)
Fixpoint walk (fuel : nat) (up next : nat) (done : Z) : outcome (nat * Z) :=
  if (up <? next)%nat then
    match fuel with
    | O => UB
    | S f => do k <- UTF8LenPtr (skipn up m); walk f (up + k) next (u32 (done + 1))
    end
  else Ok (up, done).

(** Copying one character (strval.h 931-944): room for 7 more bytes, then the
    bytes of the character, then num_elements.  op-start is num_elements
    whenever the loop gets here. *)
Definition put_char (a : body Z) (ch : Z) : outcome (body Z) :=
  do r <- (if b_alloc a <? b_num a + 7 then resize a (b_num a + 7) else Ok (a, false));
  let bs := UTF8Put ch in
  do d <- copy_in (length bs) 0 (b_num (fst r)) (Ext (rdZ bs)) (b_data (fst r));
  Ok {| b_data := d; b_num := u32 (b_num (fst r) + Z.of_nat (length bs)); b_alloc := b_alloc (fst r);
        b_refs := b_refs (fst r); b_static := b_static (fst r) |}.

(** [processed_chars+1 > after+1 && !stopped] (strval.h 908-909): unsigned. *)
Definition working (done : Z) (stopped : bool) : bool := (u32 (done + 1) >? u32 (after + 1)) && negb stopped.

(** The loop (strval.h 905-945): [n] is num_chars, [done] processed_chars. *)
Fixpoint xform_loop (fuel : nat) (up : nat) (done : Z) (stopped : bool) (k : K) (a : body Z) (n : Z)
  : outcome (body Z * Z * K) :=
  if (up <? ep)%nat then
    match fuel with
    | O => UB
    | S f =>
      if working done stopped then
        let '(k', next, bs) := cb k m up in
        do c <- count_loop (length bs) (bs ++ [0]) 0 (length bs) 0;
        do w <- walk (length m) up next done;
        let stopped' := stopped || (u32 (Z.of_nat next - Z.of_nat up) =? 0) in
        do a' <- body_insert a (b_num a) (Ext (rdZ bs)) (Z.of_nat (length bs));
        xform_loop f (fst w) (snd w) stopped' k' a' (u32 (n + c))
      else
        do r <- UTF8Get (skipn up m);
        do a' <- put_char a (fst r);
        xform_loop f (up + snd r) (u32 (done + 1)) stopped k a' (u32 (n + 1))
    end
  else Ok (a, n, k).
End Xform.
Arguments walk m fuel up next done : assert.
Arguments xform_loop {K} m ep cb after fuel up done stopped k a n : assert.

(** StrBodyI::transform (strval.h 887-948).  The callback sees the old bytes,
    which are deleted at the end.  [after+1] overflows for INT_MAX. *)
Definition xform {K} (x : sbody) (cb : callback K) (after : Z) (k : K) : outcome (sbody * K) :=
  cassert (b_refs (sb_arr x) <=? 1)
    (do m <- smem x;
     do r <- resize {| b_data := []; b_num := 0; b_alloc := 0; b_refs := b_refs (sb_arr x); b_static := b_static (sb_arr x) |}
                    (b_num (sb_arr x) + 6);
     if after =? 2147483647 then UB else
     do t <- xform_loop m (length m - 1) cb after (2 * length m) 0 0 false k (fst r) 0;
     let '(a, n, k') := t : body Z * Z * K in
     do a' <- body_insert a (b_num a) (Ext (rdZ [0])) 1;
     Ok ({| sb_arr := a'; sb_n := n |}, k')).

(** StrVal::transform (strval.h 950-958). *)
Definition str_transform {K} (h : sheap) (s : sval) (cb : callback K) (after : Z) (k : K) : outcome (sheap * sval * K) :=
  do r <- unshare h s;
  let (h1, s1) := r : sheap * sval in
  do x <- sget h1 (v_body s1);
  do y <- xform x cb after k;
  do p <- num_chars (fst y);
  Ok (sput h1 (v_body s1) (fst p), {| v_body := v_body s1; v_off := v_off s1; v_len := snd p; v_mk := (0, 0) |}, snd y).

(** [v.transform(cb, after)] in a program: variable [v] is the string. *)
Definition transform_var {K} (st : sstate) (v : nat) (cb : callback K) (after : Z) (k : K) : outcome (sstate * K) :=
  match nth_error (sv st) v with
  | Some s => do r <- str_transform (sh st) s cb after k;
              let '(h, s', k') := r : sheap * sval * K in Ok ({| sh := h; sv := upd (sv st) v s' |}, k')
  | None => Ok (st, k)
  end.
