(** Model of StrRawBinary strings (include/strval.h): bodies whose num_chars is
    the marker StrValIndexRawBinaryMarker, one character per byte.  StrModel.v
    has the branches for UTF-8; here are the functions with both branches, on the
    same heap.  Everything StrModel's comment says about simplifications holds
    here, but for raw data. *)
From Verif Require Import Base RefModel UTF8Model ArrayModel ArraySpec StrModel StrFindModel.

(** StrValIndexRawBinaryMarker, isRawBinary (strval.h 33, 96-97) *)
Definition marker : Z := 0xFFFFFFFF.
Definition is_raw (x : sbody) : bool := sb_n x =? marker.

(** StrBodyI(data, dt, length, 0) for dt = StrUTF8 or StrRawBinary (strval.h 80-90) *)
Definition r_new (raw : bool) (data : list Z) (length refs : Z) : outcome sbody :=
  do y <- new_sbody data length 0 refs;
  Ok (if raw then {| sb_arr := sb_arr y; sb_n := marker |} else y).

(** numChars (strval.h 99-106) *)
Definition r_num (x : sbody) : outcome (sbody * Z) :=
  if is_raw x then Ok (x, u32 (b_num (sb_arr x) - 1)) else num_chars x.
(** StrBodyI::nthChar (strval.h 109-177) *)
Definition r_nth_char (x : sbody) (n : Z) (mk : Z * Z) : outcome (sbody * (Z * Z) * Z) :=
  if is_raw x then Ok (x, mk, n) else nth_char x n mk.
(** StrValI::nthChar (strval.h 768-780) *)
Definition r_sv_nth (h : sheap) (s : sval) (i : Z) : outcome (sheap * (Z * Z) * option Z) :=
  if i >? v_len s then Ok (h, v_mk s, None)
  else
    do x <- sget h (v_body s);
    do r <- r_nth_char x (u32 (v_off s + i)) (v_mk s);
    Ok (sput h (v_body s) (fst (fst r)), snd (fst r), Some (snd r)).
Definition r_nth_c (h : sheap) (s : sval) (i : Z) : outcome (sheap * option Z) :=
  do r <- r_sv_nth h s i; Ok (fst (fst r), snd r).
Definition r_nth_m (h : sheap) (s : sval) (i : Z) : outcome (sheap * sval * option Z) :=
  do r <- r_sv_nth h s i;
  Ok (fst (fst r), {| v_body := v_body s; v_off := v_off s; v_len := v_len s; v_mk := snd (fst r) |}, snd r).

(** numBytes (strval.h 415-420) *)
Definition r_num_bytes (h : sheap) (s : sval) : outcome (sheap * Z) :=
  do r <- r_nth_c h s (v_len s);
  match snd r with
  | None => Abort
  | Some ep => do r2 <- r_nth_c (fst r) s 0;
               match snd r2 with
               | None => UB
               | Some cp => Ok (fst r2, u32 (ep - cp))
               end
  end.

(** getChar at byte [p] (strval.h 787-792): [*cp] is a (signed) char, which
    becomes a UCS4. *)
Definition char_value (b : Z) : Z := u32 (if b <? 128 then b else b - 256).
Definition r_get (h : sheap) (s : sval) (p : Z) : outcome Z :=
  do x <- sget h (v_body s); do m <- smem x;
  if p <? 0 then UB
  else if is_raw x then do b <- rdZ m p; Ok (char_value b)
  else do c <- UTF8Get (skipn (Z.to_nat p) m); Ok (fst c).
(** operator[] (strval.h 423-431) *)
Definition r_index (h : sheap) (s : sval) (i : Z) : outcome (sheap * Z) :=
  if u32 i =? v_len s then Ok (h, 0)
  else
    do r <- r_nth_c h s (u32 i);
    match snd r with
    | None => Ok (fst r, UCS4_NONE)
    | Some p => do c <- r_get (fst r) s p; Ok (fst r, c)
    end.

(** compare with CompareRaw, operator== (strval.h 449-451, 857-878) *)
Definition r_compare (h : sheap) (s t : sval) : outcome Z :=
  do a <- r_nth_c h s 0; do b <- r_nth_c (fst a) t 0;
  match snd a, snd b with
  | Some p, Some q =>
      do n <- r_num_bytes (fst b) s;
      do ma <- sv_mem (fst n) s; do mb <- sv_mem (fst n) t;
      if (p <? 0) || (q <? 0) then UB
      else
        do c <- memcmp (skipn (Z.to_nat p) ma) (skipn (Z.to_nat q) mb) (Z.to_nat (snd n));
        if c =? 0 then do k <- r_num_bytes (fst n) t; Ok (s32 (snd n - snd k)) else Ok c
  | _, _ => UB
  end.
Definition r_equal (h : sheap) (s t : sval) : outcome bool :=
  if v_len s =? v_len t then do c <- r_compare h s t; Ok (c =? 0) else Ok false.

(** find(UCS4) from the beginning (strval.h 495-507): it looks at the character
    after the last one, too. *)
Fixpoint r_find_loop (fuel : nat) (h : sheap) (s : sval) (ch n : Z) : outcome Z :=
  match fuel with
  | O => UB
  | S f =>
      do r <- r_nth_c h s n;
      match snd r with
      | None => Ok (-1)
      | Some p => do c <- r_get (fst r) s p; if c =? ch then Ok (s32 n) else r_find_loop f (fst r) s ch (u32 (n + 1))
      end
  end.
Definition r_find (h : sheap) (s : sval) (ch : Z) : outcome Z := r_find_loop (Z.to_nat (v_len s) + 2) h s ch 0.

(** copyBody (strval.h 793-805): the new body is raw if the old one is. *)
Definition r_copy_body (h : sheap) (s : sval) : outcome (sheap * sval) :=
  let save := v_mk s in
  do r1 <- r_nth_m h s 0;
  let '(h1, s1, cp) := r1 : sheap * sval * option Z in
  do r2 <- r_nth_m h1 s1 (v_len s);
  let '(h2, s2, ep) := r2 : sheap * sval * option Z in
  match cp, ep with
  | Some cp, Some ep =>
      do x <- sget h2 (v_body s2); do m <- smem x;
      if cp <? 0 then UB
      else
        do y <- r_new (is_raw x) (skipn (Z.to_nat cp) m) (u32 (ep - cp)) 1;
        do h3 <- srelease (h2 ++ [Some y]) (v_body s);
        Ok (h3, {| v_body := length h2; v_off := 0; v_len := v_len s;
                   v_mk := (u32 (fst save - v_off s), u32 (snd save - cp)) |})
  | _, _ => UB
  end.
(** Unshare (strval.h 807-814) *)
Definition r_unshare (h : sheap) (s : sval) : outcome (sheap * sval) :=
  do x <- sget h (v_body s);
  do r <- (if is_static x
           then do p <- r_num x; Ok (sput h (v_body s) (fst p), u32 (v_off s + v_len s) <? snd p)
           else Ok (h, false));
  let (h1, must) := r : sheap * bool in
  if must || is_shared x then r_copy_body h1 s else Ok (h1, s).
(** The copy constructor (strval.h 390-395) *)
Definition r_copy_val (h : sheap) (s : sval) : outcome (sheap * sval) :=
  do h1 <- saddref h (v_body s);
  let s1 := {| v_body := v_body s; v_off := v_off s; v_len := v_len s; v_mk := (0, 0) |} in
  do x <- sget h1 (v_body s);
  if is_static x then r_unshare h1 s1 else Ok (h1, s1).
(** substr (strval.h 465-485), as in StrModel *)
Definition r_substr (h : sheap) (s : sval) (at_ len : Z) : outcome (sheap * sval) :=
  let mk n := do h1 <- saddref h (v_body s);
              Ok (h1, {| v_body := v_body s; v_off := u32 (v_off s + at_); v_len := n; v_mk := (0, 0) |}) in
  if (len <? -1) || (len =? 0) || (at_ >=? v_len s) then r_copy_val h null_val
  else if len >? 0 then
    if len >? u32 (v_len s - at_) then mk (u32 (v_len s - at_)) else mk len
  else mk (u32 (v_len s - at_)).

(** insertBytes (strval.h 181-186) *)
Definition r_insert_bytes (x : sbody) (pos : Z) (src : source Z) (len : Z) : outcome sbody :=
  do a <- body_insert (sb_arr x) pos src len;
  Ok {| sb_arr := a; sb_n := if is_raw x then sb_n x else 0 |}.
(** insert (strval.h 686-706) *)
Definition r_insert (h : sheap) (s : sval) (pos : Z) (w : sval) (self : bool) : outcome (sheap * sval) :=
  if (pos =? v_len s) && Nat.eqb (v_body s) (v_body w) && (u32 (v_off s + pos) =? v_off w) then
    Ok (h, {| v_body := v_body s; v_off := v_off s; v_len := u32 (v_len s + v_len w); v_mk := v_mk s |})
  else
    do r <- r_unshare h s;
    let (h1, s1) := r : sheap * sval in
    let w := if self then s1 else w in
    do ra <- r_nth_c h1 w 0;
    do rb <- r_nth_c (fst ra) w (v_len w);
    match snd ra, snd rb with
    | Some ap, Some ae =>
        do m <- sv_mem (fst rb) w;
        do rp <- r_nth_m (fst rb) s1 pos;
        let '(h2, s2, p) := rp : sheap * sval * option Z in
        do rq <- r_nth_m h2 s2 0;
        let '(h3, s3, q) := rq : sheap * sval * option Z in
        match p, q with
        | Some p, Some q =>
            do x <- sget h3 (v_body s3);
            do x' <- r_insert_bytes x (u32 (p - q)) (if self then Self ap else Ext (fun i => rdZ m (ap + i))) (u32 (ae - ap));
            Ok (sput h3 (v_body s3) x',
                {| v_body := v_body s3; v_off := v_off s3; v_len := u32 (v_len s3 + v_len w); v_mk := v_mk s3 |})
        | _, _ => UB
        end
    | _, _ => UB
    end.
(** operator+=(StrVal) (strval.h 654-661) *)
Definition r_add_eq (h : sheap) (s w : sval) (self : bool) : outcome (sheap * sval) :=
  do x <- sget h (v_body w);
  if (v_len s =? 0) && negb (is_static x) then assign_val h s w
  else r_insert h s (v_len s) w self.

(** StrVal(data, StrRawBinary), StrVal(data) (strval.h 311-316): NUL terminated
    data; no data is the null body. *)
Definition r_lit (h : sheap) (bs : list Z) (raw : bool) : outcome (sheap * sval) :=
  match bs with
  | [] => make h [0] 0 0
  | _ =>
      do y <- r_new raw (bs ++ [0]) 0 1;
      do r <- r_num y;
      Ok (h ++ [Some (fst r)], {| v_body := length h; v_off := 0; v_len := snd r; v_mk := (0, 0) |})
  end.

(** StrVal(new StrBody(data, StrRawBinary, len)) (strval.h 80-90, 342-343): [len]
    bytes and the one after them are read; 0 means NUL terminated. *)
Definition r_body (h : sheap) (data : list Z) (len : Z) : outcome (sheap * sval) :=
  do y <- r_new true data len 1;
  do r <- r_num y;
  Ok (h ++ [Some (fst r)], {| v_body := length h; v_off := 0; v_len := snd r; v_mk := (0, 0) |}).

(** operator+(StrVal) (strval.h 625-639): StrVal(cp, len, allocate) makes UTF-8. *)
Definition r_plus (h : sheap) (s w : sval) : outcome (sheap * sval) :=
  if Nat.eqb (v_body s) (v_body w) && (u32 (v_off s + v_len s) =? v_off w) then
    do h1 <- saddref h (v_body s);
    Ok (h1, {| v_body := v_body s; v_off := v_off s; v_len := u32 (v_len s + v_len w); v_mk := (0, 0) |})
  else
    do r <- r_nth_c h s 0;
    match snd r with
    | None => UB
    | Some cp =>
        do r2 <- r_num_bytes (fst r) s;
        do r3 <- r_num_bytes (fst r2) w;
        do m <- sv_mem (fst r3) s;
        if cp <? 0 then UB
        else
          do r4 <- make (fst r3) (skipn (Z.to_nat cp) m) (snd r2) (u32 (snd r2 + snd r3));
          let (h4, t) := r4 : sheap * sval in
          r_add_eq h4 t w false
    end.

(** toLower / toUpper (strval.h 188-233, 714-727): transform() begins with
    num_chars = 0 (strval.h 895), so that it goes through the bytes as UTF-8 and
    leaves a body that is not raw. *)
Definition r_to_case (upper : bool) (h : sheap) (s : sval) : outcome (sheap * sval) :=
  do r <- r_unshare h s;
  let (h1, s1) := r : sheap * sval in
  do x <- sget h1 (v_body s1);
  do y <- transform x (case_bytes upper);
  do m <- smem y;
  let y0 := if forallb (fun b => b <? 128) m then y else {| sb_arr := sb_arr y; sb_n := 0 |} in
  do p <- r_num y0;
  Ok (sput h1 (v_body s1) (fst p), {| v_body := v_body s1; v_off := v_off s1; v_len := snd p; v_mk := v_mk s1 |}).

(** asUTF8() (strval.h 432-438) *)
Definition r_as_utf8 (h : sheap) (s : sval) : outcome (sheap * sval * Z) :=
  do x <- sget h (v_body s);
  do r <- r_num x;
  let h1 := sput h (v_body s) (fst r) in
  do r2 <- (if u32 (v_off s + v_len s) <? snd r then r_copy_body h1 s else Ok (h1, s));
  let (h2, s2) := r2 : sheap * sval in
  do r3 <- r_nth_m h2 s2 0;
  match snd r3 with
  | Some p => Ok (fst r3, p)
  | None => UB
  end.

(** ** Programs *)
Inductive rop :=
| RLit (d : nat) (bs : list Z)             (* d = StrVal(data, StrRawBinary) *)
| RBody (d : nat) (data : list Z) (len : Z)  (* d = StrVal(new StrBody(data, StrRawBinary, len)) *)
| RAssign (d v : nat)                      (* d = v *)
| RCopy (d v : nat)                        (* d = StrVal(v) *)
| RSubstr (d v : nat) (at_ len : Z)        (* d = v.substr(at, len) *)
| RInsert (v : nat) (pos : Z) (w : nat)    (* v.insert(pos, w) *)
| RAddEq (v w : nat)                       (* v += w *)
| RAsUTF8 (v : nat)                        (* v.asUTF8() *)
| RText (d : nat) (bs : list Z)            (* d = StrVal(data), UTF-8 *)
| RPlus (d v w : nat)                      (* d = v + w *)
| RToCase (v : nat) (upper : bool).        (* v.toLower() / v.toUpper() *)

Definition rstep (st : sstate) (o : rop) : outcome sstate :=
  let h := sh st in
  let on v (k : sval -> outcome sstate) := match nth_error (sv st) v with Some s => k s | None => Ok st end in
  match o with
  | RLit d bs => sassign st d (r_lit h bs true)
  | RBody d data len => sassign st d (r_body h data len)
  | RText d bs => sassign st d (r_lit h bs false)
  | RAssign d v => on v (fun s => on d (fun old => sstore st d (assign_val h old s)))
  | RCopy d v => on v (fun s => sassign st d (r_copy_val h s))
  | RSubstr d v at_ len => on v (fun s => sassign st d (r_substr h s at_ len))
  | RPlus d v w => on v (fun s => on w (fun t => sassign st d (r_plus h s t)))
  | RInsert v pos w => on v (fun s => on w (fun t => sstore st v (r_insert h s pos t (Nat.eqb v w))))
  | RAddEq v w => on v (fun s => on w (fun t => sstore st v (r_add_eq h s t (Nat.eqb v w))))
  | RToCase v up => on v (fun s => sstore st v (r_to_case up h s))
  | RAsUTF8 v => on v (fun s => sstore st v (do r <- r_as_utf8 h s; Ok (fst r)))
  end.
Fixpoint rrun (st : sstate) (os : list rop) : outcome sstate :=
  match os with
  | [] => Ok st
  | o :: r => do st' <- rstep st o; rrun st' r
  end.
