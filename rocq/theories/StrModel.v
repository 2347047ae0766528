(** Model of StrVal (include/strval.h): reference counted UTF-8 bodies, slices
    by character number, the bookmark of every string variable and the cached
    character count of every body.  Index is uint32_t (strval.h 31-32).
    Bodies are ArrayBody<char> values of ArrayModel.v, so storage growth,
    copying loops and self-aliasing are those of the array code.

    Simplifications: StrRawBinary data is modelled in RawModel.v, static data
    without a terminating NUL is not modelled; forming (and comparing) a pointer outside its buffer
    is not counted as undefined, only reading through one is; a returned local
    is constructed in place (copy elision); single threaded (C14, C46 treat
    the counts under threads); UCS4ToLower/ToUpper are called with memo 0 (C10:
    the memo does not influence the result). *)
From Verif Require Import Base RefModel UTF8Model ArrayModel ArraySpec CharModel UTF16Model.

(** StrBodyI (strval.h 64-280): the array and num_chars (0 = not counted). *)
Record sbody := { sb_arr : body Z; sb_n : Z }.
Definition sheap := list (option sbody).
(** StrRefI's members (strval.h 360-362) and StrValI's bookmark (strval.h 785):
    character number and byte number. *)
Record sval := { v_body : nat; v_off : Z; v_len : Z; v_mk : Z * Z }.

Definition sget (h : sheap) (b : nat) : outcome sbody :=
  match nth_error h b with Some (Some x) => Ok x | _ => UB end.
Definition sput (h : sheap) (b : nat) (x : sbody) : sheap := upd h b (Some x).
Definition with_refs (x : sbody) (n : Z) : sbody :=
  {| sb_arr := set_refs (sb_arr x) n; sb_n := sb_n x |}.
(** refcount.h 16-17 *)
Definition saddref (h : sheap) (b : nat) : outcome sheap :=
  do x <- sget h b; Ok (sput h b (with_refs x (b_refs (sb_arr x) + 1))).
Definition srelease (h : sheap) (b : nat) : outcome sheap :=
  do x <- sget h b;
  cassert (b_refs (sb_arr x) >? 0)
    (if b_refs (sb_arr x) - 1 =? 0 then Ok (upd h b None)
     else Ok (sput h b (with_refs x (b_refs (sb_arr x) - 1)))).

(** start[0 .. num_elements), the terminating NUL included. *)
Definition smem (x : sbody) : outcome (list Z) :=
  match all_some (firstn (Z.to_nat (b_num (sb_arr x))) (b_data (sb_arr x))) with
  | Some l => Ok l
  | None => UB
  end.

Definition UCS4_NONE : Z := 0xFFFFFFFF.           (* char_encoding.h 50 *)

(** countChars (strval.h 249-265): from byte [cp] to [ep], adding to [n]. *)
Fixpoint count_loop (fuel : nat) (m : list Z) (cp ep : nat) (n : Z) : outcome Z :=
  if (cp <? ep)%nat then
    match fuel with
    | O => UB
    | S f =>
      do r <- UTF8Get (skipn cp m);
      if (fst r =? UCS4_NONE) || (ep <? cp + snd r)%nat then Ok n
      else count_loop f m (cp + snd r) ep (u32 (n + 1))
    end
  else Ok n.

(** numChars (strval.h 99-106); num_elements > 0 always. *)
Definition num_chars (x : sbody) : outcome (sbody * Z) :=
  if sb_n x =? 0 then
    do m <- smem x;
    do n <- count_loop (length m) m 0 (length m - 1) 0;
    Ok ({| sb_arr := sb_arr x; sb_n := n |}, n)
  else Ok (x, sb_n x).

(** The forward search of nthChar (strval.h 153-157); characters are compared as
    unsigned 32-bit numbers, [up] is a byte number. *)
Fixpoint fwd (fuel : nat) (m : list Z) (up sc ep n : Z) : outcome Z :=
  if (sc <? n) && (up <? ep) then
    match fuel with
    | O => UB
    | S f => if up <? 0 then UB
             else do k <- UTF8LenPtr (skipn (Z.to_nat up) m);
                  fwd f m (up + Z.of_nat k) (u32 (sc + 1)) ep n
    end
  else Ok up.

(** The backward search (strval.h 161-166). *)
Fixpoint bwd (fuel : nat) (m : list Z) (up ep ec n : Z) : outcome Z :=
  if (ec >? n) && (ep >? up) then
    match fuel with
    | O => UB
    | S f => do r <- UTF8Backup m ep (Some 0);
             match r with
             | Some p => bwd f m up p (u32 (ec - 1)) n
             | None => UB
             end
    end
  else Ok ep.

(** StrBodyI::nthChar (strval.h 109-177): the byte number of character [n], the
    updated bookmark, the body (whose count may have been filled in). *)
Definition nth_char (x : sbody) (n : Z) (mk : Z * Z) : outcome (sbody * (Z * Z) * Z) :=
  if (n =? 0) || (sb_n x =? b_num (sb_arr x) - 1) then Ok (x, mk, n)
  else
    do r <- num_chars x;
    let (x1, nc) := r : sbody * Z in
    cassert (n <=? nc)
      (do m <- smem x1;
       let fuel := S (length m) in
       let '(up, sc, ep, ec) :=
         if fst mk >? 0 then
           if n >=? fst mk then (snd mk, fst mk, b_num (sb_arr x) - 1, nc)
           else (0, 0, snd mk, fst mk)
         else (0, 0, b_num (sb_arr x) - 1, nc) in
       do p <- (if u32 (n - sc) <? u32 (ec - n) then fwd fuel m up sc ep n else bwd fuel m up ep ec n);
       Ok (x1, (if (n >? 3) && (n <? u32 (sb_n x1 - 3)) then (n, p) else mk), p)).

(** StrValI::nthChar (strval.h 768-780); a null pointer is [None]. *)
Definition sv_nth (h : sheap) (s : sval) (i : Z) : outcome (sheap * (Z * Z) * option Z) :=
  if i >? v_len s then Ok (h, v_mk s, None)
  else
    do x <- sget h (v_body s);
    do r <- nth_char x (u32 (v_off s + i)) (v_mk s);
    Ok (sput h (v_body s) (fst (fst r)), snd (fst r), Some (snd r)).
(** The const overload works on a copy of the bookmark ... *)
Definition nth_c (h : sheap) (s : sval) (i : Z) : outcome (sheap * option Z) :=
  do r <- sv_nth h s i; Ok (fst (fst r), snd r).
(** ... the other one updates it. *)
Definition nth_m (h : sheap) (s : sval) (i : Z) : outcome (sheap * sval * option Z) :=
  do r <- sv_nth h s i;
  Ok (fst (fst r), {| v_body := v_body s; v_off := v_off s; v_len := v_len s; v_mk := snd (fst r) |}, snd r).

(** The bytes of a string's body. *)
Definition sv_mem (h : sheap) (s : sval) : outcome (list Z) := do x <- sget h (v_body s); smem x.

(** numBytes (strval.h 415-420) *)
Definition num_bytes (h : sheap) (s : sval) : outcome (sheap * Z) :=
  do r <- nth_c h s (v_len s);
  match snd r with
  | None => Abort
  | Some ep => do r2 <- nth_c (fst r) s 0;
               match snd r2 with
               | None => UB
               | Some cp => Ok (fst r2, u32 (ep - cp))
               end
  end.

(** operator[] (strval.h 423-431); [int] argument. *)
Definition sv_index (h : sheap) (s : sval) (i : Z) : outcome (sheap * Z) :=
  if u32 i =? v_len s then Ok (h, 0)
  else
    do r <- nth_c h s (u32 i);
    match snd r with
    | None => Ok (fst r, UCS4_NONE)
    | Some p => do m <- sv_mem (fst r) s;
                if p <? 0 then UB else do c <- UTF8Get (skipn (Z.to_nat p) m); Ok (fst r, fst c)
    end.

(** strlen of the data in memory [m]. *)
Fixpoint strlen (m : list Z) : outcome Z :=
  match m with
  | [] => UB
  | b :: r => if b =? 0 then Ok 0 else do n <- strlen r; Ok (n + 1)
  end.

(** StrBodyI(data, StrUTF8, length, allocate) (strval.h 80-90); [data] is the
    memory from the pointer onwards.  The count of the result is [refs]. *)
Definition new_sbody (data : list Z) (length allocate refs : Z) : outcome sbody :=
  do n <- (if length =? 0 then strlen data else Ok length);
  do a <- new_body (rdZ data) (u32 (n + 1)) allocate;
  do d <- (if length =? 0 then Ok (b_data a) else cell_wr (b_data a) (b_num a - 1) 0);
  Ok {| sb_arr := {| b_data := d; b_num := b_num a; b_alloc := b_alloc a; b_refs := refs; b_static := false |};
        sb_n := 0 |}.
(** StrBodyI(data, StrStatic, length, 0): borrows the data; takes a reference of
    its own (array.h 524-529). *)
Definition static_sbody (bs : list Z) : sbody :=
  {| sb_arr := {| b_data := map Some (bs ++ [0]); b_num := Z.of_nat (length bs) + 1; b_alloc := 0; b_refs := 1;
                  b_static := true |};
     sb_n := 0 |}.

(** isStatic (array.h 532-533), isShared (strval.h 92-93) *)
Definition is_static (x : sbody) : bool := (b_alloc (sb_arr x) =? 0) && (b_num (sb_arr x) >? 0).
Definition is_shared (x : sbody) : bool := b_refs (sb_arr x) >? 1.

(** copyBody (strval.h 793-805) *)
Definition copy_body (h : sheap) (s : sval) : outcome (sheap * sval) :=
  let save := v_mk s in
  do r1 <- nth_m h s 0;
  let '(h1, s1, cp) := r1 : sheap * sval * option Z in
  do r2 <- nth_m h1 s1 (v_len s);
  let '(h2, s2, ep) := r2 : sheap * sval * option Z in
  match cp, ep with
  | Some cp, Some ep =>
      do m <- sv_mem h2 s2;
      if cp <? 0 then UB
      else
        do y <- new_sbody (skipn (Z.to_nat cp) m) (u32 (ep - cp)) 0 1;   (* AddRef by body = ... *)
        do h3 <- srelease (h2 ++ [Some y]) (v_body s);
        Ok (h3, {| v_body := length h2; v_off := 0; v_len := v_len s;
                   v_mk := (u32 (fst save - v_off s), u32 (snd save - cp)) |})
  | _, _ => UB
  end.

(** Unshare (strval.h 807-814) *)
Definition unshare (h : sheap) (s : sval) : outcome (sheap * sval) :=
  do x <- sget h (v_body s);
  do r <- (if is_static x
           then do p <- num_chars x; Ok (sput h (v_body s) (fst p), u32 (v_off s + v_len s) <? snd p)
           else Ok (h, false));
  let (h1, must) := r : sheap * bool in
  if must || is_shared x then copy_body h1 s else Ok (h1, s).

(** The copy constructor (strval.h 390-395); the bookmark is not copied. *)
Definition copy_val (h : sheap) (s : sval) : outcome (sheap * sval) :=
  do h1 <- saddref h (v_body s);
  let s1 := {| v_body := v_body s; v_off := v_off s; v_len := v_len s; v_mk := (0, 0) |} in
  do x <- sget h1 (v_body s);
  if is_static x then unshare h1 s1 else Ok (h1, s1).

(** StrVal::null, on the static nullBody, which is body 0 (strval.h 282, 843). *)
Definition null_val : sval := {| v_body := 0; v_off := 0; v_len := 0; v_mk := (0, 0) |}.

(** substr (strval.h 465-485); [at_] unsigned, [len] int. *)
Definition substr (h : sheap) (s : sval) (at_ len : Z) : outcome (sheap * sval) :=
  let mk n := do h1 <- saddref h (v_body s);
              Ok (h1, {| v_body := v_body s; v_off := u32 (v_off s + at_); v_len := n; v_mk := (0, 0) |}) in
  if (len <? -1) || (len =? 0) || (at_ >=? v_len s) then copy_val h null_val
  else if len >? 0 then
    if len >? u32 (v_len s - at_) then mk (u32 (v_len s - at_)) else mk len
  else mk (u32 (v_len s - at_)).
(** head, tail, shorter (strval.h 486-491); the Index argument becomes an int. *)
Definition head (h : sheap) (s : sval) (n : Z) := substr h s 0 (s32 n).
Definition tail (h : sheap) (s : sval) (n : Z) := substr h s (u32 (v_len s - n)) (s32 n).
Definition shorter (h : sheap) (s : sval) (n : Z) := substr h s 0 (s32 (v_len s - n)).

(** insertBytes (strval.h 181-186) *)
Definition insert_bytes (x : sbody) (pos : Z) (src : source Z) (len : Z) : outcome sbody :=
  do a <- body_insert (sb_arr x) pos src len;
  Ok {| sb_arr := a; sb_n := 0 |}.

(** insert (strval.h 686-706).  [self]: the addend is this very string; then
    its pointer [ap] points into the storage being edited. *)
Definition insert (h : sheap) (s : sval) (pos : Z) (w : sval) (self : bool) : outcome (sheap * sval) :=
  if (pos =? v_len s) && Nat.eqb (v_body s) (v_body w) && (u32 (v_off s + pos) =? v_off w) then
    Ok (h, {| v_body := v_body s; v_off := v_off s; v_len := u32 (v_len s + v_len w); v_mk := v_mk s |})
  else
    do r <- unshare h s;
    let (h1, s1) := r : sheap * sval in
    let w := if self then s1 else w in
    do ra <- nth_c h1 w 0;
    do rb <- nth_c (fst ra) w (v_len w);
    match snd ra, snd rb with
    | Some ap, Some ae =>
        do m <- sv_mem (fst rb) w;
        do rp <- nth_m (fst rb) s1 pos;
        let '(h2, s2, p) := rp : sheap * sval * option Z in
        do rq <- nth_m h2 s2 0;
        let '(h3, s3, q) := rq : sheap * sval * option Z in
        match p, q with
        | Some p, Some q =>
            do x <- sget h3 (v_body s3);
            do x' <- insert_bytes x (u32 (p - q)) (if self then Self ap else Ext (fun i => rdZ m (ap + i))) (u32 (ae - ap));
            Ok (sput h3 (v_body s3) x',
                {| v_body := v_body s3; v_off := v_off s3; v_len := u32 (v_len s3 + v_len w); v_mk := v_mk s3 |})
        | _, _ => UB
        end
    | _, _ => UB
    end.

(** The implicit assignment operator: StrRefI's (strval.h 344-350) and the bookmark. *)
Definition assign_val (h : sheap) (s w : sval) : outcome (sheap * sval) :=
  do h1 <- saddref h (v_body w); do h2 <- srelease h1 (v_body s); Ok (h2, w).

(** operator+=(StrVal) (strval.h 654-661) *)
Definition add_eq (h : sheap) (s w : sval) (self : bool) : outcome (sheap * sval) :=
  do x <- sget h (v_body w);
  if (v_len s =? 0) && negb (is_static x) then assign_val h s w
  else insert h s (v_len s) w self.

(** StrVal(data, length, allocate) (strval.h 317-329) *)
Definition make (h : sheap) (data : list Z) (length_ allocate : Z) : outcome (sheap * sval) :=
  if length_ =? 0 then
    do h1 <- saddref h 0;
    do x <- sget h1 0; do r <- num_chars x;
    Ok (sput h1 0 (fst r), {| v_body := 0; v_off := 0; v_len := snd r; v_mk := (0, 0) |})
  else
    do y <- new_sbody data length_ (u32 (if allocate <=? length_ then 0 else allocate)) 1;
    do r <- num_chars y;
    Ok (h ++ [Some (fst r)], {| v_body := length h; v_off := 0; v_len := snd r; v_mk := (0, 0) |}).

(** StrVal(data, dt) (strval.h 311-316): NUL terminated data, copied or borrowed. *)
Definition make_lit (h : sheap) (bs : list Z) (static : bool) : outcome (sheap * sval) :=
  match bs with
  | [] => make h [0] 0 0
  | _ =>
      do y <- (if static then Ok (with_refs (static_sbody bs) 2) else new_sbody (bs ++ [0]) 0 0 1);
      do r <- num_chars y;
      Ok (h ++ [Some (fst r)], {| v_body := length h; v_off := 0; v_len := snd r; v_mk := (0, 0) |})
  end.

(** StrVal(UCS4) (strval.h 330-340) *)
Definition make_char (h : sheap) (ch : Z) : outcome (sheap * sval) :=
  do y <- new_sbody (UTF8Put ch ++ [0]) (Z.of_nat (length (UTF8Put ch))) 0 1;
  Ok (h ++ [Some y], {| v_body := length h; v_off := 0; v_len := 1; v_mk := (0, 0) |}).

(** A string on a static body in a local buffer (strval.h 644-650, 666-672); when
    the expression ends the string and then the body are destroyed. *)
Definition local_char (h : sheap) (ch : Z) : outcome (sheap * sval) :=
  do r <- num_chars (with_refs (static_sbody (UTF8Put ch)) 2);
  Ok (h ++ [Some (fst r)], {| v_body := length h; v_off := 0; v_len := snd r; v_mk := (0, 0) |}).
Definition end_local (h : sheap) (t : sval) : outcome sheap :=
  do h1 <- srelease h (v_body t); Ok (upd h1 (v_body t) None).

(** operator+=(UCS4) (strval.h 662-674) *)
Definition add_eq_char (h : sheap) (s : sval) (ch : Z) : outcome (sheap * sval) :=
  do r <- local_char h ch;
  let (h1, t) := r : sheap * sval in
  do r2 <- add_eq h1 s t false;
  let (h2, s2) := r2 : sheap * sval in
  do h3 <- end_local h2 t; Ok (h3, s2).

(** operator+(StrVal) (strval.h 625-639) *)
Definition plus (h : sheap) (s w : sval) : outcome (sheap * sval) :=
  if Nat.eqb (v_body s) (v_body w) && (u32 (v_off s + v_len s) =? v_off w) then
    do h1 <- saddref h (v_body s);
    Ok (h1, {| v_body := v_body s; v_off := v_off s; v_len := u32 (v_len s + v_len w); v_mk := (0, 0) |})
  else
    do r <- nth_c h s 0;
    match snd r with
    | None => UB
    | Some cp =>
        do r2 <- num_bytes (fst r) s;
        do r3 <- num_bytes (fst r2) w;
        do m <- sv_mem (fst r3) s;
        if cp <? 0 then UB
        else
          do r4 <- make (fst r3) (skipn (Z.to_nat cp) m) (snd r2) (u32 (snd r2 + snd r3));
          let (h4, t) := r4 : sheap * sval in
          add_eq h4 t w false
    end.

(** operator+(UCS4) (strval.h 640-651) *)
Definition plus_char (h : sheap) (s : sval) (ch : Z) : outcome (sheap * sval) :=
  do r <- local_char h ch;
  let (h1, t) := r : sheap * sval in
  do r2 <- plus h1 s t;
  let (h2, res) := r2 : sheap * sval in
  do h3 <- end_local h2 t; Ok (h3, res).

(** operator*(repeats) (strval.h 675-684): the string itself gets a bookmark. *)
Fixpoint times_loop (k : nat) (h : sheap) (res s : sval) : outcome (sheap * sval) :=
  match k with
  | O => Ok (h, res)
  | S k' => do r <- add_eq h res s false;
            let (h1, res1) := r : sheap * sval in times_loop k' h1 res1 s
  end.
Definition times (h : sheap) (s : sval) (n : Z) : outcome (sheap * sval * sval) :=
  do r1 <- nth_m h s 0;
  let '(h1, s1, _) := r1 : sheap * sval * option Z in
  do r2 <- nth_m h1 s1 (v_len s);
  let '(h2, s2, _) := r2 : sheap * sval * option Z in
  do r3 <- make h2 [0] 0 0;
  let (h3, res) := r3 : sheap * sval in
  do r4 <- times_loop (Z.to_nat n) h3 res s2;
  Ok (fst r4, s2, snd r4).

(** [while (up < next) up += UTF8Len(up)] of transform (strval.h 917-921) *)
Fixpoint skip_to (fuel : nat) (m : list Z) (up next : nat) : outcome nat :=
  if (up <? next)%nat then
    match fuel with
    | O => UB
    | S f => do k <- UTF8LenPtr (skipn up m); skip_to f m (up + k) next
    end
  else Ok up.

(** StrBodyI::transform (strval.h 886-948) with after = -1 and a function that
    reads one character and returns a replacement string; the copying branch
    (931-943) is then never taken.  [f ch] are the bytes of the replacement. *)
Fixpoint transform_loop (fuel : nat) (m : list Z) (up ep : nat) (f : Z -> outcome (list Z)) (a : body Z) (n : Z)
  : outcome (body Z * Z) :=
  if (up <? ep)%nat then
    match fuel with
    | O => UB
    | S k =>
      do r <- UTF8Get (skipn up m);
      do bs <- f (fst r);
      do c <- count_loop (length bs) (bs ++ [0]) 0 (length bs) 0;
      do up' <- skip_to (length m) m up (up + snd r);
      do a' <- body_insert a (b_num a) (Ext (rdZ bs)) (Z.of_nat (length bs));
      transform_loop k m up' ep f a' (u32 (n + c))
    end
  else Ok (a, n).
Definition transform (x : sbody) (f : Z -> outcome (list Z)) : outcome sbody :=
  cassert (b_refs (sb_arr x) <=? 1)
    (do m <- smem x;
     do r <- resize {| b_data := []; b_num := 0; b_alloc := 0; b_refs := b_refs (sb_arr x); b_static := b_static (sb_arr x) |}
                    (b_num (sb_arr x) + 6);
     do t <- transform_loop (length m) m 0 (length m - 1) f (fst r) 0;
     do a <- body_insert (fst t) (b_num (fst t)) (Ext (rdZ [0])) 1;
     Ok {| sb_arr := a; sb_n := snd t |}).

(** The character functions of toLower / toUpper (strval.h 188-233). *)
Definition case_char (upper : bool) (ch : Z) : outcome Z :=
  do r <- (if upper then UCS4ToUpper 0 ch else UCS4ToLower 0 ch); Ok (fst r).
Definition case_bytes (upper : bool) (ch : Z) : outcome (list Z) :=
  do c <- case_char upper ch; Ok (UTF8Put c).
(** StrVal::toLower / toUpper (strval.h 714-727).  The body also zeroes its count
    when a non-ASCII character was written; then numChars counts again. *)
Definition to_case (upper : bool) (h : sheap) (s : sval) : outcome (sheap * sval) :=
  do r <- unshare h s;
  let (h1, s1) := r : sheap * sval in
  do x <- sget h1 (v_body s1);
  do y <- transform x (case_bytes upper);
  do m <- smem y;
  let y0 := if forallb (fun b => b <? 128) m then y else {| sb_arr := sb_arr y; sb_n := 0 |} in
  do p <- num_chars y0;
  Ok (sput h1 (v_body s1) (fst p), {| v_body := v_body s1; v_off := v_off s1; v_len := snd p; v_mk := v_mk s1 |}).
(** asLower / asUpper (strval.h 712-713) *)
Definition as_case (upper : bool) (h : sheap) (s : sval) : outcome (sheap * sval) :=
  do r <- copy_val h s;
  let (h1, t) := r : sheap * sval in to_case upper h1 t.

(** The character function of toJSON (strval.h 1107-1186) for UTF-8 data: the
    bytes packed into one_char. *)
Definition hex_digit (d : Z) : Z := nth (Z.to_nat d) [48; 49; 50; 51; 52; 53; 54; 55; 56; 57; 65; 66; 67; 68; 69; 70] 0.
Definition u4 (u : Z) : list Z :=
  [92; 117; hex_digit (Z.land (Z.shiftr u 12) 15); hex_digit (Z.land (Z.shiftr u 8) 15); hex_digit (Z.land (Z.shiftr u 4) 15); hex_digit (Z.land u 15)].
Definition json_bytes (ch : Z) : outcome (list Z) :=
  if ch =? 0 then Ok [92; 48]
  else if ch =? 34 then Ok [92; 34]
  else if ch =? 92 then Ok [92; 92]
  else if ch =? 47 then Ok [92; 47]
  else if ch =? 8 then Ok [92; 98]
  else if ch =? 12 then Ok [92; 102]
  else if ch =? 10 then Ok [92; 110]
  else if ch =? 13 then Ok [92; 114]
  else if ch =? 9 then Ok [92; 116]
  else if (ch >=? 32) && (ch <=? 0xFFFF) && negb (UTF16IsSurrogate ch) then Ok (UTF8Put ch)
  else if ch <=? 0xFFFF then Ok (u4 ch)
  else cassert (ch <=? 0xFFFFF)
    (Ok (u4 (0xD800 + Z.land (Z.shiftr ch 10) 0x3FF) ++ u4 (0xDC00 + Z.land ch 0x3FF))).
(** StrVal::toJSON / asJSON (strval.h 729-736) *)
Definition to_json (h : sheap) (s : sval) : outcome (sheap * sval) :=
  do r <- unshare h s;
  let (h1, s1) := r : sheap * sval in
  do x <- sget h1 (v_body s1);
  do y <- transform x json_bytes;
  do p <- num_chars y;
  Ok (sput h1 (v_body s1) (fst p), {| v_body := v_body s1; v_off := v_off s1; v_len := snd p; v_mk := v_mk s1 |}).
Definition as_json (h : sheap) (s : sval) : outcome (sheap * sval) :=
  do r <- copy_val h s;
  let (h1, t) := r : sheap * sval in to_json h1 t.

(** asUTF8() (strval.h 432-438): leaves the string NUL terminated. *)
Definition as_utf8 (h : sheap) (s : sval) : outcome (sheap * sval * Z) :=
  do x <- sget h (v_body s);
  do r <- num_chars x;
  let h1 := sput h (v_body s) (fst r) in
  do r2 <- (if u32 (v_off s + v_len s) <? snd r then copy_body h1 s else Ok (h1, s));
  let (h2, s2) := r2 : sheap * sval in
  do r3 <- nth_m h2 s2 0;
  match snd r3 with
  | Some p => Ok (fst r3, p)
  | None => UB
  end.

(** ** Programs over any number of string variables *)
Record sstate := { sh : sheap; sv : list sval }.

Inductive sop :=
| SLit (d : nat) (bs : list Z) (static : bool)     (* d = StrVal("..."), StrVal("...", StrStatic) *)
| SBytes (d : nat) (bs : list Z) (al : Z)          (* d = StrVal(data, length, allocate) *)
| SChar (d : nat) (ch : Z)                         (* d = StrVal(ch) *)
| SAssign (d v : nat)                              (* d = v *)
| SCopy (d v : nat)                                (* d = StrVal(v) *)
| SSubstr (d v : nat) (at_ len : Z)                (* d = v.substr(at, len) *)
| SPlus (d v w : nat)                              (* d = v + w *)
| SPlusChar (d v : nat) (ch : Z)                   (* d = v + ch *)
| STimes (d v : nat) (n : Z)                       (* d = v * n *)
| SAsCase (d v : nat) (upper : bool)               (* d = v.asLower() / v.asUpper() *)
| SAsJson (d v : nat)                              (* d = v.asJSON() *)
| SInsert (v : nat) (pos : Z) (w : nat)            (* v.insert(pos, w) *)
| SAddEq (v w : nat)                               (* v += w *)
| SAddEqChar (v : nat) (ch : Z)                    (* v += ch *)
| SToCase (v : nat) (upper : bool)                 (* v.toLower() / v.toUpper() *)
| SToJson (v : nat)                                (* v.toJSON() *)
| SAsUTF8 (v : nat)                                (* v.asUTF8() *)
| SIndex (v : nat) (i : Z).                        (* v[i] *)

(** The variable an operation is about. *)
Definition starget (o : sop) : nat :=
  match o with
  | SLit d _ _ | SBytes d _ _ | SChar d _ | SAssign d _ | SCopy d _ | SSubstr d _ _ _ | SPlus d _ _ | SPlusChar d _ _
  | STimes d _ _ | SAsCase d _ _ | SAsJson d _ => d
  | SInsert v _ _ | SAddEq v _ | SAddEqChar v _ | SToCase v _ | SToJson v | SAsUTF8 v | SIndex v _ => v
  end.

(** d = temporary; the temporary's reference passes to d, d's old one is dropped. *)
Definition sassign (st : sstate) (d : nat) (r : outcome (sheap * sval)) : outcome sstate :=
  match nth_error (sv st) d with
  | None => Ok st
  | Some old =>
      do p <- r;
      let (h, tmp) := p : sheap * sval in
      do h1 <- saddref h (v_body tmp);
      do h2 <- srelease h1 (v_body old);
      do h3 <- srelease h2 (v_body tmp);
      Ok {| sh := h3; sv := upd (sv st) d tmp |}
  end.
Definition sstore (st : sstate) (v : nat) (r : outcome (sheap * sval)) : outcome sstate :=
  do p <- r; Ok {| sh := fst p; sv := upd (sv st) v (snd p) |}.

Definition sstep (st : sstate) (o : sop) : outcome sstate :=
  let h := sh st in
  let on v (k : sval -> outcome sstate) := match nth_error (sv st) v with Some s => k s | None => Ok st end in
  match o with
  | SLit d bs static => sassign st d (make_lit h bs static)
  | SBytes d bs al => sassign st d (make h (bs ++ [0]) (Z.of_nat (length bs)) al)
  | SChar d ch => sassign st d (make_char h ch)
  | SAssign d v => on v (fun s => on d (fun old => sstore st d (assign_val h old s)))
  | SCopy d v => on v (fun s => sassign st d (copy_val h s))
  | SSubstr d v at_ len => on v (fun s => sassign st d (substr h s at_ len))
  | SPlus d v w => on v (fun s => on w (fun t => sassign st d (plus h s t)))
  | SPlusChar d v ch => on v (fun s => sassign st d (plus_char h s ch))
  | STimes d v n =>
      on v (fun s => on d (fun _ =>
        do r <- times h s n;
        let '(h1, s1, res) := r : sheap * sval * sval in
        sassign {| sh := h1; sv := upd (sv st) v s1 |} d (Ok (h1, res))))
  | SAsCase d v up => on v (fun s => sassign st d (as_case up h s))
  | SAsJson d v => on v (fun s => sassign st d (as_json h s))
  | SInsert v pos w => on v (fun s => on w (fun t => sstore st v (insert h s pos t (Nat.eqb v w))))
  | SAddEq v w => on v (fun s => on w (fun t => sstore st v (add_eq h s t (Nat.eqb v w))))
  | SAddEqChar v ch => on v (fun s => sstore st v (add_eq_char h s ch))
  | SToCase v up => on v (fun s => sstore st v (to_case up h s))
  | SToJson v => on v (fun s => sstore st v (to_json h s))
  | SAsUTF8 v => on v (fun s => sstore st v (do r <- as_utf8 h s; Ok (fst r)))
  | SIndex v i => on v (fun s => do r <- sv_index h s i; Ok {| sh := fst r; sv := sv st |})
  end.

Fixpoint srun (st : sstate) (os : list sop) : outcome sstate :=
  match os with
  | [] => Ok st
  | o :: r => do st' <- sstep st o; srun st' r
  end.

(** nullBody: a static empty text, referred to by itself, by StrVal::null and by
    every default-constructed string (strval.h 282, 301-305, 843). *)
Definition sinit (n : nat) : sstate :=
  {| sh := [Some (with_refs (static_sbody []) (2 + Z.of_nat n))]; sv := repeat null_val n |}.
