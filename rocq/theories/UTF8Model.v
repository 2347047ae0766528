(** Model of the UTF-8 primitives, include/char_encoding.h 91-321.
    Bytes are integers 0..255 (the source casts or masks every UTF8 it reads,
    so the signedness of [char] does not matter); UCS4 values are integers
    0..2^32-1 ([char32_t] is unsigned, so the source's [ch < 0] is false). *)
From Verif Require Import Base.

(** char_encoding.h 91-95 *)
Definition UCS4IsIllegal (ucs4 : Z) : bool :=
  (Z.land ucs4 0xFFFFFF00 =? 0x80000000) || (ucs4 =? 0xFFFFFFFF).

(** char_encoding.h 97-101 *)
Definition UTF8EncodeIllegal (illegal : Z) : Z :=
  Z.lor 0x80000000 (Z.land illegal 0xFF).

(** char_encoding.h 103-107 *)
Definition UTF8Is1st (ch : Z) : bool := negb (Z.land ch 0xC0 =? 0x80).

(** char_encoding.h 109-113 *)
Definition UTF8Is2nd (ch : Z) : bool := Z.land ch 0xC0 =? 0x80.

(** char_encoding.h 116-138 : UTF8Len(UCS4).  [ch < 0] is false for char32_t. *)
Definition UTF8Len (ch : Z) : nat :=
  if negb (Z.land ch 0x80000000 =? 0)
  then if UCS4IsIllegal ch then 1 else 6
  else if ch <? 2^7 then 1
  else if ch <? 2^11 then 2
  else if ch <? 2^16 then 3
  else if ch <? 2^21 then 4
  else if UCS4IsIllegal ch then 1
  else if ch <? 2^26 then 5
  else 6.

(** char_encoding.h 141-152 *)
Definition UTF8CorrectLen (c : Z) : nat :=
  if c <? 0x80 then 1
  else if c <? 0xC0 then 0
  else if c <? 0xE0 then 2
  else if c <? 0xF0 then 3
  else if c <? 0xF8 then 4
  else if c <? 0xFC then 5
  else 6.

(** The fall-through chain of char_encoding.h 159-170: test cp[k-1], then
    cp[k-2], ..., down to cp[1]; [None] is "goto illegal". *)
Fixpoint UTF8LenPtr_chk (m : list Z) (k : nat) : outcome bool :=
  match k with
  | O => Ok true
  | S O => Ok true
  | S k' => do b <- rd m k';
            if UTF8Is1st b then Ok false else UTF8LenPtr_chk m k'
  end.

(** char_encoding.h 155-182 : UTF8Len(const UTF8* cp); [m] is the memory from
    cp onwards. *)
Definition UTF8LenPtr (m : list Z) : outcome nat :=
  do c <- rd m 0;
  let len := UTF8CorrectLen c in
  match len with
  | O => Ok 1%nat
  | _ => do ok <- UTF8LenPtr_chk m len;
         if ok : bool then Ok len else Ok 1%nat
  end.

(** char_encoding.h 190, the table of payload masks. *)
Definition masks : list Z := [0xFF; 0x7F; 0x1F; 0x0F; 0x07; 0x03; 0x03].

(** The fall-through chain of char_encoding.h 196-214: [n] more continuation
    bytes, the first at index [i]; [None] is "goto illegal". *)
Fixpoint UTF8Get_cont (m : list Z) (n : nat) (i : nat) (ch : Z) : outcome (option Z) :=
  match n with
  | O => Ok (Some ch)
  | S n' =>
      do b <- rd m i;
      if UTF8Is1st b then Ok None
      else UTF8Get_cont m n' (S i) (Z.lor (u32 (Z.shiftl ch 6)) (Z.land b 0x3F))
  end.

(** char_encoding.h 184-229 : UTF8Get(const UTF8*& cp); [m] is the memory from
    cp onwards; the result is the character and the number of bytes cp moves. *)
Definition UTF8Get (m : list Z) : outcome (Z * nat) :=
  do c <- rd m 0;
  let len := UTF8CorrectLen c in
  match len with
  | O => Ok (UTF8EncodeIllegal c, 1%nat)
  | S n =>
      do r <- UTF8Get_cont m n 1 (Z.land c (nth len masks 0));
      match r with
      | Some ch => Ok (ch, len)
      | None => Ok (UTF8EncodeIllegal c, 1%nat)
      end
  end.

(** char_encoding.h 231-237 *)
Definition UTF8Peek (m : list Z) : outcome Z :=
  do r <- UTF8Get m; Ok (fst r).

(** The backwards scan of char_encoding.h 249-255; [n] = sp - limit + 1
    positions remain. *)
Fixpoint UTF8Backup_scan (m : list Z) (cp sp : Z) (n : nat) : outcome Z :=
  match n with
  | O => Ok (cp - 1)
  | S n' =>
      do b <- rdZ m sp;
      if UTF8Is1st b
      then if Z.of_nat (UTF8CorrectLen b) >=? cp - sp then Ok sp else Ok (cp - 1)
      else UTF8Backup_scan m cp (sp - 1) n'
  end.

(** char_encoding.h 239-257 : UTF8Backup(cp, limit) over buffer [m]; positions
    are indices in [m]; a null [limit] is [None]; a null result is [None]. *)
Definition UTF8Backup (m : list Z) (cp : Z) (limit : option Z) : outcome (option Z) :=
  let limit' := match limit with
                | None => cp - 6
                | Some l => if cp - l >? 6 then cp - 6 else l
                end in
  if limit' >=? cp then Ok None
  else do r <- UTF8Backup_scan m cp (cp - 1) (Z.to_nat (cp - limit')); Ok (Some r).

(** char_encoding.h 265, the literal "\x0\xC0\xE0\xF0\xF8\xFC" with its NUL. *)
Definition padded_leads : list Z := [0x00; 0xC0; 0xE0; 0xF0; 0xF8; 0xFC; 0x00].

(** char_encoding.h 259-271 : the bytes UTF8PutPaddedZero stores. *)
Definition UTF8PutPaddedZero (length : Z) : outcome (list Z) :=
  cassert ((length >=? 0) && (length <=? 6))
    (if length >? 1
     then do l <- rdZ padded_leads length;
          Ok (l :: repeat 0x80 (Z.to_nat (length - 1)))
     else Ok [0]).

(** One continuation byte of char_encoding.h 289-319. *)
Definition put2nd (ch : Z) (sh : Z) : Z := Z.lor 0x80 (Z.land (Z.shiftr ch sh) 0x3F).

(** char_encoding.h 274-321 : the bytes UTF8Put stores; the cast to UTF8 of
    case 1 keeps the low 8 bits. *)
Definition UTF8Put (ch : Z) : list Z :=
  match UTF8Len ch with
  | 1 => [u8 ch]
  | 2 => [Z.lor 0xC0 (Z.land (Z.shiftr ch 6) 0x1F); put2nd ch 0]
  | 3 => [Z.lor 0xE0 (Z.land (Z.shiftr ch 12) 0x0F); put2nd ch 6; put2nd ch 0]
  | 4 => [Z.lor 0xF0 (Z.land (Z.shiftr ch 18) 0x07); put2nd ch 12; put2nd ch 6; put2nd ch 0]
  | 5 => [Z.lor 0xF8 (Z.land (Z.shiftr ch 24) 0x03); put2nd ch 18; put2nd ch 12; put2nd ch 6;
          put2nd ch 0]
  | 6 => [Z.lor 0xFC (Z.land (Z.shiftr ch 30) 0x03); put2nd ch 24; put2nd ch 18; put2nd ch 12;
          put2nd ch 6; put2nd ch 0]
  | _ => []
  end%nat.

(** The decoding loop every client of UTF8Get writes ([while (cp < ep)
    UTF8Get(cp)], e.g. strval.h StrBody/StrVal loops): decode the [n] bytes at
    the start of [m].  [fuel] bounds the iterations; each step moves at least
    one byte, so [n] suffices (proved). *)
Fixpoint decode_loop (fuel : nat) (m : list Z) (n : nat) : outcome (list Z) :=
  match n with
  | O => Ok []
  | _ =>
    match fuel with
    | O => UB
    | S f =>
      do r <- UTF8Get m;
      let '(ch, k) := r in
      do rest <- decode_loop f (skipn k m) (n - k);
      Ok (ch :: rest)
    end
  end.

(** Decode the bytes of [s], which the owner keeps NUL-terminated. *)
Definition decode_all (s : list Z) : outcome (list Z) :=
  decode_loop (length s) (s ++ [0]) (length s).

Definition encode_all (chs : list Z) : list Z := concat (map UTF8Put chs).
