(** Model of StrVal::format (include/strformat.h:4-86).

    The format is the list of its characters and the arguments are an array of
    VarModel.v; the result is a list of characters (C22 connects strings with
    these).  int has 32 bits, and size*10+d beyond them is undefined.  [g] bounds
    the depth of the arguments in as_json. *)
From Verif Require Import Base StrModel StrNumModel.
From Verif Require Import VarModel VarJsonModel.

(** strval.h:423-431 f[i] *)
Definition at_ (f : list Z) (i : nat) : Z :=
  if (i =? length f)%nat then 0 else match nth_error f i with Some c => c | None => UCS4_NONE end.

(** strformat.h:42-43, 56-57 [while (i < m && (d = Digit(c = f[++i], 10)) >= 0) size = size*10 + d;]
    The result: i, c and size. *)
Fixpoint digit_loop (k : nat) (f : list Z) (i : nat) (c size : Z) : outcome (nat * Z * Z) :=
  if (i <? length f)%nat then
    match k with
    | O => UB
    | S k =>
      let i := S i in
      let c := at_ f i in
      do d <- Digit c 10;
      if d >=? 0 then
        if size * 10 + d >? 2147483647 then UB else digit_loop k f i c (size * 10 + d)
      else Ok (i, c, size)
    end
  else Ok (i, c, size).

(** strformat.h:33-44 the size, and 51-58 the precision *)
Definition size_at (f : list Z) (i : nat) (c : Z) : outcome (nat * Z * Z) :=
  if c =? 42 then Ok (i, c, -1)
  else
    do d <- Digit c 10;
    if d >=? 0 then digit_loop (length f) f i c d else Ok (i, c, 0).

(** strformat.h:24-29: skip an argument number (which is then ignored); [i] is
    at the character after the %.  The result: i and c. *)
Definition skip_number (f : list Z) (i : nat) : outcome (nat * Z) :=
  let c := at_ f i in
  if (i + 2 <? length f)%nat then
    do d <- Digit c 10;
    if (d >? 0) && (at_ f (i + 1) =? 36) then Ok ((i + 3)%nat, at_ f (i + 3)) else Ok (i, c)
  else Ok (i, c).

(** array.h:63-67 args[a], and the copy of the element *)
Definition arg (h : heap) (args : ref) (a : nat) : outcome (heap * variant) :=
  do l <- variants h args;
  match nth_error l a with Some e => copy h e | None => Abort end.

(** strformat.h:61-64 args[a++].as_int(); the value is never used. *)
Definition arg_int (h : heap) (args : ref) (a : nat) : outcome heap :=
  do c <- arg h args a;
  do k <- coerce (fst c) (snd c) TInteger;
  do x <- coerce_none (fst k) (snd k);
  Ok (fst x).
(** strformat.h:71 args[a++].as_strval() *)
Definition arg_str (h : heap) (args : ref) (a : nat) : outcome (heap * list Z) :=
  do c <- arg h args a;
  do k <- coerce (fst c) (snd c) TString;
  do r <- object (snd k);
  do t <- text (fst k) r;
  do x <- coerce_none (fst k) (snd k);
  Ok (fst x, t).
(** strformat.h:78 args[a++].as_json() *)
Definition arg_json (g : nat) (h : heap) (args : ref) (a : nat) : outcome (heap * list Z) :=
  do c <- arg h args a;
  do t <- as_json g (fst c) (-1) (snd c);
  do x <- coerce_none (fst c) (snd c);
  Ok (fst x, t).

(** strformat.h:14-83 the loop, from position [i] and argument [a] on; [k]
    bounds the number of its turns. *)
Fixpoint loop (k g : nat) (h : heap) (args : ref) (f : list Z) (i a : nat) (result : list Z) : outcome (heap * list Z) :=
  if (i <? length f)%nat then
    match k with
    | O => UB
    | S k =>
      let c := at_ f i in
      if negb (c =? 37) || (i =? length f - 1)%nat then loop k g h args f (S i) a (result ++ [c])
      else
        do n <- skip_number f (S i);
        do s <- size_at f (fst n) (snd n);
        let '(i, c, size) := s in
        do p <- (if (i <? length f)%nat && (at_ f i =? 46) then size_at f (S i) (at_ f (S i)) else Ok (i, c, 0));
        let '(i, c, prec) := p in
        do h <- (if size =? -1 then arg_int h args a else Ok h);
        let a := if size =? -1 then S a else a in
        do h <- (if prec =? -1 then arg_int h args a else Ok h);
        let a := if prec =? -1 then S a else a in
        if c =? 115 then
          do x <- arg_str h args a;
          loop k g (fst x) args f (S i) (S a) (result ++ snd x)
        else if (c =? 100) || (c =? 102) || (c =? 103) then
          do x <- arg_json g h args a;
          loop k g (fst x) args f (S i) (S a) (result ++ snd x)
        else loop k g h args f (S i) a result
    end
  else Ok (h, result).

(** strformat.h:4-86 *)
Definition format (g : nat) (h : heap) (f : list Z) (args : ref) : outcome (heap * list Z) :=
  loop (length f) g h args f 0 0 [].
