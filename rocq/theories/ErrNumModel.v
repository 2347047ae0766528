(** Model of ErrNum, include/error.h 38-77.  Values are the mathematical values
    of the [int32_t] member; bit operations on [Z] are two's complement. *)
From Verif Require Import Base.

Definition ERR_FLAG : Z := 0x8000000.  (* error.h 41 *)
Definition ERR_CUST : Z := 0x4000000.  (* error.h 42 *)

(** error.h 44-45 *)
Definition ErrNum0 : Z := 0.
(** error.h 46-47; the shift cannot overflow: (set & 0xFFFF) << 14 < 2^30. *)
Definition ErrNum2 (set msg : Z) : Z :=
  Z.lor (Z.lor (Z.lor ERR_FLAG ERR_CUST) (Z.shiftl (Z.land set 0xFFFF) 14)) (Z.land msg 0x3FFF).
(** error.h 48-49 *)
Definition ErrNum1 (setmsg : Z) : Z :=
  if setmsg =? 0 then 0 else Z.lor (Z.lor setmsg ERR_FLAG) ERR_CUST.
(** error.h 54-55 *)
Definition err_set (e : Z) : Z := Z.land (Z.shiftr e 14) 0xFFFF.
(** error.h 56-57 *)
Definition err_msg (e : Z) : Z := Z.land e 0x3FFF.
(** error.h 58-59 *)
Definition err_eq (e f : Z) : bool := e =? f.
