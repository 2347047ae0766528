(** Property theorems C13: error numbers. *)
From Verif Require Import Base ErrNumModel ErrNumProofs.

(** The part that holds: the message survives, the number is never zero, and
    the set survives when its bits 12 and 13 are already set.  Two numbers are
    equal exactly when messages agree and sets agree outside those two bits. *)
Theorem C13_errnum_partial :
  forall set msg, 0 <= set < 2^16 -> 0 <= msg < 2^14 ->
    err_msg (ErrNum2 set msg) = msg /\
    err_set (ErrNum2 set msg) = Z.lor 0x3000 set /\
    ErrNum2 set msg <> 0 /\
    ErrNum1 (ErrNum2 set msg) = ErrNum2 set msg /\
    (forall set' msg', 0 <= set' < 2^16 -> 0 <= msg' < 2^14 ->
       (err_eq (ErrNum2 set msg) (ErrNum2 set' msg') = true <->
        msg = msg' /\ Z.lor 0x3000 set = Z.lor 0x3000 set')).
Proof.
  intros set msg Hs Hm. destruct (err_facts set msg) as (A & B & P).
  unfold folded in *. rewrite Z.mod_small in A, B by lia.
  split; [exact A|]. split; [exact B|]. split; [lia|]. split; [apply errnum1_of_2|].
  intros set' msg' Hs' Hm'. destruct (err_facts set' msg') as (A' & B' & _).
  unfold folded in *. rewrite Z.mod_small in A', B' by lia.
  unfold err_eq. rewrite Z.eqb_eq. split.
  - intros E. rewrite E in A, B. split; congruence.
  - intros [-> E]. rewrite !errnum2_eq. unfold folded.
    rewrite !(Z.mod_small set) by lia. rewrite !(Z.mod_small set') by lia. rewrite E. reflexivity.
Qed.
Print Assumptions C13_errnum_partial.

Example C13_ex : err_set (ErrNum2 0xF001 5) = 0xF001 /\ err_msg (ErrNum2 0xF001 5) = 5.
Proof. split; vm_compute; reflexivity. Qed.

(** The zero code, and construction from an existing code, change nothing. *)
Theorem C13_errnum_code : ErrNum1 0 = ErrNum0 /\ forall x, ErrNum1 (ErrNum1 x) = ErrNum1 x.
Proof. split; [reflexivity|exact errnum1_idem]. Qed.
Print Assumptions C13_errnum_code.

(** The flag bits overlap the set number: the errno set 0 reads back as
    0x3000, different sets collide, and no number is negative. *)
Theorem C13_errnum_refuted :
  err_set (ErrNum2 0 2) <> 0 /\
  (exists s s' m, 0 <= s < 2^16 /\ 0 <= s' < 2^16 /\ s <> s' /\ err_eq (ErrNum2 s m) (ErrNum2 s' m) = true) /\
  (forall set msg, ~ (ErrNum2 set msg < 0)).
Proof.
  split; [vm_compute; discriminate|]. split.
  - exists 0, 0x1000, 2. repeat split; try lia. 
  - intros set msg. destruct (err_facts set msg) as (_ & _ & P). lia.
Qed.
Print Assumptions C13_errnum_refuted.
