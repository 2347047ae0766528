(** Property theorems C08, C09: UTF-16. [scalar] (UTF16Proofs.v) is "a Unicode
    code point that is not a surrogate"; [is_u16] is "0..65535". *)
From Verif Require Import Base UTF16Model UTF16Proofs.

Theorem C08_utf16_roundtrip :
  forall ch swap rest, scalar ch ->
    exists us n, UTF16Put ch swap = Ok us /\ UTF16Len ch = Ok n /\ length us = n /\
      UTF16Get (us ++ rest) swap = Ok (ch, n) /\ UTF16LenPtr (us ++ rest) swap = Ok n.
Proof. exact utf16_roundtrip. Qed.
Print Assumptions C08_utf16_roundtrip.

Example C08_ex : scalar 0x1F389 /\ UTF16Put 0x1F389 false = Ok [0xD83C; 0xDF89] /\
                 UTF16Put 0x1F389 true = Ok [0x3CD8; 0x89DF].
Proof. repeat split; unfold scalar; try lia; vm_compute; reflexivity. Qed.

(** A surrogate code point passed to UTF16Put does not come back: the program
    aborts in UTF16Get. *)
Theorem C08_surrogate_refuted :
  exists us, UTF16Put 0xDC00 false = Ok us /\ UTF16Get us false = Abort.
Proof. eexists. split; [vm_compute; reflexivity|]. vm_compute; reflexivity. Qed.
Print Assumptions C08_surrogate_refuted.

(** C09, the part that holds: well-paired text decodes to scalar values. *)
Theorem C09_utf16_decode_partial :
  forall m (swap : bool), Forall is_u16 m ->
    (exists u r, m = u :: r /\ let c1 := if swap then UTF16Swab u else u in
       (~ (0xD800 <= c1 <= 0xDFFF) \/
        (0xD800 <= c1 <= 0xDBFF /\ exists v r', r = v :: r' /\
           0xDC00 <= (if swap then UTF16Swab v else v) <= 0xDFFF))) ->
    exists ch k, UTF16Get m swap = Ok (ch, k) /\ (k = 1 \/ k = 2)%nat /\ scalar ch.
Proof. exact utf16_get_total. Qed.
Print Assumptions C09_utf16_decode_partial.

Example C09_ex : UTF16Get [0xD83C; 0xDF89] false = Ok (0x1F389, 2%nat).
Proof. vm_compute; reflexivity. Qed.

(** An unpaired surrogate terminates the program (assert) instead of yielding
    the replacement character. *)
Theorem C09_utf16_decode_refuted :
  exists m, Forall is_u16 m /\ (2 <= length m)%nat /\ UTF16Get m false = Abort.
Proof.
  exists [0xDC00; 0x41]. split; [repeat constructor; lia|]. split; [simpl; lia|]. vm_compute; reflexivity.
Qed.
Print Assumptions C09_utf16_decode_refuted.
