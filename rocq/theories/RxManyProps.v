(** C40: patterns that never return. *)
From Coq Require Import String Ascii.
From Verif Require Import Base UTF8Model CharModel RxCompModel RxModel RxSpec RxVm RxProg RxSpellSpec RxStraight RxQuant RxMany RxProps RxQuantProps.
From Verif Require RxSpell RxShort.
Local Open Scope list_scope.
Local Open Scope Z_scope.
Local Notation AllF := AllFeatures.

(** How many items at the beginning can be left out *)
Definition optional_first (r : rx) : nat := match r with XSeq s => leading (quants s) | XAlt _ _ => O end.
(** A sequence of quantified characters, [.], classes, \s \d \h with eleven or
    more items with ? or * at its beginning ends the program in every search,
    with twelve or more also in every match at an offset, whatever the text
    (the ten of RxQuantProps.v are the most that a search takes). *)
Theorem C40_many_optional_refuted : forall r re prog m f g t off,
  wf r -> plain r -> written r re -> short_program AllF 0 re -> compile AllF 0 re = Ok (Some prog, m) -> (40 < f)%nat ->
  ((11 <= optional_first r)%nat -> match_after f g prog t off = Abort) /\
  ((12 <= optional_first r)%nat -> match_at f g prog t off = Abort).
Proof.
  intros r re prog m f g t off Hw HS HW HL HC Hf. destruct r as [s|s r]; [|destruct HS]. cbn [plain optional_first] in *.
  destruct (many_abort s re prog m Hw HS HW HL HC f g t off Hf) as [A B]. split; assumption.
Qed.

Definition eleven_rx : rx :=
  XSeq (opt "a" QOpt (opt "b" QStar (opt "c" QOpt (opt "d" QOpt (opt "e" QOpt (opt "f" QOpt (opt "g" QStar (opt "h" QOpt (opt "i" QOpt
       (opt "j" QOpt (opt "k" QOpt (opt "l" QPlus SNil)))))))))))).
Definition eleven_re : string := "a?b*c?d?e?f?g*h?i?j?k?l+".
Example C40_many_optional_example : wf eleven_rx /\ plain eleven_rx /\ written eleven_rx (chars eleven_re) /\ short_program AllF 0 (chars eleven_re) /\
  (exists prog, compile AllF 0 (chars eleven_re) = Ok (Some prog, None)) /\ optional_first eleven_rx = 11%nat /\
  try_after eleven_re "l" 0 = Abort /\ try_at eleven_re "l" 0 = Ok (Some (0, Some 1)).
Proof.
  assert (W : wf eleven_rx).
  { assert (O : forall x, (0 <? x) && (x <? 2^31) = true -> ok_char x) by (unfold ok_char; lia).
    cbn [eleven_rx opt wf wf_sq wf_item wf_atom]. repeat apply conj; try exact I; apply O; reflexivity. }
  split; [exact W|]. split; [cbn; repeat split|]. split.
  - replace (chars eleven_re) with (show eleven_rx) by (vm_compute; reflexivity). apply RxSpell.show_spelt, W.
  - split; [apply RxShort.short_83; vm_compute; lia|]. split; [eexists; vm_compute; reflexivity|]. split; [reflexivity|]. split; vm_compute; reflexivity.
Qed.

Print Assumptions C40_many_optional_refuted.
