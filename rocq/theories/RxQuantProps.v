(** C40 without the check of RxCheck.v, with quantifiers: the matcher returns
    for every sequence of quantified characters, [.], classes, \s \d \h in which
    at most ten items in a row may be left out. *)
From Coq Require Import String Ascii.
From Verif Require Import Base UTF8Model CharModel RxCompModel RxModel RxSpec RxVm RxProg RxSpellSpec RxStraight RxQuant RxProps.
From Verif Require RxSpell RxShort.
Local Open Scope list_scope.
Local Open Scope Z_scope.
Local Notation AllF := AllFeatures.

(** The number of items *)
Definition length_of (r : rx) : nat := match r with XSeq s => items s | XAlt _ _ => O end.
Lemma quants_items s : List.length (quants s) = items s.
Proof. induction s as [|i s IH]; [reflexivity|]. cbn [quants List.length items]. rewrite IH. reflexivity. Qed.
Lemma quant_returns r re prog m f g t off :
  wf r -> plain r -> few_in_a_row r -> written r re -> short_program AllF 0 re -> compile AllF 0 re = Ok (Some prog, m) ->
  (2 * length_of r + 12 < f)%nat -> 0 <= off -> (exists res, match_at f g prog t off = Ok res) /\ exists res, match_after f g prog t off = Ok res.
Proof.
  intros Hw HS HF HW HL HC Hf Ho. destruct r as [s|s r]; [|destruct HS]. cbn [plain few_in_a_row length_of] in *.
  destruct s as [|i s].
  - apply (straight_returns SNil re prog m Hw Logic.I HW HL HC); [cbn [pieces List.length]; lia|exact Ho].
  - apply (plain_returns (SCons i s) re prog m Hw HS HF ltac:(discriminate) HW HL HC); [rewrite quants_items; exact Hf|exact Ho].
Qed.

(** At a given offset of any text (with NULs or not): the matcher returns, the
    longest match from there, or none exactly if there is none.  [plain] and
    [few_in_a_row]: RxQuant.v; f bounds the depth of the recursion of addthread. *)
Theorem C40_quantified_match_at_partial : forall r re prog m f g t off,
  wf r -> plain r -> few_in_a_row r -> written r re -> short_program AllF 0 re -> compile AllF 0 re = Ok (Some prog, m) ->
  (2 * length_of r + 12 < f)%nat -> 0 <= off <= Z.of_nat (List.length t) ->
  exists res, match_at f g prog t off = Ok res /\
    match r_cap1 res with
    | Some e => r_cap0 res = off /\ matches t r off e /\ forall e', matches t r off e' -> e' <= e
    | None => forall e, ~ matches t r off e
    end.
Proof.
  intros r re prog m f g t off Hw HS HF HW HL HC Hf Ho.
  destruct (quant_returns r re prog m f g t off Hw HS HF HW HL HC Hf ltac:(lia)) as [(res & E) _].
  exists res. split; [exact E|]. exact (C40_match_at_partial _ re prog m t off f g res Hw HW HL HC Ho E).
Qed.

(** Searching from an offset on, in texts without NUL: the leftmost match, and the longest one there. *)
Theorem C40_quantified_match_after_partial : forall r re prog m f g t off,
  wf r -> plain r -> few_in_a_row r -> written r re -> short_program AllF 0 re -> compile AllF 0 re = Ok (Some prog, m) ->
  (2 * length_of r + 12 < f)%nat -> 0 <= off <= Z.of_nat (List.length t) -> ~ In 0 t ->
  exists res, match_after f g prog t off = Ok res /\
    match r_cap1 res with
    | Some e => off <= r_cap0 res /\ matches t r (r_cap0 res) e /\
        forall o' e', off <= o' <= Z.of_nat (List.length t) -> matches t r o' e' -> r_cap0 res < o' \/ (r_cap0 res = o' /\ e' <= e)
    | None => forall o e, off <= o <= Z.of_nat (List.length t) -> ~ matches t r o e
    end.
Proof.
  intros r re prog m f g t off Hw HS HF HW HL HC Hf Ho HN.
  destruct (quant_returns r re prog m f g t off Hw HS HF HW HL HC Hf ltac:(lia)) as [_ (res & E)].
  exists res. split; [exact E|]. exact (C40_match_after_partial _ re prog m t off f g res Hw HW HL HC Ho HN E).
Qed.

(** Texts with a NUL too: the search returns. *)
Theorem C40_quantified_search_returns_partial : forall r re prog m f g t off,
  wf r -> plain r -> few_in_a_row r -> written r re -> short_program AllF 0 re -> compile AllF 0 re = Ok (Some prog, m) ->
  (2 * length_of r + 12 < f)%nat -> 0 <= off -> exists res, match_after f g prog t off = Ok res.
Proof. intros r re prog m f g t off Hw HS HF HW HL HC Hf Ho. apply (quant_returns r re prog m f g t off); assumption. Qed.

(** Ten in a row are not too many *)
Definition opt (s : string) (q : quant) (r : sq) : sq := SCons (It (AChar (c s)) q) r.
Definition quant_rx : rx :=
  XSeq (opt "a" QPlus (opt "b" QOpt (opt "c" QStar (opt "d" QOpt (opt "e" QOpt (opt "f" QOpt (opt "g" QStar (opt "h" QOpt (opt "i" QOpt
       (opt "j" QOpt (opt "k" QOpt (SCons (It (AProp (c "d")) QPlus) (SCons (It (AClass true [(c "x", c "z")]) QStar) (SCons (It AAny QOne) SNil)))))))))))))).
Definition quant_re : string := "a+b?c*d?e?f?g*h?i?j?k?\d+[^x-z]*.".
Example C40_quantified_example : wf quant_rx /\ plain quant_rx /\ few_in_a_row quant_rx /\ written quant_rx (chars quant_re) /\ short_program AllF 0 (chars quant_re) /\
  (exists prog, compile AllF 0 (chars quant_re) = Ok (Some prog, None)) /\ length_of quant_rx = 14%nat /\
  try_after quant_re "baaccgk12??z." 0 = Ok (Some (1, Some 12)) /\
  (* eleven are *)
  try_after "a?b?c?d?e?f?g?h?i?j?k?" "z" 0 = Abort /\ try_after "a?b?c?d?e?f?g?h?i?j?" "z" 0 = Ok (Some (0, Some 0)).
Proof.
  assert (W : wf quant_rx).
  { assert (O : forall x, (0 <? x) && (x <? 2^31) = true -> ok_char x) by (unfold ok_char; lia).
    cbn [quant_rx opt wf wf_sq wf_item wf_atom]. repeat apply conj; try exact I; try (apply O; reflexivity); [right; left; reflexivity|discriminate|].
    repeat constructor; apply O; reflexivity. }
  split; [exact W|]. split; [cbn; repeat split|]. split; [cbn; repeat split; lia|]. split.
  - replace (chars quant_re) with (show quant_rx) by (vm_compute; reflexivity). apply RxSpell.show_spelt, W.
  - split; [apply RxShort.short_83; vm_compute; lia|]. split; [eexists; vm_compute; reflexivity|]. split; [reflexivity|]. split; [vm_compute; reflexivity|]. split; vm_compute; reflexivity.
Qed.

Print Assumptions C40_quantified_match_at_partial.
Print Assumptions C40_quantified_match_after_partial.
Print Assumptions C40_quantified_search_returns_partial.
