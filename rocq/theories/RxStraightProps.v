(** C40 without the check of RxCheck.v: the matcher returns for every pattern
    that is a sequence of characters, [.], classes, \s \d \h, ^ and $. *)
From Coq Require Import String Ascii.
From Verif Require Import Base UTF8Model CharModel RxCompModel RxModel RxSpec RxVm RxProg RxSpellSpec RxStraight RxProps.
From Verif Require RxSpell RxShort.
Local Open Scope list_scope.
Local Open Scope Z_scope.
Local Notation AllF := AllFeatures.

(** At a given offset of any text (with NULs or not): the matcher returns, and
    says that there is a match from there exactly if there is one, and where it
    ends.  [straight] and [size]: RxStraight.v; f bounds the depth of the
    recursion of addthread. *)
Theorem C40_straight_match_at_partial : forall r re prog m f g t off,
  wf r -> straight r -> written r re -> short_program AllF 0 re -> compile AllF 0 re = Ok (Some prog, m) ->
  (size r + 9 < f)%nat -> 0 <= off <= Z.of_nat (List.length t) ->
  exists res, match_at f g prog t off = Ok res /\
    match r_cap1 res with
    | Some e => r_cap0 res = off /\ matches t r off e
    | None => forall e, ~ matches t r off e
    end.
Proof.
  intros r re prog m f g t off Hw HS HW HL HC Hf Ho. destruct r as [s|s r]; [|destruct HS]. cbn [straight size] in *.
  destruct (straight_returns s re prog m Hw HS HW HL HC f g t off ltac:(rewrite pieces_items; exact Hf) ltac:(lia)) as [(res & E) _].
  exists res. split; [exact E|]. pose proof (C40_match_at_partial _ re prog m t off f g res Hw HW HL HC Ho E) as G.
  destruct (r_cap1 res); [|exact G]. tauto.
Qed.

(** Searching from an offset on, in texts without NUL: the leftmost match. *)
Theorem C40_straight_match_after_partial : forall r re prog m f g t off,
  wf r -> straight r -> written r re -> short_program AllF 0 re -> compile AllF 0 re = Ok (Some prog, m) ->
  (size r + 9 < f)%nat -> 0 <= off <= Z.of_nat (List.length t) -> ~ In 0 t ->
  exists res, match_after f g prog t off = Ok res /\
    match r_cap1 res with
    | Some e => off <= r_cap0 res /\ matches t r (r_cap0 res) e /\
        forall o' e', off <= o' <= Z.of_nat (List.length t) -> matches t r o' e' -> r_cap0 res <= o'
    | None => forall o e, off <= o <= Z.of_nat (List.length t) -> ~ matches t r o e
    end.
Proof.
  intros r re prog m f g t off Hw HS HW HL HC Hf Ho HN. destruct r as [s|s r]; [|destruct HS]. cbn [straight size] in *.
  destruct (straight_returns s re prog m Hw HS HW HL HC f g t off ltac:(rewrite pieces_items; exact Hf) ltac:(lia)) as [_ (res & E)].
  exists res. split; [exact E|]. pose proof (C40_match_after_partial _ re prog m t off f g res Hw HW HL HC Ho HN E) as G.
  destruct (r_cap1 res); [|exact G]. destruct G as (A & B & C). split; [exact A|]. split; [exact B|].
  intros o' e' So M. destruct (C o' e' So M); lia.
Qed.

(** Texts with a NUL too: the search returns. *)
Theorem C40_straight_search_returns_partial : forall r re prog m f g t off,
  wf r -> straight r -> written r re -> short_program AllF 0 re -> compile AllF 0 re = Ok (Some prog, m) ->
  (size r + 9 < f)%nat -> 0 <= off -> exists res, match_after f g prog t off = Ok res.
Proof.
  intros r re prog m f g t off Hw HS HW HL HC Hf Ho. destruct r as [s|s r]; [|destruct HS]. cbn [straight size] in *.
  apply (straight_returns s re prog m Hw HS HW HL HC f g t off); [rewrite pieces_items; exact Hf|exact Ho].
Qed.

(** ^ and $ between characters, more of them than addthread nests *)
Definition straight_rx : rx :=
  XSeq (SCons ItBol (SCons (It (AChar (c "a")) QOne) (SCons (It (AChar (c ".")) QOne) (SCons ItEol (SCons ItEol (SCons ItBol (SCons ItEol (SCons ItBol
       (SCons ItEol (SCons ItBol (SCons ItEol (SCons (It AAny QOne) (SCons ItBol (SCons (It (AProp (c "d")) QOne) (SCons (It (AClass true [(c "x", c "z"); (c "]", c "]")]) QOne)
       (SCons ItEol SNil)))))))))))))))).
Definition straight_re : string := "^a\.$$^$^$^$.^\d[^x-z\]]$".
Example C40_straight_example : wf straight_rx /\ straight straight_rx /\ written straight_rx (chars straight_re) /\ short_program AllF 0 (chars straight_re) /\
  (exists prog, compile AllF 0 (chars straight_re) = Ok (Some prog, None)) /\ size straight_rx = 16%nat /\
  try_after "^a.$.^\da" "a.
1a" 0 = Ok (Some (0, Some 5)).
Proof.
  assert (W : wf straight_rx).
  { assert (O : forall x, (0 <? x) && (x <? 2^31) = true -> ok_char x) by (unfold ok_char; lia).
    cbn [straight_rx wf wf_sq wf_item wf_atom]. repeat apply conj; try exact I; try (apply O; reflexivity); [right; left; reflexivity|discriminate|].
    repeat constructor; apply O; reflexivity. }
  split; [exact W|]. split; [cbn; repeat split|]. split.
  - replace (chars straight_re) with (show straight_rx) by (vm_compute; reflexivity). apply RxSpell.show_spelt, W.
  - split; [apply RxShort.short_83; vm_compute; lia|]. split; [eexists; vm_compute; reflexivity|]. split; [reflexivity|vm_compute; reflexivity].
Qed.

Print Assumptions C40_straight_match_at_partial.
Print Assumptions C40_straight_match_after_partial.
Print Assumptions C40_straight_search_returns_partial.
