(** C40 without the check of RxCheck.v, with quantifiers, ^ and $: the matcher
    returns for every sequence of quantified characters, [.], classes, \s \d \h
    in which at most ten items in a row may be left out, with or without a ^ at
    the beginning and a $ at the end. *)
From Coq Require Import String Ascii.
From Verif Require Import Base UTF8Model CharModel RxCompModel RxModel RxSpec RxVm RxProg RxSpellSpec RxStraight RxQuant RxAnchor RxProps RxQuantProps.
From Verif Require RxSpell RxShort.
Local Open Scope list_scope.
Local Open Scope Z_scope.
Local Notation AllF := AllFeatures.

Lemma anchor_returns r re prog m f g t off :
  wf r -> anchored r -> few_in_a_row r -> written r re -> short_program AllF 0 re -> compile AllF 0 re = Ok (Some prog, m) ->
  (2 * length_of r + 14 < f)%nat -> 0 <= off -> (exists res, match_at f g prog t off = Ok res) /\ exists res, match_after f g prog t off = Ok res.
Proof.
  intros Hw HS HF HW HL HC Hf Ho. destruct r as [s|s r]; [|destruct HS]. cbn [anchored few_in_a_row length_of] in *.
  destruct s as [|i s].
  - apply (straight_returns SNil re prog m Hw Logic.I HW HL HC); [cbn [pieces List.length]; lia|exact Ho].
  - apply (anchored_returns (SCons i s) re prog m Hw HS HF ltac:(discriminate) HW HL HC); [rewrite quants_items; exact Hf|exact Ho].
Qed.

(** At a given offset of any text (with NULs or not): the matcher returns, the
    longest match from there, or none exactly if there is none.  [anchored]:
    RxAnchor.v; [few_in_a_row]: RxQuant.v; f bounds the depth of the recursion of addthread. *)
Theorem C40_anchored_match_at_partial : forall r re prog m f g t off,
  wf r -> anchored r -> few_in_a_row r -> written r re -> short_program AllF 0 re -> compile AllF 0 re = Ok (Some prog, m) ->
  (2 * length_of r + 14 < f)%nat -> 0 <= off <= Z.of_nat (List.length t) ->
  exists res, match_at f g prog t off = Ok res /\
    match r_cap1 res with
    | Some e => r_cap0 res = off /\ matches t r off e /\ forall e', matches t r off e' -> e' <= e
    | None => forall e, ~ matches t r off e
    end.
Proof.
  intros r re prog m f g t off Hw HS HF HW HL HC Hf Ho.
  destruct (anchor_returns r re prog m f g t off Hw HS HF HW HL HC Hf ltac:(lia)) as [(res & E) _].
  exists res. split; [exact E|]. exact (C40_match_at_partial _ re prog m t off f g res Hw HW HL HC Ho E).
Qed.

(** Searching from an offset on, in texts without NUL: the leftmost match, and the longest one there. *)
Theorem C40_anchored_match_after_partial : forall r re prog m f g t off,
  wf r -> anchored r -> few_in_a_row r -> written r re -> short_program AllF 0 re -> compile AllF 0 re = Ok (Some prog, m) ->
  (2 * length_of r + 14 < f)%nat -> 0 <= off <= Z.of_nat (List.length t) -> ~ In 0 t ->
  exists res, match_after f g prog t off = Ok res /\
    match r_cap1 res with
    | Some e => off <= r_cap0 res /\ matches t r (r_cap0 res) e /\
        forall o' e', off <= o' <= Z.of_nat (List.length t) -> matches t r o' e' -> r_cap0 res < o' \/ (r_cap0 res = o' /\ e' <= e)
    | None => forall o e, off <= o <= Z.of_nat (List.length t) -> ~ matches t r o e
    end.
Proof.
  intros r re prog m f g t off Hw HS HF HW HL HC Hf Ho HN.
  destruct (anchor_returns r re prog m f g t off Hw HS HF HW HL HC Hf ltac:(lia)) as [_ (res & E)].
  exists res. split; [exact E|]. exact (C40_match_after_partial _ re prog m t off f g res Hw HW HL HC Ho HN E).
Qed.

(** Texts with a NUL too: the search returns. *)
Theorem C40_anchored_search_returns_partial : forall r re prog m f g t off,
  wf r -> anchored r -> few_in_a_row r -> written r re -> short_program AllF 0 re -> compile AllF 0 re = Ok (Some prog, m) ->
  (2 * length_of r + 14 < f)%nat -> 0 <= off -> exists res, match_after f g prog t off = Ok res.
Proof. intros r re prog m f g t off Hw HS HF HW HL HC Hf Ho. apply (anchor_returns r re prog m f g t off); assumption. Qed.

(** An identifier, a number, and ten stars before the end *)
Definition ident_rx : rx :=
  XSeq (SCons ItBol (SCons (It (AClass false [(c "a", c "z"); (c "_", c "_")]) QOne) (SCons (It (AClass false [(c "a", c "z"); (c "0", c "9")]) QStar) (SCons ItEol SNil)))).
Definition ident_re : string := "^[a-z_][a-z0-9]*$".
Definition stars_rx : rx :=
  XSeq (SCons ItBol (opt "a" QStar (opt "a" QStar (opt "a" QStar (opt "a" QStar (opt "a" QStar (opt "a" QStar (opt "a" QStar (opt "a" QStar (opt "a" QStar (opt "a" QStar (SCons ItEol SNil)))))))))))).
Definition stars_re : string := "^a*a*a*a*a*a*a*a*a*a*$".
Definition fits_all (r : rx) (re : string) (n : nat) : Prop :=
  wf r /\ anchored r /\ few_in_a_row r /\ written r (chars re) /\ short_program AllF 0 (chars re) /\
  (exists prog, compile AllF 0 (chars re) = Ok (Some prog, None)) /\ length_of r = n.
Example C40_anchored_example : fits_all ident_rx ident_re 4 /\ fits_all stars_rx stars_re 12 /\
  try_after ident_re "9
x86" 0 = Ok (Some (2, Some 5)) /\ try_after stars_re "aaa" 0 = Ok (Some (0, Some 3)) /\ try_after stars_re "b" 0 = Ok (Some (0, None)).
Proof.
  assert (O : forall x, (0 <? x) && (x <? 2^31) = true -> ok_char x) by (unfold ok_char; lia).
  assert (W : wf ident_rx).
  { cbn [ident_rx wf wf_sq wf_item wf_atom]. repeat apply conj; try exact I; try discriminate; repeat constructor; apply O; reflexivity. }
  assert (W2 : wf stars_rx).
  { cbn [stars_rx opt wf wf_sq wf_item wf_atom]. repeat apply conj; try exact I; apply O; reflexivity. }
  split; [|split; [|split; [vm_compute; reflexivity|split; vm_compute; reflexivity]]]; unfold fits_all; (split; [assumption|]); (split; [cbn; repeat split|]); (split; [cbn; repeat split; lia|]).
  - split; [replace (chars ident_re) with (show ident_rx) by (vm_compute; reflexivity); apply RxSpell.show_spelt, W|].
    split; [apply RxShort.short_83; vm_compute; lia|]. split; [eexists; vm_compute; reflexivity|reflexivity].
  - split; [replace (chars stars_re) with (show stars_rx) by (vm_compute; reflexivity); apply RxSpell.show_spelt, W2|].
    split; [apply RxShort.short_83; vm_compute; lia|]. split; [eexists; vm_compute; reflexivity|reflexivity].
Qed.

(** A $ in the middle lets threads in that are not tested for duplicates: with
    enough of them the matcher runs out of places and ends the program. *)
Theorem C40_anchors_refuted :
  try_at ".*.*.*.*.*.*.*.*$.$.$.$." (String (ascii_of_nat 10) (String (ascii_of_nat 10) (String (ascii_of_nat 10) (String (ascii_of_nat 10) (String (ascii_of_nat 10) (String (ascii_of_nat 10) ""))))))%string 0 = Abort /\
  try_at ".*.*.*.*.*.*.*.*$" (String (ascii_of_nat 10) (String (ascii_of_nat 10) (String (ascii_of_nat 10) (String (ascii_of_nat 10) (String (ascii_of_nat 10) (String (ascii_of_nat 10) ""))))))%string 0 = Ok (Some (0, Some 6)).
Proof. vm_compute. auto. Qed.

Print Assumptions C40_anchored_match_at_partial.
Print Assumptions C40_anchored_match_after_partial.
Print Assumptions C40_anchored_search_returns_partial.
Print Assumptions C40_anchors_refuted.
