(** Theorems about regular expressions: C39, C40 and C41. *)
From Coq Require Import String Ascii.
From Verif Require Import StrNumSpec StrNumProofs.
From Verif Require Import Base UTF8Model CharModel RxCompModel RxModel RxSpec RxVm RxScan RxGen RxRun RxProg RxTotal RxCheck RxSize RxSpellSpec.
From Verif Require RxSpell StrNumSpec StrNumProofs.
Local Open Scope list_scope.
Local Open Scope Z_scope.

(** A pattern or text as its characters *)
Definition chars (x : string) : list Z := map (fun a => Z.of_N (N_of_ascii a)) (list_ascii_of_string x).
Local Notation AllF := AllFeatures.

(** ** C39 *)

(** Every offset of magnitude below 2^30 that the compiler puts into a program
    is what the matcher reads there, whatever comes before and after. *)
Theorem C39_round_trip_partial : forall i before after, - 2^30 < i < 2^30 ->
  0 <= Z.of_nat (List.length before) + i < 2^32 ->
  offset_at (before ++ offset_bytes i ++ after) (Z.of_nat (List.length before)) =
    Ok (Z.of_nat (List.length before) + i, Z.of_nat (List.length (before ++ offset_bytes i))).
Proof.
  intros i b a H R. rewrite offset_at_put by (assumption || reflexivity). unfold zl. rewrite app_length. do 2 f_equal. lia.
Qed.
Example C39_example : offset_at ([83; 83] ++ offset_bytes 300 ++ [1]) 2 = Ok (302, 4) /\ offset_bytes (-2) = [5].
Proof. vm_compute. auto. Qed.
(** Not every 32-bit offset: these come back as 0. *)
Theorem C39_every_offset_refuted :
  offset_at ([83] ++ offset_bytes (2^30) ++ [1]) 1 = Ok (1, 2) /\ offset_at (offset_bytes (2^31 - 1) ++ [1]) 0 <> Ok (2^31 - 1, 6).
Proof. vm_compute. split; [reflexivity|discriminate]. Qed.

(** ** C40 *)

(** At a given offset: the longest match, or none if there is none.  For every
    regular expression [r] of RxSpec (characters, [.], classes, \s \d \h, ^, $,
    ?, *, +, alternatives, groups), every way [re] to write it (RxSpellSpec:
    quoted characters, \n and so on, codes, the liberties of classes) whose
    program is short (RxProg.v: less than 1024 bytes, counting three for each
    offset; C51_short_83: so is the program of every pattern of at most 83
    characters), and every text. *)
Theorem C40_match_at_partial : forall r re prog m t off f g res,
  wf r -> written r re -> short_program AllF 0 re -> compile AllF 0 re = Ok (Some prog, m) ->
  0 <= off <= Z.of_nat (List.length t) -> match_at f g prog t off = Ok res ->
  match r_cap1 res with
  | Some e => r_cap0 res = off /\ matches t r off e /\ forall e', matches t r off e' -> e' <= e
  | None => forall e, ~ matches t r off e
  end.
Proof.
  intros r re prog m t off f g res Hw HW HL HC Ho H.
  destruct (program_ok r re prog m t Hw HW HL HC) as (_ & h & rs & q & start & search & anyst & jmp & P1 & P2 & P3 & D1 & D2 & D3 & D4 & D5 & L1 & L2 & L3 & L4 & L5 & HF & HB).
  unfold match_at in H. rewrite P1 in H. cbn [obind] in H. apply obind_ok in H. destruct H as (x & Ex & H). assert (res = fst x) by congruence. subst res. rewrite P2 in Ex.
  assert (HC' : chosen (matches t r) (fun o => o = off) (fst x)).
  { eapply (match_start t prog h g _ (matches t r) rs q HB HF D2 L2 (fun o => o = off)); try eassumption; try lia.
    intros o ->. unfold pos, zl. exact Ho. }
  unfold chosen in HC'. destruct (r_cap1 (fst x)) as [e|].
  - destruct HC' as (A & B & C). rewrite A in *. split; [reflexivity|]. split; [exact B|]. intros e' M'. destruct (C off e' eq_refl M'); lia.
  - intros e. apply HC'. reflexivity.
Qed.

(** Searching from an offset on: the leftmost match, and of those the longest;
    in texts without NUL. *)
Theorem C40_match_after_partial : forall r re prog m t off f g res,
  wf r -> written r re -> short_program AllF 0 re -> compile AllF 0 re = Ok (Some prog, m) ->
  0 <= off <= Z.of_nat (List.length t) -> ~ In 0 t -> match_after f g prog t off = Ok res ->
  match r_cap1 res with
  | Some e => off <= r_cap0 res /\ matches t r (r_cap0 res) e /\
      forall o' e', off <= o' <= Z.of_nat (List.length t) -> matches t r o' e' -> r_cap0 res < o' \/ (r_cap0 res = o' /\ e' <= e)
  | None => forall o e, off <= o <= Z.of_nat (List.length t) -> ~ matches t r o e
  end.
Proof.
  intros r re prog m t off f g res Hw HW HL HC Ho HN H.
  destruct (program_ok r re prog m t Hw HW HL HC) as (_ & h & rs & q & start & search & anyst & jmp & P1 & P2 & P3 & D1 & D2 & D3 & D4 & D5 & L1 & L2 & L3 & L4 & L5 & HF & HB).
  unfold match_after in H. rewrite P1 in H. cbn [obind] in H. apply obind_ok in H. destruct H as (x & Ex & H). assert (res = fst x) by congruence. subst res. rewrite P3 in Ex.
  set (St := fun o => off <= o <= Z.of_nat (List.length t)).
  assert (HC' : chosen (matches t r) St (fst x)).
  { eapply (match_search t prog h g _ (matches t r) rs q HB HF D2 L2 St); try eassumption; try lia.
    - intros o So. unfold pos, zl, St in *. lia.
    - unfold St. lia.
    - intros i Si. unfold St in *. unfold char_at. destruct (Z.eqb_spec i (Z.of_nat (List.length t))) as [->|Ne].
      + split; [lia|]. intros X. destruct (X eq_refl).
      + split; [|lia]. intros E. exfalso. apply HN. rewrite <- E. apply nth_In. lia.
    - intros o So. unfold St in So. lia. }
  unfold chosen in HC'. destruct (r_cap1 (fst x)) as [e|].
  - destruct HC' as (A & B & C). split; [apply A|]. split; [exact B|]. intros o' e' So' M'. apply C; assumption.
  - intros o e So. apply HC'. exact So.
Qed.

(** The matcher does return, on every text and at every offset, if [returns]
    (RxCheck.v) holds of the program: a computation on the program alone, that
    bounds the threads and shunts of any cycle.  It holds of the programs of
    most patterns (C40_example_returns); f bounds the depth of the recursion. *)
Theorem C40_match_at_returns_partial : forall r re prog m f, wf r -> written r re -> short_program AllF 0 re -> compile AllF 0 re = Ok (Some prog, m) ->
  returns f prog = true -> forall t off g, 0 <= off <= Z.of_nat (List.length t) ->
  exists res, match_at f g prog t off = Ok res /\
    match r_cap1 res with
    | Some e => r_cap0 res = off /\ matches t r off e /\ forall e', matches t r off e' -> e' <= e
    | None => forall e, ~ matches t r off e
    end.
Proof.
  intros r re prog m f Hw HW HL HC HR t off g Ho. destruct (returns_ok f prog HR f g t off (le_n f) ltac:(lia)) as [(res & E) _].
  exists res. split; [exact E|]. exact (C40_match_at_partial r re prog m t off f g res Hw HW HL HC Ho E).
Qed.
Theorem C40_match_after_returns_partial : forall r re prog m f, wf r -> written r re -> short_program AllF 0 re -> compile AllF 0 re = Ok (Some prog, m) ->
  returns f prog = true -> forall t off g, 0 <= off <= Z.of_nat (List.length t) -> ~ In 0 t ->
  exists res, match_after f g prog t off = Ok res /\
    match r_cap1 res with
    | Some e => off <= r_cap0 res /\ matches t r (r_cap0 res) e /\
        forall o' e', off <= o' <= Z.of_nat (List.length t) -> matches t r o' e' -> r_cap0 res < o' \/ (r_cap0 res = o' /\ e' <= e)
    | None => forall o e, off <= o <= Z.of_nat (List.length t) -> ~ matches t r o e
    end.
Proof.
  intros r re prog m f Hw HW HL HC HR t off g Ho HN. destruct (returns_ok f prog HR f g t off (le_n f) ltac:(lia)) as [_ (res & E)].
  exists res. split; [exact E|]. exact (C40_match_after_partial r re prog m t off f g res Hw HW HL HC Ho HN E).
Qed.

(** All the ways to write an expression give the same program (and [show] is one
    of them). *)
Theorem C40_written : forall r re re', wf r -> written r re -> written r re' -> compile AllF 0 re = compile AllF 0 re' /\ written r (show r).
Proof.
  intros r re re' Hw W W'. split; [|apply RxSpell.show_spelt, Hw]. unfold compile. change (Z.land AllF (Z.lnot 0)) with AllF.
  rewrite (RxSpell.scan_written r re Hw W), (RxSpell.scan_written r re' Hw W'). reflexivity.
Qed.

(** A pattern that has it all, and what is found. *)
Definition c (x : string) : Z := hd 0 (chars x).
Definition ex_rx : rx :=
  XAlt (SCons ItBol (SCons (It (AGroup true (XAlt (SCons (It (AChar (c "a")) QStar) SNil) (XSeq (SCons (It (AChar (c "b")) QOne) SNil)))) QPlus)
         (SCons (It (AClass true [(c "x", c "z"); (c "]", c "]")]) QOpt) (SCons ItEol SNil))))
       (XSeq (SCons (It (AProp (c "d")) QPlus) (SCons (It (AChar (c ".")) QOne) (SCons (It AAny QOne) SNil)))).
Example C40_example_shown : show ex_rx = chars "^(?:a*|b)+[^x-z\]]?$|\d+\.." /\ wf ex_rx.
Proof.
  split; [vm_compute; reflexivity|].
  assert (O : forall x, (0 <? x) && (x <? 2^31) = true -> ok_char x) by (unfold ok_char; lia).
  cbn [ex_rx wf wf_sq wf_item wf_atom]. repeat apply conj; try exact I; try (apply O; reflexivity).
  - discriminate.
  - repeat constructor; apply O; reflexivity.
  - right. left. reflexivity.
Qed.
Definition try_at (re x : string) (off : Z) : outcome (option (Z * option Z)) :=
  do p <- compile AllF 0 (chars re);
  match p with
  | (Some p, _) => do r <- match_at 300 0 p (chars x) off; Ok (Some (r_cap0 r, r_cap1 r))
  | (None, m) => Ok None
  end.
Definition try_after (re x : string) (off : Z) : outcome (option (Z * option Z)) :=
  do p <- compile AllF 0 (chars re);
  match p with
  | (Some p, _) => do r <- match_after 300 0 p (chars x) off; Ok (Some (r_cap0 r, r_cap1 r))
  | (None, m) => Ok None
  end.
Example C40_example_found :
  try_at "^(?:a*|b)+[^x-z\]]?$|\d+\.." "aabaq" 0 = Ok (Some (0, Some 5)) /\
  try_after "^(?:a*|b)+[^x-z\]]?$|\d+\.." "]zz12.34" 0 = Ok (Some (3, Some 7)) /\
  try_after "^(?:a*|b)+[^x-z\]]?$|\d+\.." "]z" 0 = Ok (Some (0, None)) /\
  try_after "^(?:a*|b)+[^x-z\]]?$|\d+\.." "]z" 1 = Ok (Some (0, None)).
Proof. vm_compute. auto. Qed.

(** Another way to write one: codes, \n, quoted characters, - and ^ in a class *)
Definition ex_rx2 : rx :=
  XAlt (SCons (It (AChar 65) QOne) (SCons (It (AChar 10) QOpt) (SCons (It (AClass false [(45, 45); (97, 97); (94, 94)]) QOne) (SCons (It (AChar 45) QStar) SNil))))
       (XSeq (SCons (It (AChar 0x263A) QPlus) (SCons (It (AChar 7) QOne) SNil))).
Example C40_example_written : wf ex_rx2 /\ written ex_rx2 (chars "\x41\n?[-a^]\-*|\u263A+\7") /\
  try_after "\x41\n?[-a^]\-*|\u263A+\7" "zA^---a" 0 = Ok (Some (1, Some 6)).
Proof.
  assert (O : forall x, (0 <? x) && (x <? 2^31) = true -> ok_char x) by (unfold ok_char; lia).
  assert (D : forall radix k w v n, 2 <= radix -> (w <> [] /\ forallb (StrNumProofs.isdig radix) w = true /\ v = StrNumProofs.acc radix (map (StrNumProofs.dv radix) w) 0) ->
    (List.length w <= k)%nat -> (List.length w =? k)%nat || (negb (UCS4IsWhite n) && negb (StrNumProofs.isdig radix n)) = true -> code radix k w v n).
  { intros radix k w v n R (N & F & E) L C. split; [apply StrNumProofs.digits_isdig; [lia|]; split; [exact N|split; [apply Forall_forall, forallb_forall; exact F|exact E]]|].
    split; [exact L|]. apply orb_true_iff in C. destruct C as [C|C]; [left; apply Nat.eqb_eq, C|right]. apply andb_true_iff in C. destruct C as [C1 C2]. split.
    - intros B. apply StrNumProofs.white_blank in B. rewrite B in C1. discriminate C1.
    - intros d B. destruct (StrNumProofs.Digit_spec radix n ltac:(lia)) as (_ & _ & _ & X). apply StrNumProofs.isdig_spec in C2 || (apply X in B as E'; unfold StrNumProofs.isdig in C2; apply StrNumProofs.digit_nonneg in B; lia). }
  split; [|split; [|vm_compute; reflexivity]].
  { cbn [ex_rx2 wf wf_sq wf_item wf_atom]. repeat apply conj; try exact I; try (apply O; reflexivity); [discriminate|]. repeat constructor; apply O; reflexivity. }
  unfold written, ex_rx2. cbn [spelt spelt_sq spelt_item spelt_atom].
  exists (chars "\x41\n?[-a^]\-*"), (chars "\u263A+\7"). split; [reflexivity|]. split.
  - exists (chars "\x41"), (chars "\n?[-a^]\-*"). split; [reflexivity|]. split.
    { exists (chars "\x41"). split; [reflexivity|]. apply (sp_hex 65 (chars "41")), D; [lia|repeat split; discriminate|cbn; lia|reflexivity]. }
    exists (chars "\n?"), (chars "[-a^]\-*"). split; [reflexivity|]. split.
    { exists (chars "\n"). split; [reflexivity|]. apply (sp_letter 10 110). cbn. tauto. }
    exists (chars "[-a^]"), (chars "\-*"). split; [reflexivity|]. split.
    { exists (chars "[-a^]"). split; [reflexivity|]. exists (chars "-a^"). split; [reflexivity|]. apply (sk_first false 45 [(97, 97); (94, 94)] (chars "a^")); [tauto|].
      apply (ss_more (97, 97) [(94, 94)] (chars "a") (chars "^")); [apply sr_one, sc_plain; cbn; lia|]. apply (ss_more (94, 94) [] (chars "^") []); [apply sr_one, sc_plain; cbn; lia|constructor]. }
    exists (chars "\-*"), []. split; [reflexivity|]. split; [|reflexivity]. exists (chars "\-"). split; [reflexivity|]. apply sp_quoted. unfold escape_letter. cbn [In]. lia.
  - exists (chars "\u263A+"), (chars "\7"). split; [reflexivity|]. split.
    { exists (chars "\u263A"). split; [reflexivity|]. apply (sp_unicode 0x263A (chars "263A")), D; [lia|repeat split; discriminate|cbn; lia|reflexivity]. }
    exists (chars "\7"), []. split; [reflexivity|]. split; [|reflexivity]. exists (chars "\7"). split; [reflexivity|]. apply (sp_octal 7 55 []); [lia|]. apply D; [lia|repeat split; discriminate|cbn; lia|reflexivity].
Qed.

Definition checked (re : string) : bool := match compile AllF 0 (chars re) with Ok (Some p, _) => returns 60 p | _ => false end.
Example C40_example_returns :
  forallb checked ["^(?:a*|b)+[^x-z\]]?$|\d+\.."; ""; "a"; "foo|bar"; "^[a-z_][a-z0-9_]*$"; "\d+(\.\d+)?([eE][+]?\d+)?"; "(((a*)*)*)*";
    "(a|b|)(c|d|)$"; "[a-z]+@[a-z]+(\.[a-z]+)+"; "a|b|c|d|e|f|g|h|i"; "a?b?c?d?e?f?g?"]%string = true /\
  checked "||||" = false.
Proof. vm_compute. auto. Qed.

(** What the theorems leave out, and what happens there. *)

(** A named group is never left: its pattern matches nothing. *)
Theorem C40_named_group_refuted : try_at "(?<x>a)" "a" 0 = Ok (Some (0, None)).
Proof. vm_compute. reflexivity. Qed.
(** Counts: {0,2} does not match the empty text, {0} and {65536} are [*], and
    a comma further on spoils a count. *)
Theorem C40_counts_refuted :
  try_at "a{0,2}" "" 0 = Ok (Some (0, None)) /\
  try_at "a{0}" "aaa" 0 = Ok (Some (0, Some 3)) /\
  try_at "a{65536}" "aaa" 0 = Ok (Some (0, Some 3)) /\
  compile AllF 0 (chars "a{2}b,c") = Ok (None, Some MBadRepetition) /\
  try_at "a{2,3}" "aaaa" 0 = Ok (Some (0, Some 3)).
Proof. vm_compute. auto. Qed.
(** Five nested counts: the text is missed; four are fine (the row of
    test/rxmatch_test.cpp that is commented out with "Fails" is such a case). *)
Theorem C40_nested_counts_refuted :
  try_at "((((x{2}){1}){1}){1}){2}" "xxxx" 0 = Ok (Some (0, None)) /\
  try_at "(((x{2}){1}){1}){2}" "xxxx" 0 = Ok (Some (0, Some 4)).
Proof. vm_compute. auto. Qed.
(** Of two lookaheads the second looks at the wrong place. *)
Theorem C40_lookahead_refuted : try_at "(?!a)(?!b)." "bx" 0 = Ok (Some (0, Some 1)) /\ try_at "(?!b)." "bx" 0 = Ok (Some (0, None)).
Proof. vm_compute. auto. Qed.
(** \x takes white space after its digits with it. *)
Theorem C40_hex_refuted :
  try_at "\x7 z" (String (ascii_of_nat 7) " z") 0 = Ok (Some (0, None)) /\ try_at "\x7 z" (String (ascii_of_nat 7) "z") 0 = Ok (Some (0, Some 2)).
Proof. vm_compute. auto. Qed.
(** A search does not pass a NUL. *)
Theorem C40_search_nul_refuted : try_after "b" (String Ascii.zero "b") 0 = Ok (Some (0, None)) /\ try_at "b" (String Ascii.zero "b") 1 = Ok (Some (1, Some 2)).
Proof. vm_compute. auto. Qed.
Fixpoint lits (n : nat) (x : Z) (s : sq) : sq := match n with O => s | S n => SCons (It (AChar x) QOne) (lits n x s) end.
(** A long pattern with a short program *)
Definition medium_rx : rx := XSeq (lits 250 (c "a") (SCons (It (AGroup false (XAlt (lits 60 (c "b") SNil) (XSeq SNil))) QStar) SNil)).
Example C40_example_medium : counted AllF 0 (show medium_rx) = Some (638, 10, 312) /\ List.length (show medium_rx) = 314%nat /\
  exists p, compile AllF 0 (show medium_rx) = Ok (Some p, None) /\ List.length p = 650%nat.
Proof. split; [vm_compute; reflexivity|]. split; [vm_compute; reflexivity|]. eexists. split; vm_compute; reflexivity. Qed.
Definition long_rx : rx :=
  XSeq (SCons (It (AGroup false (XSeq (SCons (It (AProp (c "d")) QOne) (lits 29 (c "a") SNil)))) QOpt) (SCons (It AAny QOne) (lits 500 (c "b") SNil))).
Lemma lits_len t n x : forall i j, matches_sq t (lits n x SNil) i j -> j = i + Z.of_nat n.
Proof. induction n as [|n IH]; intros i j H; [cbn in H; lia|]. cbn [lits matches_sq] in H. destruct H as (k & (-> & _) & H). apply IH in H. lia. Qed.
Lemma lits_inside t n x : forall i j, matches_sq t (lits (S n) x SNil) i j -> j <= Z.of_nat (List.length t).
Proof.
  induction n as [|n IH]; intros i j H; destruct H as (k & (-> & (P & A)) & H).
  - cbn in H. assert (X : nth_error t (Z.to_nat i) <> None) by congruence. apply nth_error_Some in X. lia.
  - exact (IH _ _ H).
Qed.
(** Longer patterns than those of the theorems: where offsets take three bytes,
    one of exactly 64 is written one too high, here past the [.]: 500 times b
    is taken for a match of a pattern that needs another character before them. *)
Theorem C40_long_refuted : exists prog, wf long_rx /\ compile AllF 0 (show long_rx) = Ok (Some prog, None) /\
  (exists res, match_at 300 0 prog (repeat (c "b") 500) 0 = Ok res /\ r_cap1 res = Some 500) /\
  forall e, ~ matches (repeat (c "b") 500) long_rx 0 e.
Proof.
  eexists. split; [|split; [vm_compute; reflexivity|split]].
  - assert (L : forall n x s, ok_char x -> wf_sq s -> wf_sq (lits n x s)) by (intros n x s; induction n; intros A B; [exact B|split; auto]).
    cbn [long_rx wf wf_sq wf_item wf_atom]. split; [split; [right; left; reflexivity|]|split; [exact I|]]; apply L; try exact I; unfold ok_char; cbn; lia.
  - eexists. split; [vm_compute; reflexivity|reflexivity].
  - intros e (k & H1 & k2 & H2 & H3). assert (K : 0 <= k).
    { destruct H1 as [<-|H1]; [lia|]. destruct H1 as (k1 & (-> & _) & H1). apply lits_len in H1. lia. }
    destruct H2 as (-> & _). pose proof (lits_len _ _ _ _ _ H3) as E1. pose proof (lits_inside _ 499 _ _ _ H3) as E2. rewrite repeat_length in E2. lia.
Qed.
(** Many optional atoms or alternatives in a row, or too many empty ones, end the program while matching. *)
Theorem C40_aborts_refuted :
  try_at "a?b?c?d?e?f?g?h?i?j?k?l?m?" "m" 0 = Abort /\
  try_at "a|b|c|d|e|f|g|h|i|j|k|l|m|n" "n" 0 = Abort /\
  try_at "||||" "n" 0 = Abort.
Proof. vm_compute. auto. Qed.

(** ** C41 *)

(** When compile returns, it has either made a program or left an error
    message, but for patterns with a [)], which may fail without one. *)
Theorem C41_result_partial : forall features reject re p m, compile features reject re = Ok (p, m) ->
  (p <> None /\ m = None) \/ (p = None /\ m <> None) \/ (p = None /\ m = None /\ In (c ")") re).
Proof. intros. eapply compile_result; eassumption. Qed.
(** Scanning ends without undefined behaviour, with any features, if no count
    is a numeral of value -2^63 ([risky]: a brace or comma followed by one). *)
Theorem C41_scanning_partial : forall features reject re,
  (forall a o n b, re = a ++ [o] ++ n ++ b -> o = c "{" \/ o = c "," -> ~ numeral 10 n (- 2^63)) ->
  exists es, scan (Z.land features (Z.lnot reject)) reject re = Ok es.
Proof.
  intros f r re H. destruct (scan_total (Z.land f (Z.lnot r)) r re) as [(es & E & _)|[(a & o & n & b & E & HO & HN) _]]; [eexists; exact E|].
  destruct (H a o n b E HO HN).
Qed.
(** A pattern where no minus sign is followed by a blank or a decimal digit has no such count. *)
Fixpoint tame_minus (re : list Z) : bool :=
  match re with
  | [] => true
  | y :: r => (if y =? 45 then match r with [] => true | x :: _ => negb (UCS4IsWhite x) && (dv 10 x <? 0) end else true) && tame_minus r
  end.
Lemma tame_minus_ok re : tame_minus re = true -> forall a o n b, re = a ++ [o] ++ n ++ b -> o = c "{" \/ o = c "," -> ~ numeral 10 n (- 2^63).
Proof.
  assert (HS : forall re, tame_minus re = true -> forall a b, re = a ++ b -> tame_minus b = true).
  { intros r H a. revert r H. induction a as [|x a IH]; intros r H b E; [cbn in E; subst; exact H|]. subst r. apply (IH (a ++ b)); [|reflexivity].
    cbn [app tame_minus] in H. apply andb_prop in H. apply H. }
  intros H a o n b E HO (w1 & sg & w2 & ds & w3 & v & EN & _ & W2 & _ & U & K). unfold unsigned in U. cbn in U. apply digits_isdig in U; [|lia]. destruct U as (ND & F & EV).
  assert (V0 : 0 <= v) by (rewrite EV; apply acc_ge; [lia| |lia]; apply Forall_forall; intros e He; apply in_map_iff in He; destruct He as (x & <- & Hx); rewrite Forall_forall in F; specialize (F x Hx); unfold isdig in F; lia).
  assert (SG : sg = [45]) by (destruct K as [(_ & _ & K)|[(_ & K)|(K & _)]]; [lia|lia|exact K]). subst sg.
  assert (T : tame_minus ([45] ++ w2 ++ ds ++ w3 ++ b) = true).
  { apply (HS re H (a ++ [o] ++ w1)). rewrite E, EN. rewrite <- !app_assoc. reflexivity. }
  destruct w2 as [|x w2].
  - destruct ds as [|x ds]; [congruence|]. apply Forall_cons_iff in F. destruct F as [F _]. unfold isdig in F. cbn [app tame_minus] in T. apply andb_prop in T. destruct T as [T _]. cbn [Z.eqb Pos.eqb] in T. lia.
  - apply Forall_cons_iff in W2. destruct W2 as [W _]. apply white_blank in W. cbn [app tame_minus] in T. rewrite W in T. discriminate T.
Qed.
Example C41_example_minus :
  tame_minus (chars "[a-z]{2,3}-\-") = true /\ risky (chars "a{-9223372036854775808}") /\ risky (chars "a{1, -09223372036854775808 }").
Proof.
  split; [vm_compute; reflexivity|]. split.
  - exists (chars "a"), (c "{"), (chars "-9223372036854775808"), (chars "}"). split; [reflexivity|]. split; [auto|].
    exists [], [45], [], (chars "9223372036854775808"), [], (2^63). split; [reflexivity|]. split; [constructor|]. split; [constructor|]. split; [constructor|]. split; [|right; right; auto].
    apply digits_isdig; [lia|]. split; [discriminate|]. split; [|vm_compute; reflexivity]. repeat constructor.
  - exists (chars "a{1"), (c ","), (chars " -09223372036854775808 "), (chars "}"). split; [reflexivity|]. split; [auto|].
    exists [32], [45], [], (chars "09223372036854775808"), [32], (2^63). split; [reflexivity|]. assert (B : Forall blank [32]) by (repeat constructor; apply white_blank; reflexivity).
    split; [exact B|]. split; [constructor|]. split; [exact B|]. split; [|right; right; auto].
    apply digits_isdig; [lia|]. split; [discriminate|]. split; [|vm_compute; reflexivity]. repeat constructor.
Qed.
Example C41_example :
  compile AllF 0 (chars "a(b|c)*") <> Ok (None, None) /\ compile AllF 0 (chars "(a") = Ok (None, Some MUnclosed) /\
  compile AllF Capture (chars "(?:a)") = Ok (None, Some MRejected) /\
  compile AllF 0 (chars "((((((((((((a))))))))))))") = Ok (None, Some MTooDeep).
Proof. vm_compute. repeat split; discriminate || reflexivity. Qed.
(** The memory allocated is what the offsets need at the size found for them,
    and the number of states does not need more than an offset. *)
Definition roomy (x : Z * Z * Z) : Prop :=
  let '(bytes, offsets, states) := x in
  let size := offset_max_bytes bytes offsets in
  bytes + 4 * offsets < 2^20 /\ allocated bytes offsets = bytes + offsets * Z.of_nat size /\ (List.length (offset_bytes states) <= size)%nat.
(** Every pattern the first pass accepts is compiled, if the memory is enough:
    the second pass never writes past it, and never fails an assertion. *)
Theorem C41_compiles_partial : forall features reject re x, counted features reject re = Some x -> roomy x ->
  exists prog, compile features reject re = Ok (Some prog, None).
Proof.
  intros f r re [[B O'] S] H (H1 & H2 & H3). unfold counted in H. destruct (scan _ _ _) as [es| |] eqn:ES; try discriminate H.
  destruct (pass _ _ _ _) as [[[s m] ok]| |] eqn:EP; try discriminate H. destruct ok; [|discriminate H]. destruct (o_stack s) eqn:EK; [|discriminate H].
  assert (EB : B = o_bytes s) by congruence. assert (EO : O' = o_offsets s) by congruence. assert (EST : S = o_stations s) by congruence. clear H. subst.
  destruct (pass_err _ _ _ _ _ _ _ EP eq_refl) as (-> & _ & _). eapply compiles; eassumption.
Qed.
(** So compile returns for every pattern without such a count that has room. *)
Theorem C41_returns_partial : forall features reject re,
  (forall a o n b, re = a ++ [o] ++ n ++ b -> o = c "{" \/ o = c "," -> ~ numeral 10 n (- 2^63)) -> (forall x, counted features reject re = Some x -> roomy x) ->
  exists p m, compile features reject re = Ok (p, m).
Proof.
  intros f r re HN H. destruct (scan_total (Z.land f (Z.lnot r)) r re) as [(es & ES & _)|[(a & o & n & b & E & HO & HU) _]]; [|destruct (HN a o n b E HO HU)].
  destruct (first_ends _ _ _ _ ES) as ([[s m] ok] & EP). pose proof (C41_compiles_partial f r re) as G. unfold counted in *. rewrite ES, EP in *. unfold compile. rewrite ES. cbn [obind]. rewrite EP. cbn [obind].
  destruct ok; cbn [negb]; [|eauto]. destruct (o_stack s) as [|k l] eqn:EK; [|eauto].
  destruct (G _ eq_refl (H _ eq_refl)) as (prog & E). unfold compile in E. rewrite ES in E. cbn [obind] in E. rewrite EP in E. cbn [obind negb] in E. rewrite EK in E. eauto.
Qed.
Definition roomyb (x : Z * Z * Z) : bool :=
  let '(bytes, offsets, states) := x in
  let size := offset_max_bytes bytes offsets in
  (bytes + 4 * offsets <? 2^20) && (allocated bytes offsets =? bytes + offsets * Z.of_nat size) && (List.length (offset_bytes states) <=? size)%nat.
Lemma roomyb_ok x : roomyb x = true -> roomy x.
Proof.
  destruct x as [[B O'] S]. unfold roomyb, roomy. intros H. apply andb_prop in H as [H H3]. apply andb_prop in H as [H1 H2].
  apply Z.ltb_lt in H1. apply Z.eqb_eq in H2. apply Nat.leb_le in H3. auto.
Qed.
Definition room (re : list Z) : bool := match counted AllF 0 re with Some x => roomyb x | None => false end.
(** Short ones, and long ones from the next window on. *)
Example C41_example_room :
  forallb room (List.map chars ["a"; "(?:a|b)*"; "^a.c$"; "[0-9]+"; "x{3,7}"; "(?<name>a)b"; "(?!foo)b"; "a(b(c(d?)))"]%string) = true /\
  forallb room [List.concat (List.repeat (chars "(?:\d+|[a-z]*)?") 12); List.repeat (c "a") 60; List.concat (List.repeat (chars "(?:ab|cd){2,5}") 100)] = true /\
  room (List.concat (List.repeat (chars "\d") 27)) = false /\ room (chars ".{200}") = false.
Proof. vm_compute. auto. Qed.
(** A [)] too many fails without a message; this count overflows a negation;
    27 times \d does not fit the memory allocated for it, nor does the number of states of this count. *)
Theorem C41_total_refuted :
  compile AllF 0 (chars "a)") = Ok (None, None) /\
  compile AllF 0 (chars "a{-9223372036854775808}") = UB /\
  compile AllF 0 (List.concat (List.repeat (chars "\d") 27)) = Abort /\
  compile AllF 0 (chars ".{200}") = Abort.
Proof. vm_compute. auto. Qed.

Print Assumptions C39_round_trip_partial.
Print Assumptions C39_every_offset_refuted.
Print Assumptions C40_written.
Print Assumptions C40_match_at_partial.
Print Assumptions C40_match_after_partial.
Print Assumptions C40_match_at_returns_partial.
Print Assumptions C40_match_after_returns_partial.
Print Assumptions C40_named_group_refuted.
Print Assumptions C40_counts_refuted.
Print Assumptions C40_nested_counts_refuted.
Print Assumptions C40_lookahead_refuted.
Print Assumptions C40_hex_refuted.
Print Assumptions C40_search_nul_refuted.
Print Assumptions C40_long_refuted.
Print Assumptions C40_aborts_refuted.
Print Assumptions C41_result_partial.
Print Assumptions C41_scanning_partial.
Print Assumptions C41_compiles_partial.
Print Assumptions C41_returns_partial.
Print Assumptions C41_total_refuted.
