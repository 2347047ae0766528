(** Property C26: asInt32. *)
From Verif Require Import Base RefModel RefProofs UTF8Model UTF8Spec UTF8Proofs CharTables CharModel CharSpec CharProofs ErrNumModel ArrayModel ArraySpec ArrayProofs StrModel StrSpec StrHeap StrState StrText StrOps StrEdit StrMore StrInv StrProps.
From Verif Require Import StrFindSpec StrFindProofs StrFindProps StrNumModel StrNumSpec StrNumProofs StrNumErr.
Ltac Zify.zify_post_hook ::= Z.div_mod_to_equations.

Lemma radix_range radix : 0 <= radix <= 36 -> radix_ok radix.
Proof. unfold radix_ok. lia. Qed.
Lemma int_result_of n st v s radix : reached n st -> nth_error (sv st) v = Some s -> radix_ok radix ->
  match pint radix (T st v) with
  | None => as_int32 (sh st) s radix = UB
  | Some (k, e) => exists h' sc, as_int32 (sh st) s radix = Ok (h', {| ir_value := k; ir_err := e; ir_scanned := sc |}) /\ unchanged st h' /\ (e = 0 -> sc = Z.of_nat (length (T st v))) /\
      0 <= sc <= Z.of_nat (length (T st v)) /\ (e <> STRERR_NUMBER_OVERFLOW -> sc = Z.of_nat (length (T st v)) - Z.of_nat (length (rint radix (T st v))))
  end.
Proof.
  intros R EV RX. destruct (var_ok n st v s R EV) as (cs & V & G & TV & _ & LV). assert (A := as_int32_ok (sh st) s cs V radix RX G). rewrite <- TV in A. unfold agrees in A.
  destruct (pint radix (T st v)) as [[k e]|]; [|exact A]. destruct A as (h' & sc & E & G' & S' & SC). rewrite <- LV in SC. exists h', sc. split; [exact E|]. split; [apply sim_unchanged; assumption|]. exact SC.
Qed.

(** A numeral whose value fits in 32 bits: the value, no error, all of the text
    scanned, no string changed. *)
Theorem C26_numerals_in_range_partial :
  forall n st v s radix k, reached n st -> nth_error (sv st) v = Some s -> 0 <= radix <= 36 ->
  numeral radix (T st v) k -> -2^31 <= k < 2^31 ->
  exists h', as_int32 (sh st) s radix = Ok (h', {| ir_value := k; ir_err := 0; ir_scanned := Z.of_nat (length (T st v)) |}) /\ unchanged st h'.
Proof.
  intros n st v s radix k R EV RX N B. apply radix_range in RX. assert (A := int_result_of n st v s radix R EV RX). destruct (numeral_in radix (T st v) k RX N) as (neg & u & NN & EK & EP). rewrite EP in A. clear EP. unfold outcome_of in A.
  assert (BU : u <= 2^31) by (destruct neg; lia). destruct (Z.leb_spec (2^64) u); [lia|]. destruct (Z.eqb_spec u (2^63)); [lia|]. rewrite andb_false_r in A. destruct (Z.gtb_spec u (2^63 - 1 + (if neg then 1 else 0))); [destruct neg; lia|].
  destruct A as (h' & sc & E & U & SC & _). specialize (SC eq_refl). subst sc. exists h'. split; [|exact U]. rewrite E, <- EK. do 3 f_equal. unfold s32. cbv zeta. destruct (Z.ltb_spec (k mod 4294967296) 2147483648); lia.
Qed.
(** Conversely, no error means: the text is a numeral, and the result is its
    value modulo 2^32. *)
Theorem C26_success_means_numeral_partial :
  forall n st v s radix h' r, reached n st -> nth_error (sv st) v = Some s -> 0 <= radix <= 36 ->
  as_int32 (sh st) s radix = Ok (h', r) -> ir_err r = 0 ->
  exists k, numeral radix (T st v) k /\ -2^63 < k < 2^63 /\ ir_value r mod 2^32 = k mod 2^32 /\ -2^31 <= ir_value r < 2^31 /\ ir_scanned r = Z.of_nat (length (T st v)).
Proof.
  intros n st v s radix h' r R EV RX E0 ER. apply radix_range in RX. assert (A := int_result_of n st v s radix R EV RX). destruct (pint radix (T st v)) as [[k e]|] eqn:EP; [|congruence].
  destruct A as (h1 & sc & E & _ & SC & _). rewrite E in E0. injection E0 as <- <-. cbn [ir_err ir_value ir_scanned] in *. subst e. destruct (numeral_out radix _ k RX EP) as (k' & N & B & ->). exists k'. split; [exact N|]. split; [exact B|]. split; [|split; [|exact (SC eq_refl)]].
  - unfold s32. cbv zeta. change (2^32) with 4294967296. destruct (Z.ltb_spec (k' mod 4294967296) 2147483648); [apply Z.mod_mod; lia|]. rewrite Zminus_mod, Z_mod_same_full, Z.sub_0_r, !Z.mod_mod by lia. reflexivity.
  - unfold s32. cbv zeta. destruct (Z.ltb_spec (k' mod 4294967296) 2147483648); lia.
Qed.
(** A numeral outside 64 bits is reported as overflow. *)
Theorem C26_overflow_reported_partial :
  forall n st v s radix k, reached n st -> nth_error (sv st) v = Some s -> 0 <= radix <= 36 ->
  numeral radix (T st v) k -> k >= 2^63 \/ k < - 2^63 ->
  exists h' r, as_int32 (sh st) s radix = Ok (h', r) /\ unchanged st h' /\ ir_err r = ErrNum2 1 3.
Proof.
  intros n st v s radix k R EV RX N B. apply radix_range in RX. assert (A := int_result_of n st v s radix R EV RX). destruct (numeral_in radix (T st v) k RX N) as (neg & u & NN & EK & EP). rewrite EP in A. clear EP. unfold outcome_of in A.
  destruct (Z.leb_spec (2^64) u); [destruct A as (h' & sc & E & U & _); eexists _, _; split; [exact E|]; split; [exact U|reflexivity]|].
  destruct (Z.eqb_spec u (2^63)) as [X|X]; [destruct neg; [lia|]|rewrite andb_false_r in A]; cbn [andb] in A;
    (match type of A with context [if ?a >? ?b then _ else _] => destruct (Z.gtb_spec a b); [|first [destruct neg; lia | lia]] end; destruct A as (h' & sc & E & U & _); eexists _, _; split; [exact E|]; split; [exact U|reflexivity]).
Qed.
(** Defined behaviour, unless the text starts with a numeral of value -2^63. *)
Theorem C26_defined_partial :
  forall n st v s radix, reached n st -> nth_error (sv st) v = Some s -> 0 <= radix <= 36 ->
  (forall a b, T st v = a ++ b -> ~ numeral radix a (- 2^63)) ->
  exists h' r, as_int32 (sh st) s radix = Ok (h', r) /\ unchanged st h'.
Proof.
  intros n st v s radix R EV RX N. apply radix_range in RX. assert (A := int_result_of n st v s radix R EV RX). destruct (pint radix (T st v)) as [[k e]|] eqn:EP.
  - destruct A as (h' & sc & E & U & _). eexists _, _. split; [exact E|exact U].
  - exfalso. destruct (pint_none radix _ RX EP) as (a & b & E & NU). exact (N a b E NU).
Qed.
(** The errors are what the documentation says (ErrNum2 1 n is message n of the
    set of StrVal): 2, only blanks, a sign, a prefix; 4, no digit where the first
    one should be; 1, a numeral and then something else; 3, a numeral outside 64
    bits.  The scanned length is where the text stops making sense. *)
Theorem C26_errors_partial :
  forall n st v s radix h' r, reached n st -> nth_error (sv st) v = Some s -> 0 <= radix <= 36 ->
  as_int32 (sh st) s radix = Ok (h', r) ->
  In (ir_err r) [0; ErrNum2 1 1; ErrNum2 1 2; ErrNum2 1 3; ErrNum2 1 4] /\ 0 <= ir_scanned r <= Z.of_nat (length (T st v)) /\
  (ir_err r = ErrNum2 1 2 <-> exists rx sg p, opening radix (T st v) rx sg p) /\
  (ir_err r = ErrNum2 1 2 -> ir_value r = 0 /\ ir_scanned r = Z.of_nat (length (T st v))) /\
  (ir_err r = ErrNum2 1 4 <-> exists w rx sg p c q, T st v = w ++ c :: q /\ opening radix w rx sg p /\ no_digit_after rx sg p c) /\
  (ir_err r = ErrNum2 1 4 -> ir_value r = 0 /\ exists w rx sg p c q, T st v = w ++ c :: q /\ opening radix w rx sg p /\ no_digit_after rx sg p c /\ ir_scanned r = Z.of_nat (length w)) /\
  (ir_err r = ErrNum2 1 1 -> exists a c q k, T st v = a ++ c :: q /\ numeral radix a k /\ ~ blank c /\ -2^63 < k < 2^63 /\
     ir_value r mod 2^32 = k mod 2^32 /\ -2^31 <= ir_value r < 2^31 /\ ir_scanned r = Z.of_nat (length a)) /\
  (ir_err r = ErrNum2 1 3 -> exists a b k, T st v = a ++ b /\ numeral radix a k /\ (k >= 2^63 \/ k < - 2^63)).
Proof.
  intros n st v s radix h' r R EV RX E0. apply radix_range in RX. assert (A := int_result_of n st v s radix R EV RX). set (t := T st v) in *. destruct (pint radix t) as [[k e]|] eqn:EP; [|congruence].
  destruct A as (h1 & sc & E & _ & SC & BD & SR). rewrite E in E0. injection E0 as <- <-. cbn [ir_err ir_value ir_scanned]. clear E.
  destruct err_codes as (C1 & C2 & C3 & C4 & _).
  assert (X2 : e = ErrNum2 1 2 <-> exists rx sg p, opening radix t rx sg p).
  { split; [|intros (rx & sg & p & O); assert (Q := pint_opening radix t rx sg p [] RX O (or_introl eq_refl)); rewrite app_nil_r, EP in Q; rewrite <- C2; congruence].
    intros EE. destruct (pint_cases radix t k e RX EP) as [(rx & sg & p & O & _)|[(w & rx & sg & p & c & q & _ & _ & _ & H & _)|(a & x & neg & u & _ & _ & _ & _ & _ & [(H & _)|(_ & _ & _ & [(_ & H)|(_ & H)])])]]; [eauto|exfalso; rewrite EE in H; discriminate..]. }
  assert (X4 : e = ErrNum2 1 4 <-> exists w rx sg p c q, t = w ++ c :: q /\ opening radix w rx sg p /\ no_digit_after rx sg p c).
  { split; [|intros (w & rx & sg & p & c & q & ET & O & ND); assert (Q := pint_opening radix w rx sg p (c :: q) RX O (or_intror (ex_intro _ c (ex_intro _ q (conj eq_refl ND))))); rewrite <- ET, EP in Q; rewrite <- C4; congruence].
    intros EE. destruct (pint_cases radix t k e RX EP) as [(rx & sg & p & _ & H & _)|[(w & rx & sg & p & c & q & ET & O & ND & _)|(a & x & neg & u & _ & _ & _ & _ & _ & [(H & _)|(_ & _ & _ & [(_ & H)|(_ & H)])])]]; [exfalso; rewrite EE in H; discriminate|eauto 12|exfalso; rewrite EE in H; discriminate..]. }
  assert (NO : e <> ErrNum2 1 3 -> sc = Z.of_nat (length t) - Z.of_nat (length (rint radix t))) by (rewrite <- C3; exact SR). clear SR.
  destruct (pint_cases radix t k e RX EP) as [(rx & sg & p & O & EE & K & RI)|[(w & rx & sg & p & c & q & ET & O & ND & EE & K & RI)|(a & x & neg & u & ET & NU & NN & RI & SX & D)]].
  - rewrite C2 in EE. split; [rewrite EE; cbn [In]; auto|]. split; [exact BD|]. split; [exact X2|]. split; [intros _; split; [exact K|]; rewrite NO, RI by (rewrite EE; discriminate); cbn [length]; lia|]. split; [exact X4|].
    split; [|split]; intros H; exfalso; rewrite H in EE; discriminate.
  - rewrite C4 in EE. split; [rewrite EE; cbn [In]; auto 8|]. split; [exact BD|]. split; [exact X2|]. split; [intros H; exfalso; rewrite H in EE; discriminate|]. split; [exact X4|].
    split; [intros _; split; [exact K|]; exists w, rx, sg, p, c, q; split; [exact ET|]; split; [exact O|]; split; [exact ND|]; rewrite NO, RI by (rewrite EE; discriminate); rewrite ET, app_length; lia|].
    split; intros H; exfalso; rewrite H in EE; discriminate.
  - unfold num_at, lim in *. destruct D as [(EE & GT)|(LE & N63 & K & [(EX & EE)|(EX & EE)])].
    + rewrite C3 in EE. split; [rewrite EE; cbn [In]; auto 8|]. split; [exact BD|]. split; [exact X2|]. split; [intros H; exfalso; rewrite H in EE; discriminate|]. split; [exact X4|]. split; [intros H; exfalso; rewrite H in EE; discriminate|]. split; [intros H; exfalso; rewrite H in EE; discriminate|].
      intros _. exists a, x, (if neg then - u else u). split; [exact ET|]. split; [exact NU|]. destruct neg; lia.
    + split; [rewrite EE; cbn [In]; auto|]. split; [exact BD|]. split; [exact X2|]. split; [intros H; exfalso; rewrite H in EE; discriminate|]. split; [exact X4|]. split; [|split]; intros H; exfalso; rewrite H in EE; discriminate.
    + rewrite C1 in EE. split; [rewrite EE; cbn [In]; auto 8|]. split; [exact BD|]. split; [exact X2|]. split; [intros H; exfalso; rewrite H in EE; discriminate|]. split; [exact X4|]. split; [intros H; exfalso; rewrite H in EE; discriminate|]. split; [|intros H; exfalso; rewrite H in EE; discriminate].
      intros _. destruct x as [|c q]; [congruence|]. exists a, c, q, (if neg then - u else u). split; [exact ET|]. split; [exact NU|]. split; [rewrite <- white_blank, (SX c q eq_refl); discriminate|]. split; [destruct neg; [specialize (N63 eq_refl)|]; lia|].
      rewrite K. set (z := if neg then - u else u). split; [|split].
      * unfold s32. cbv zeta. change (2^32) with 4294967296. destruct (Z.ltb_spec (z mod 4294967296) 2147483648); [apply Z.mod_mod; lia|]. rewrite Zminus_mod, Z_mod_same_full, Z.sub_0_r, !Z.mod_mod by lia. reflexivity.
      * unfold s32. cbv zeta. destruct (Z.ltb_spec (z mod 4294967296) 2147483648); lia.
      * rewrite NO, RI by (rewrite EE; discriminate). rewrite ET, app_length. lia.
Qed.
(** An impossible radix is reported. *)
Theorem C26_illegal_radix_reported :
  forall h s radix, radix < 0 \/ radix > 36 ->
  as_int32 h s radix = Ok (h, {| ir_value := 0; ir_err := ErrNum2 1 5; ir_scanned := 0 |}) /\ (forall k, In k [1; 2; 3; 4] -> ErrNum2 1 5 <> ErrNum2 1 k).
Proof.
  intros h s radix H. split; [unfold as_int32; replace ((radix <? 0) || (radix >? 36)) with true by lia; reflexivity|]. cbn [In]. intros k [<-|[<-|[<-|[<-|[]]]]]; discriminate.
Qed.

Definition int_of (st : sstate) (v : nat) (radix : Z) : option (outcome (Z * Z)) :=
  match nth_error (sv st) v with
  | Some s => Some (match as_int32 (sh st) s radix with Ok r => Ok (ir_value (snd r), ir_err (snd r)) | Abort => Abort | UB => UB end)
  | None => None
  end.
(** "The number doesn't fit in the requested type" is not always reported:
    "4294967297" converts to 1 with no error. *)
Theorem C26_truncation_refuted :
  exists st, srun (sinit 1) [SLit 0 [52; 50; 57; 52; 57; 54; 55; 50; 57; 55] false] = Ok st /\ int_of st 0 10 = Some (Ok (1, 0)).
Proof. eexists. split; [vm_compute; reflexivity|]. vm_compute. reflexivity. Qed.
(** "Radix 16 allows 0x..." does not hold: "0x1F" with radix 16. *)
Theorem C26_prefix_refuted :
  exists st, srun (sinit 1) [SLit 0 [48; 120; 49; 70] false] = Ok st /\ int_of st 0 16 = Some (Ok (0, STRERR_TRAIL_TEXT)) /\ int_of st 0 0 = Some (Ok (31, 0)).
Proof. eexists. split; [vm_compute; reflexivity|]. split; vm_compute; reflexivity. Qed.
(** "-9223372036854775808": undefined behaviour (negation of the least long). *)
Theorem C26_least_long_refuted :
  exists st, srun (sinit 1) [SLit 0 [45; 57; 50; 50; 51; 51; 55; 50; 48; 51; 54; 56; 53; 52; 55; 55; 53; 56; 48; 56] false] = Ok st /\ int_of st 0 10 = Some UB.
Proof. eexists. split; [vm_compute; reflexivity|]. vm_compute. reflexivity. Qed.

(** Concrete cases: " -0x1f " in radix 0, "z7" in radix 36, and Arabic-Indic
    digits in radix 10. *)
Definition progn : list sop := [SLit 0 [32; 45; 48; 120; 49; 102; 32] false; SLit 1 [122; 55] false; SLit 2 [217; 161; 217; 162] false].
Lemma progn_ok : run_ok (sinit 3) progn.
Proof.
  assert (P : forall c, 0 <= c < 2^31 -> plain c) by (intros c Hc; unfold plain; lia). unfold progn.
  next. { split; [exists [32; 45; 48; 120; 49; 102; 32]; split; [reflexivity|repeat constructor; apply P; lia]|]. split; [cbn; intuition lia|cbn; lia]. }
  next. { split; [exists [122; 55]; split; [reflexivity|repeat constructor; apply P; lia]|]. split; [cbn; intuition lia|cbn; lia]. }
  next. { split; [exists [0x661; 0x662]; split; [reflexivity|repeat constructor; apply P; lia]|]. split; [cbn; intuition lia|cbn; lia]. }
  exact Logic.I.
Qed.
Lemma num_example : numeral 0 [32; 45; 48; 120; 49; 102; 32] (-31).
Proof.
  exists [32], [45], [], [48; 120; 49; 102], [32], 31. split; [reflexivity|]. split; [constructor; [cbn; auto 8|constructor]|]. split; [constructor|]. split; [constructor; [cbn; auto 8|constructor]|]. split; [|auto].
  left. exists 48, 120, [49; 102]. split; [reflexivity|].
  assert (D0 : digit 10 48 0) by (apply zero_spec; vm_compute; reflexivity). split; [exact D0|]. split; [auto|].
  apply digits_isdig; [lia|]. split; [discriminate|]. split; [repeat constructor|reflexivity].
Qed.
Example C26_example : exists st, reached 3 st /\ T st 0 = [32; 45; 48; 120; 49; 102; 32] /\ numeral 0 (T st 0) (-31) /\
  int_of st 0 0 = Some (Ok (-31, 0)) /\ int_of st 1 36 = Some (Ok (35 * 36 + 7, 0)) /\ int_of st 2 10 = Some (Ok (12, 0)) /\ int_of st 1 10 = Some (Ok (0, STRERR_NOT_NUMBER)).
Proof.
  eexists. split; [exists progn; split; [exact progn_ok|vm_compute; reflexivity]|].
  split; [vm_compute; reflexivity|]. split; [exact num_example|]. split; [vm_compute; reflexivity|]. split; [vm_compute; reflexivity|]. split; vm_compute; reflexivity.
Qed.

(** Radix 1 counts the ones. *)
Example C26_radix_1 : exists st, srun (sinit 2) [SLit 0 [45; 49; 49; 48; 49] false; SLit 1 [49; 50] false] = Ok st /\
  int_of st 0 1 = Some (Ok (-3, 0)) /\ int_of st 1 1 = Some (Ok (1, STRERR_TRAIL_TEXT)) /\ numeral 1 (T st 0) (-3).
Proof.
  eexists. split; [vm_compute; reflexivity|]. split; [vm_compute; reflexivity|]. split; [vm_compute; reflexivity|].
  change (numeral 1 [45; 49; 49; 48; 49] (-3)). exists [], [45], [], [49; 49; 48; 49], [], 3. split; [reflexivity|]. do 3 (split; [constructor|]). split; [|auto].
  apply digits_isdig; [lia|]. split; [discriminate|]. split; [repeat constructor|reflexivity].
Qed.

(** "- ", "0x" (radix 0), "12 q", "0xg" (radix 0): the errors and where they are. *)
Definition scan_of (st : sstate) (v : nat) (radix : Z) : option (Z * Z * Z) :=
  match nth_error (sv st) v with
  | Some s => match as_int32 (sh st) s radix with Ok r => Some (ir_value (snd r), err_msg (ir_err (snd r)), ir_scanned (snd r)) | _ => None end
  | None => None
  end.
Example C26_error_example : exists st,
  srun (sinit 4) [SLit 0 [45; 32] false; SLit 1 [48; 120] false; SLit 2 [49; 50; 32; 113] false; SLit 3 [48; 120; 103] false] = Ok st /\
  scan_of st 0 10 = Some (0, 2, 2) /\ scan_of st 1 0 = Some (0, 2, 2) /\ scan_of st 2 10 = Some (12, 1, 3) /\ scan_of st 3 0 = Some (0, 4, 2) /\
  opening 0 [48; 120] 16 false true /\ no_digit_after 16 false true 103.
Proof.
  eexists. split; [vm_compute; reflexivity|]. do 4 (split; [vm_compute; reflexivity|]). split.
  - exists [], [], [], [48; 120]. split; [reflexivity|]. split; [constructor|]. split; [constructor|]. split; [left; auto|]. right. split; [reflexivity|]. split; [reflexivity|]. exists 48, 120. split; [reflexivity|]. split; [apply zero_spec; vm_compute; reflexivity|]. left. auto.
  - split; [|left; reflexivity]. apply nodigit_dv; [lia|]. vm_compute. reflexivity.
Qed.

Print Assumptions C26_numerals_in_range_partial.
Print Assumptions C26_success_means_numeral_partial.
Print Assumptions C26_overflow_reported_partial.
Print Assumptions C26_defined_partial.
Print Assumptions C26_errors_partial.
Print Assumptions C26_illegal_radix_reported.
Print Assumptions C26_truncation_refuted.
Print Assumptions C26_prefix_refuted.
Print Assumptions C26_least_long_refuted.
