(** Property theorems C10-C12, C44, C45: character classes and case. *)
From Verif Require Import Base CharTables CharModel CharSpec CharProofs.

(** C10.  Whatever the memo holds in any (also concurrent) execution, the
    conversion returns what the table says, without touching memory outside
    the table ... *)
Theorem C10_case_conversion_memo_free :
  (forall m ch, memo_value UCS4ToUpper m -> ucs4 ch ->
     exists r w, UCS4ToUpper m ch = Ok (r, w) /\ table_maps UnicodeToUpper ch r) /\
  (forall m ch, memo_value UCS4ToLower m -> ucs4 ch ->
     exists r w, UCS4ToLower m ch = Ok (r, w) /\ table_maps UnicodeToLower ch r).
Proof.
  split; intros m ch Hm Hc.
  - exact (case_table_memo _ upper_ok ltac:(vm_compute; lia) m ch Hm Hc).
  - exact (case_table_memo _ lower_ok ltac:(vm_compute; lia) m ch Hm Hc).
Qed.
Print Assumptions C10_case_conversion_memo_free.

(** ... what the table says is a function of the character ... *)
Theorem C10_tables_are_functions :
  (forall ch r r', table_maps UnicodeToUpper ch r -> table_maps UnicodeToUpper ch r' -> r = r') /\
  (forall ch r r', table_maps UnicodeToLower ch r -> table_maps UnicodeToLower ch r' -> r = r').
Proof. split; [exact (table_maps_fun _ upper_ok)|exact (table_maps_fun _ lower_ok)]. Qed.
Print Assumptions C10_tables_are_functions.

(** ... and so every history of calls returns the table's answers in order. *)
Theorem C10_case_conversion_histories :
  forall chs, Forall ucs4 chs ->
    (exists rs, run_calls UCS4ToUpper 0 chs = Ok rs /\ Forall2 (table_maps UnicodeToUpper) chs rs) /\
    (exists rs, run_calls UCS4ToLower 0 chs = Ok rs /\ Forall2 (table_maps UnicodeToLower) chs rs).
Proof.
  intros chs Hc. split.
  - exact (case_table_runs _ upper_ok ltac:(vm_compute; lia) chs 0 (memo_init _) Hc).
  - exact (case_table_runs _ lower_ok ltac:(vm_compute; lia) chs 0 (memo_init _) Hc).
Qed.
Print Assumptions C10_case_conversion_histories.

Example C10_ex : memo_value UCS4ToUpper 8 /\
  run_calls UCS4ToUpper 0 [0x107; 0x61; 0x107; 0x3B1; 0x10FFFF] = Ok [0x106; 0x41; 0x106; 0x391; 0x10FFFF].
Proof.
  split; [|vm_compute; reflexivity].
  apply (memo_stored _ 0 0x107 0x106 8 (memo_init _)); [lia|vm_compute; reflexivity].
Qed.

(** C11.  Digits: memo-free, in -1..9, exactly the listed ranges. *)
Theorem C11_digit_values_partial :
  forall m ch, memo_value UCS4Digit m -> ucs4 ch ->
    exists v w, UCS4Digit m ch = Ok (v, w) /\ digit_spec ch v /\ -1 <= v <= 9.
Proof.
  intros m ch Hm _. destruct (ucs4digit_spec m ch (digit_memo_valid m Hm)) as (v & w & E & S & R & _). eauto.
Qed.
Print Assumptions C11_digit_values_partial.

Example C11_ex : memo_value UCS4Digit 3 /\ UCS4Digit 3 0x967 = Ok (1, None) /\ UCS4Digit 0 0xFF19 = Ok (9, Some 19).
Proof.
  split; [|split; vm_compute; reflexivity].
  apply (memo_stored _ 0 0x966 0 3 (memo_init _)); [lia|vm_compute; reflexivity].
Qed.

(** The Han digits the source lists as special cases are never recognised: the
    loop's short circuit returns -1 before reaching them. *)
Theorem C11_han_digits_refuted :
  forall m, memo_value UCS4Digit m ->
    exists w, UCS4Digit m 0x3007 = Ok (-1, w) /\
    forall ch, 0x3021 <= ch <= 0x3029 -> exists w', UCS4Digit m ch = Ok (-1, w').
Proof.
  assert (N : forall ch, 0x3007 <= ch <= 0x3029 -> forall u, ~ digit_value UCS4_DigitRanges ch u).
  { intros ch Hc u (l & h & I & R & _). cbn [UCS4_DigitRanges In] in I.
    repeat (destruct I as [I|I]; [inversion I; subst; lia|]). exact I. }
  assert (K : forall m ch, memo_value UCS4Digit m -> 0x3007 <= ch <= 0x3029 -> exists w, UCS4Digit m ch = Ok (-1, w)).
  { intros m ch Hm Hc. destruct (ucs4digit_spec m ch (digit_memo_valid m Hm)) as (v & w & E & [S|[_ ->]] & _).
    - exfalso; exact (N ch Hc _ S).
    - eauto. }
  intros m Hm. destruct (K m 0x3007 Hm ltac:(lia)) as (w & E). exists w. split; [exact E|].
  intros ch Hc. apply K; [exact Hm|lia].
Qed.
Print Assumptions C11_han_digits_refuted.

(** Hexadecimal digits: 0..15 or -1; the decimal value if there is one, else
    ASCII A-F / a-f. *)
Theorem C11_hex_digit_values :
  forall m ch, memo_value UCS4Digit m -> ucs4 ch ->
    exists v w, UCS4HexDigit m ch = Ok (v, w) /\
      ((digit_value UCS4_DigitRanges ch v) \/
       (65 <= ch <= 70 /\ v = ch - 55) \/ (97 <= ch <= 102 /\ v = ch - 87) \/
       (v = -1 /\ (forall u, ~ digit_value UCS4_DigitRanges ch u) /\
        ~ (65 <= ch <= 70) /\ ~ (97 <= ch <= 102))).
Proof.
  intros m ch Hm _. destruct (ucs4digit_spec m ch (digit_memo_valid m Hm)) as (v & w & E & S & R & _).
  unfold UCS4HexDigit. rewrite E. cbn [obind fst snd].
  destruct S as [S|[N ->]].
  - assert (V := digit_value_range _ _ _ digit_ok S). replace (v >=? 0) with true by lia. eauto.
  - cbn [Z.geb Z.compare].
    destruct ((ch >=? 65) && (ch <=? 70)) eqn:A; [do 2 eexists; split; [reflexivity|]; right; left; lia|].
    destruct ((ch >=? 97) && (ch <=? 102)) eqn:B; [do 2 eexists; split; [reflexivity|]; right; right; left; lia|].
    do 2 eexists; split; [reflexivity|]. right; right; right. repeat split; try assumption; lia.
Qed.
Print Assumptions C11_hex_digit_values.

(** C12.  Alphabetic: exactly the characters some case table moves and the
    listed caseless letters; title case: the listed exceptions, else upper. *)
Theorem C12_alphabetic :
  forall mu ml ch, memo_value UCS4ToUpper mu -> memo_value UCS4ToLower ml -> ucs4 ch ->
    exists b, UCS4IsAlphabetic mu ml ch = Ok b /\
      (b = true <->
        (~ table_maps UnicodeToUpper ch ch \/ ~ table_maps UnicodeToLower ch ch \/ caseless_letter ch)).
Proof. exact alphabetic_spec. Qed.
Print Assumptions C12_alphabetic.

Example C12_ex : UCS4IsAlphabetic 0 0 0xFB17 = Ok true /\ UCS4IsAlphabetic 0 0 0xAA = Ok true /\
                 UCS4IsAlphabetic 0 0 0x40 = Ok false /\ UCS4IsAlphabetic 0 0 0xFFFFFFFF = Ok false.
Proof. repeat split; vm_compute; reflexivity. Qed.

Theorem C12_title :
  forall m ch, memo_value UCS4ToUpper m -> ucs4 ch ->
    exists r w, UCS4ToTitle m ch = Ok (r, w) /\
      ((exists d, In (ch, d) UnicodeToTitle /\ r = ch + d) \/
       ((forall d, ~ In (ch, d) UnicodeToTitle) /\ table_maps UnicodeToUpper ch r)).
Proof.
  intros m ch Hm Hc. unfold UCS4ToTitle. assert (T := title_lookup_spec UnicodeToTitle ch).
  destruct (title_lookup UnicodeToTitle ch) as [r|].
  - destruct T as (c & d & I & E & R). subst c. do 2 eexists. split; [reflexivity|]. left. exists d. split; [exact I|].
    rewrite R. unfold u32. cbn [UnicodeToTitle In] in I.
    repeat (destruct I as [I|I]; [inversion I; subst; reflexivity|]). destruct I.
  - destruct (case_table_memo _ upper_ok ltac:(vm_compute; lia) m ch Hm Hc) as (r & w & E & M).
    exists r, w. split; [exact E|]. right. auto.
Qed.
Print Assumptions C12_title.

Example C12_title_ex : UCS4ToTitle 0 0x1C4 = Ok (0x1C5, None) /\ UCS4ToTitle 0 0x1C6 = Ok (0x1C5, None).
Proof. split; vm_compute; reflexivity. Qed.

(** C44.  Predicates and ASCII agreement. *)
Theorem C44_white_and_ranges :
  forall ch, ucs4 ch ->
    (UCS4IsWhite ch = true <->
       In ch [9; 10; 13; 32; 0xA0; 0x2000; 0x2001; 0x2002; 0x2003; 0x2004; 0x2005; 0x2006; 0x2007;
              0x2008; 0x2009; 0x200A; 0x200B; 0x2028; 0x2029; 0x3000]) /\
    (UCS4IsASCII ch = true <-> ch <= 127) /\
    (UCS4IsASCIIPrintable ch = true <-> 32 <= ch <= 126) /\
    (UCS4IsLatin1 ch = true <-> ch <= 255) /\ (UCS4IsUTF16 ch = true <-> ch <= 65535).
Proof.
  intros ch Hc. unfold ucs4 in Hc.
  unfold UCS4IsWhite, UCS4IsASCII, UCS4IsASCIIPrintable, UCS4IsLatin1, UCS4IsUTF16. cbn [In].
  repeat split; intros; lia.
Qed.
Print Assumptions C44_white_and_ranges.

Theorem C44_ascii_agreement :
  forall ch, 0 <= ch <= 127 ->
    forall mu ml md, memo_value UCS4ToUpper mu -> memo_value UCS4ToLower ml -> memo_value UCS4Digit md ->
    (exists w, UCS4ToUpper mu ch = Ok (ascii_upper ch, w)) /\
    (exists w, UCS4ToLower ml ch = Ok (ascii_lower ch, w)) /\
    (exists w, UCS4Digit md ch = Ok (ASCIIDigit ch, w)).
Proof.
  intros ch Hc mu ml md Hu Hl Hd.
  assert (A : forallb (fun c => (conv UnicodeToUpper c =? ascii_upper c) && (conv UnicodeToLower c =? ascii_lower c))
    (map Z.of_nat (List.seq 0 128)) = true) by (vm_compute; reflexivity).
  rewrite forallb_forall in A. specialize (A ch). rewrite in_map_iff in A.
  assert (I : exists x, Z.of_nat x = ch /\ In x (List.seq 0 128)).
  { exists (Z.to_nat ch). split; [lia|]. apply in_seq. lia. }
  specialize (A I). apply andb_true_iff in A as [A1 A2].
  destruct (case_table_memo _ upper_ok ltac:(vm_compute; lia) mu ch Hu ltac:(lia)) as (u & wu & Eu & Mu).
  destruct (case_table_memo _ lower_ok ltac:(vm_compute; lia) ml ch Hl ltac:(lia)) as (l & wl & El & Ml).
  split; [|split].
  - exists wu. unfold UCS4ToUpper. rewrite Eu. f_equal. f_equal.
    rewrite (table_maps_fun _ upper_ok _ _ _ Mu (conv_maps _ ch)). lia.
  - exists wl. unfold UCS4ToLower. rewrite El. f_equal. f_equal.
    rewrite (table_maps_fun _ lower_ok _ _ _ Ml (conv_maps _ ch)). lia.
  - destruct (ucs4digit_spec md ch (digit_memo_valid md Hd)) as (v & w & E & S & _).
    exists w. rewrite E. f_equal. f_equal. unfold ASCIIDigit.
    destruct ((ch <? 48) || (ch >? 57)) eqn:Q.
    + destruct S as [(low & high & I' & R & _)|[_ ->]]; [|reflexivity].
      cbn [UCS4_DigitRanges In] in I'.
      repeat (destruct I' as [I'|I']; [inversion I'; subst; lia|]). destruct I'.
    + destruct S as [(low & high & I' & R & ->)|[N _]].
      * cbn [UCS4_DigitRanges In] in I'.
        repeat (destruct I' as [I'|I']; [inversion I'; subst; lia|]). destruct I'.
      * exfalso. apply (N (ch - 48)). exists 0x30, 0x39. split; [left; reflexivity|]. lia.
Qed.
Print Assumptions C44_ascii_agreement.

(** C45.  Case conversion is idempotent, for every character and any memos. *)
Theorem C45_case_idempotent :
  (forall m m' ch r w, memo_value UCS4ToUpper m -> memo_value UCS4ToUpper m' -> ucs4 ch ->
     UCS4ToUpper m ch = Ok (r, w) -> exists w', UCS4ToUpper m' r = Ok (r, w')) /\
  (forall m m' ch r w, memo_value UCS4ToLower m -> memo_value UCS4ToLower m' -> ucs4 ch ->
     UCS4ToLower m ch = Ok (r, w) -> exists w', UCS4ToLower m' r = Ok (r, w')).
Proof.
  split; [exact (case_convert_idem _ upper_ok ltac:(vm_compute; lia) upper_idem)
         |exact (case_convert_idem _ lower_ok ltac:(vm_compute; lia) lower_idem)].
Qed.
Print Assumptions C45_case_idempotent.
