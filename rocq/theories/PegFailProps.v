(** Property C50: a parse reports how far it got, and what was looked for there. *)
From Coq Require Strings.String Strings.Ascii.
From Verif Require Import Base UTF8Model UTF8Spec UTF8Proofs PegModel PegTotal PegFailModel PegFailSpec PegFailProofs PegProps.
Import Strings.String.StringSyntax.

(** ** The recording has no influence on the outcome *)

Theorem C50_outcome_unchanged : forall f rules text r,
  reported f rules text = Ok (Done r) ->
  exists s cx, parse f ast_policy rules text = Ok (Done (t_failure r, s, cx)).
Proof.
  intros f rules text r. unfold reported, fparse, parse.
  destruct (lookup rules [84; 79; 80]) as [i|]; [|discriminate].
  destruct (nth_error rules i) as [tr|]; [|discriminate]. cbn [obind]. intros H.
  assert (H1 := f_equal (fun o => match o with Ok x => x | _ => NoFuel end) H). cbv beta iota in H1. clear H. rename H1 into H.
  unfold match_here.
  pose proof (proj1 (proj2 (proj2 (strip_all (Gram rules) ast_policy f))) (r_pat tr) [(i, src_start text)] (0%nat, src_start text) ctx0) as S.
  inv H. destruct a as [[[ok [q s]] cx] ks]. cbv beta iota in H. rewrite E in S. cbn in S. rewrite <- S. cbn [rbind].
  inv H. rewrite E0. cbn [rbind].
  destruct (ok && (a =? 0)) eqn:EO.
  - inv H. assert (r = mktold false (Some (h_far a0)) (h_fails a0)) by congruence. subst r.
    apply andb_prop in EO. destruct EO as [_ EO]. apply Z.eqb_eq in EO. subst a.
    exists s, cx. unfold is_failure. cbn [fst snd].
    destruct (rdp (r_pat tr) 0) as [c0| |] eqn:E2; cbn [rbind t_failure].
    + destruct (Z.eqb_spec c0 0); [reflexivity|]. destruct q as [|q]; [congruence|]. reflexivity.
    + destruct (rdp_zero _ E2).
    + destruct (rdp_nofuel _ _ E2).
  - inv H. rewrite E1. cbn [rbind]. assert (r = mktold a0 (if a0 then None else Some s) []) by congruence. subst r. cbn [t_failure]. eauto.
Qed.

Theorem C50_recording_never_fails : forall f rules text fl s cx, bytes text ->
  parse f ast_policy rules text = Ok (Done (fl, s, cx)) ->
  exists r, reported f rules text = Ok (Done r) /\ t_failure r = fl.
Proof.
  intros f rules text fl s cx HB H.
  assert (X : exists r, reported f rules text = Ok (Done r)).
  { unfold parse in H. unfold reported. destruct (fparse f rules text) as [[[top tr] y]| |] eqn:EF; cbn [obind].
    2, 3: unfold fparse in EF; destruct (lookup rules [84; 79; 80]) as [i|]; [destruct (nth_error rules i)|]; discriminate.
    assert (EF' := EF). unfold fparse in EF.
    destruct (lookup rules [84; 79; 80]) as [i|]; [|discriminate]. destruct (nth_error rules i) as [tr'|]; [|discriminate].
    assert (i = top) by congruence. assert (tr' = tr) by congruence. subst i tr'.
    assert (EY : fmatch_sequence f (Gram rules) ast_policy (r_pat tr) [(top, src_start text)] (0%nat, src_start text) ctx0 = y) by congruence.
    assert (H' := f_equal (fun o => match o with Ok x => x | _ => NoFuel end) H). cbv beta iota in H'. clear H. rename H' into H.
    unfold match_here in H.
    rewrite <- (proj1 (proj2 (proj2 (strip_all (Gram rules) ast_policy f)))), EY in H.
    unfold strip in H. inv H. destruct a as [[ok [q s1]] cx1]. cbv beta iota in H. inv E.
    destruct a as [x ks]. cbn [fst] in E. injection E as ->.
    rewrite E0. cbn [rbind]. rewrite E0 in EF'. destruct (fparse_good _ _ _ _ _ _ _ EF') as (_ & _ & _ & G).
    inv H. rewrite E. cbn [rbind]. destruct (ok && (a =? 0)).
    - destruct (record_start rules top text HB ks G) as (h & Hh & _). rewrite Hh. cbn [rbind]. eauto.
    - inv H. rewrite E1. cbn [rbind]. eauto. }
  destruct X as [r Hr]. exists r. split; [exact Hr|]. apply C50_outcome_unchanged in Hr. destruct Hr as (s' & cx' & Hr). congruence.
Qed.

(** ** What is reported for a parse that succeeds.  [ks]: every atom that was
    tried and failed, with the place; [counts]: it is a literal or a class and
    was not tried in a lookahead. *)

Theorem C50_furthest_partial : forall f rules text top tr x ks r, bytes text ->
  fparse f rules text = Ok (top, tr, Done (x, ks)) ->
  reported f rules text = Ok (Done r) -> t_failure r = false ->
  exists far, t_far r = Some far /\ steps (src_start text) far /\
    (forall k, In k ks -> counts rules k -> not_beyond (k_loc k) far) /\
    (forall i op, In (i, op) (map atom_of (t_fails r)) <->
       exists k, In k ks /\ counts rules k /\ k_loc k = far /\ k_rule k = i /\ k_op k = op) /\
    NoDup (map atom_of (t_fails r)) /\
    (t_fails r = [] -> far = src_start text).
Proof.
  intros f rules text top tr x ks r HB HF HR HS.
  destruct (reported_success _ _ _ _ _ _ _ _ HB HF HR HS) as (h & H1 & H2 & [D1 D2 D3 D4 D5 D6]).
  exists (h_far h). rewrite H2. repeat split; auto.
  - intros X. apply in_map_iff in X. destruct X as (y & X1 & X2). destruct (D5 y X2) as (k & K1 & K2 & K3 & ->).
    exists k. unfold atom_of, of_call in X1. cbn [a_rule a_op] in X1. repeat split; try congruence; try apply K2; auto.
  - intros (k & K1 & K2 & K3 & <- & <-). apply D4; auto.
Qed.

(** Each entry is an atom that does not match at the furthest place, of a rule
    that the calls of the path lead to from TOP; its length is that of the atom
    but for control characters and for classes at the end of the text. *)
Theorem C50_entries_partial : forall f rules text r far x, bytes text ->
  reported f rules text = Ok (Done r) -> t_far r = Some far -> In x (t_fails r) ->
  exists top rl c o ch,
    lookup rules (codes "TOP") = Some top /\
    nth_error rules (a_rule x) = Some rl /\ rdp (r_pat rl) (a_op x) = Done c /\ literal c /\
    refuses (r_pat rl) (a_op x) far /\
    called rules top (src_start text) ((a_rule x, o) :: ch) /\ steps o far /\
    a_path x = rev (a_rule x :: map fst ch) /\
    (c = 91 -> 1 <= a_len x) /\
    (c <> 91 -> 0 < c < 32 \/ a_len x = 1).
Proof.
  intros f rules text r far x HB HR HFar HX.
  destruct (fparse f rules text) as [[[top tr] y]| |] eqn:EF; [|unfold reported in HR; rewrite EF in HR; discriminate|unfold reported in HR; rewrite EF in HR; discriminate].
  destruct y as [[z ks]| |]; [|unfold reported in HR; rewrite EF in HR; discriminate|unfold reported in HR; rewrite EF in HR; discriminate].
  assert (HS : t_failure r = false).
  { unfold reported in HR. rewrite EF in HR. cbn [obind] in HR.
    assert (H := f_equal (fun o => match o with Ok x => x | _ => NoFuel end) HR). cbv beta iota in H. clear HR.
    cbn [rbind] in H. destruct z as [[ok [q s]] cx]. cbv beta iota in H. inv H. destruct (ok && (a =? 0)); inv H.
    - assert (mktold false (Some (h_far a0)) (h_fails a0) = r) by congruence. subst r. reflexivity.
    - assert (mktold a0 (if a0 then None else Some s) [] = r) by congruence. subst r. destruct HX. }
  destruct (reported_success _ _ _ _ _ _ _ _ HB EF HR HS) as (h & H1 & H2 & [D1 D2 D3 D4 D5 D6]).
  destruct (fparse_good _ _ _ _ _ _ _ EF) as (T1 & T2 & _ & G). rewrite H2 in HX.
  destruct (D5 x HX) as (k & K1 & K2 & K3 & ->). rewrite Forall_forall in G. destruct (G k K1) as [(ch & C1 & C2) S1 (rl & c & R1 & R2 & R3)].
  destruct K2 as (_ & rl' & c' & L1 & L2 & L3). assert (rl' = rl) by congruence. subst rl'. assert (c' = c) by congruence. subst c'.
  destruct (R3 L3) as [R4 R5]. assert (far = k_loc k) by congruence. subst far.
  exists top, rl, c, (k_origin k), ch. cbn [of_call a_rule a_op a_len a_path]. repeat split; auto.
  - intros ->. destruct R5 as [(_ & X & _)|[X _]]; [lia|contradiction].
  - intros N. destruct R5 as [(X & _)|[_ X]]; [contradiction|].
    destruct ((0 <? c) && (c <? 32)) eqn:EC; [left; lia|right; lia].
Qed.

(** A literal that is tried and fails is recorded ... *)
Theorem C50_failures_recorded : forall f rules P pat i o ch p s cx st cx' ks c,
  rdp pat p = Done c -> literal c ->
  fmatch_atom f (Gram rules) P pat ((i, o) :: ch) (p, s) cx = Done (false, st, cx', ks) ->
  exists e, ks = [mkcall i p e s (c_dis cx) o (rev (i :: map fst ch))].
Proof. exact lit_atom. Qed.

(** ... but not if it is tried in a lookahead, even in rules called there. *)
Theorem C50_lookaheads_ignored : forall f rules P pat ch p s cx x ks,
  rdp pat p = Done 38 \/ rdp pat p = Done 33 ->
  fmatch_atom f (Gram rules) P pat ch (p, s) cx = Done (x, ks) ->
  forall k, In k ks -> ~ counts rules k.
Proof.
  intros f rules P pat ch p s cx [[ok st] cx1] ks Hp H k Hk [C _].
  apply ahead_quiet in H; [|exact Hp]. rewrite Forall_forall in H. specialize (H k Hk). cbv beta in H. lia.
Qed.

(** ** Example: a list of numbers, with a comma missing.  Rules are sorted by
    name: 0 TOP, 1 item, 2 list. *)
Definition list_rules : list rule :=
  [mkrule (codes "TOP") (codes "<list>") []; mkrule (codes "item") (codes "+[0-9]") [];
   mkrule (codes "list") (codes "<item>*(,<item>)") []].

(** After 12,3 of the text 12,3x the parser looked for another digit (rule item,
    called by list, called by TOP), or for a comma. *)
Example C50_example : exists x ks,
  fparse 60 list_rules (codes "12,3x") = Ok (0%nat, mkrule (codes "TOP") (codes "<list>") [], Done (x, ks)) /\
  reported 60 list_rules (codes "12,3x") =
    Ok (Done (mktold false (Some (mksrc (codes "x") 4 1 5))
      [mkfailure 1 1 5 [0%nat; 2%nat; 1%nat]; mkfailure 2 8 1 [0%nat; 2%nat]])) /\
  Exists (counts list_rules) ks.
Proof.
  pose (v := fparse 60 list_rules (codes "12,3x")). vm_compute in v.
  match goal with v := Ok (_, _, Done (?x, ?ks)) |- _ => exists x, ks end. clear v.
  split; [vm_compute; reflexivity|]. split; [vm_compute; reflexivity|].
  apply Exists_cons_hd. split; [reflexivity|]. eexists. eexists. split; [reflexivity|]. split; [reflexivity|].
  unfold literal. cbn. intuition discriminate.
Qed.

(** In a lookahead: the failures of &"ab" are not reported, those of the class
    are. *)
Example C50_example_lookahead :
  reported 60 [mkrule (codes "TOP") (codes "*(!(ab)[a-y])") []] (codes "acz") =
    Ok (Done (mktold false (Some (mksrc (codes "z") 2 1 3)) [mkfailure 0 7 5 [0%nat]])).
Proof. vm_compute. reflexivity. Qed.

(** ** What a user would expect, and does not get *)

(** A parse that fails reports nothing: neither how far it got (here two
    characters) nor what it was looking for. *)
Theorem C50_failed_parse_refuted : forall f, (20 <= f)%nat ->
  reported f [mkrule (codes "TOP") (codes "abc") []] (codes "abd") = Ok (Done (mktold true None [])).
Proof. intros f Hf. do 20 (destruct f as [|f]; [lia|]). reflexivity. Qed.

(** A parse in which no literal failed reports the start of the text as the
    furthest place it reached, however much it has read (here all of it):
    test/peg_test.cpp prints that the parse failed at byte 0. *)
Theorem C50_nothing_failed_refuted : forall f, (20 <= f)%nat ->
  reported f [mkrule (codes "TOP") (codes "abc") []] (codes "abc") =
    Ok (Done (mktold false (Some (src_start (codes "abc"))) [])).
Proof. intros f Hf. do 20 (destruct f as [|f]; [lia|]). reflexivity. Qed.

(** An operator that fails (here an escape for digits; also ^, $ and the dot) is
    not reported, and neither is the place where it failed: after the digits of
    12x the report is about the start of the text. *)
Theorem C50_operators_refuted : forall f, (20 <= f)%nat ->
  reported f [mkrule (codes "TOP") (codes "*\d") []] (codes "12x") =
    Ok (Done (mktold false (Some (src_start (codes "12x"))) [])).
Proof. intros f Hf. do 20 (destruct f as [|f]; [lia|]). reflexivity. Qed.

(** A class that fails at the end of the text is reported with length 1: what
    is printed for [0-9] is the bracket only. *)
Theorem C50_class_at_end_refuted : forall f, (30 <= f)%nat ->
  reported f [mkrule (codes "TOP") (codes "*[0-9]") []] (codes "12") =
    Ok (Done (mktold false (Some (mksrc [] 2 1 3)) [mkfailure 0 1 1 [0%nat]])).
Proof. intros f Hf. do 30 (destruct f as [|f]; [lia|]). reflexivity. Qed.

(** A control character of the grammar (here a tab) is reported with length 0:
    nothing is printed for it. *)
Theorem C50_control_character_refuted : forall f, (30 <= f)%nat ->
  reported f [mkrule (codes "TOP") [42; 9] []] [9; 97] =
    Ok (Done (mktold false (Some (mksrc [97] 1 1 2)) [mkfailure 0 1 0 [0%nat]])).
Proof. intros f Hf. do 30 (destruct f as [|f]; [lia|]). reflexivity. Qed.

Print Assumptions C50_outcome_unchanged.
Print Assumptions C50_recording_never_fails.
Print Assumptions C50_furthest_partial.
Print Assumptions C50_entries_partial.
Print Assumptions C50_failures_recorded.
Print Assumptions C50_lookaheads_ignored.
Print Assumptions C50_failed_parse_refuted.
Print Assumptions C50_nothing_failed_refuted.
Print Assumptions C50_operators_refuted.
Print Assumptions C50_class_at_end_refuted.
Print Assumptions C50_control_character_refuted.
