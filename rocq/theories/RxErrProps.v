(** C62: errorOffset() tells where in the pattern the error is. *)
From Coq Require Import String Ascii.
From Verif Require Import Base UTF8Model CharModel ErrNumModel StrNumModel RxCompModel RxTotal RxErrModel RxErrProofs RxErrTrack RxErrSyn.

Definition chars (s : string) : list Z := map (fun c => Z.of_N (N_of_ascii c)) (list_ascii_of_string s).

(** compile_at is compile (the model that C24, C40 and C51 are about) and also
    says what errorOffset() is. *)
Theorem C62_same_outcome : forall features reject re p m,
  compile features reject re = Ok (p, m) -> exists off, compile_at features reject re = Ok (p, m, off).
Proof. exact compile_same. Qed.

(** The character of the pattern at the offset. *)
Definition char_at (re : list Z) (off : Z) : option Z := nth_error re (Z.to_nat off).

Lemma refused_bounds features reject re m s' x :
  refused_at first_pass (Z.land features (Z.lnot reject)) reject re [] start1 None s' m x ->
  exists t m1 m2, refusal t m2 /\ m = match m2 with Some _ => m2 | None => m1 end /\
    (forall e, m1 = Some e -> syntax e = true) /\
    x <> [] /\ (List.length x <= List.length re)%nat /\ closes t (at_ x 0) /\ nth_error re (List.length re - List.length x) = Some (at_ x 0).
Proof.
  intros (es & rest1 & d1 & es1 & d2 & t1 & t & t2 & s1 & m1 & m2 & K1 & K2 & K3 & K4 & K5 & K6 & K7 & K8 & K9).
  pose proof (first_refusal _ _ _ _ K8) as RF.
  assert (A : after 0 x re) by (eapply (after_le (0 + 0)); [lia|eapply after_trans; [exact K4|eapply reads_after, K1]]).
  assert (NE : x <> []). { intros ->. change (at_ [] 0) with 0 in K5. destruct t; cbn in K5, RF; try contradiction; lia. }
  exists t, m1, m2. split; [exact RF|]. split; [exact K9|]. split.
  { intros e He. subst m1. apply (run_msg first_pass first_ok) in K7. symmetry in K7. apply last_err_in in K7. destruct K7 as [K7|K7]; [discriminate|].
    apply in_app_or in K7. destruct K7 as [K7|K7]; [exact (reads_synt _ _ _ _ _ _ _ K1 e K7)|].
    apply (round_synt _ _ _ _ _ K3). cbn [fst]. rewrite K6. apply in_or_app. auto. }
  split; [exact NE|]. split; [eapply after_length, A|]. split; [exact K5|].
  destruct A as [n ->]. cbn [plus] in *. rewrite skipn_length in *.
  assert (L : (n < List.length re)%nat). { destruct (Nat.leb_spec (List.length re) n) as [L|L]; [|exact L]. exfalso. apply NE, skipn_all2, L. }
  replace (List.length re - (List.length re - n))%nat with n by lia.
  rewrite <- (firstn_skipn n re) at 1. rewrite nth_error_app2; rewrite firstn_length_le by lia; [|lia]. rewrite Nat.sub_diag.
  destruct (skipn n re) as [|c r]; [contradiction|reflexivity].
Qed.

(** The offset is one of the pattern, or its end; it is 0 if there is no error. *)
Theorem C62_inside : forall features reject re p m off,
  compile_at features reject re = Ok (p, m, off) ->
  0 <= off <= Z.of_nat (List.length re) /\ (p <> None -> m = None /\ off = 0).
Proof.
  intros features reject re p m off H. apply compile_where in H. cbv zeta in H.
  destruct H as [(-> & s' & x & R & ->)|(es & s2 & K1 & K2 & [(-> & K3 & K4 & K5)|(K3 & -> & K5)])].
  - destruct (refused_bounds _ _ _ _ _ _ R) as (t & m1 & m2 & _ & _ & _ & _ & L & _). split; [lia|congruence].
  - split; [|congruence]. assert (re <> []). { intros ->. cbn [List.length scan_loop flush] in K1. assert (es = []) by congruence. subst es. cbn in K3. congruence. }
    destruct re; [contradiction|]. cbn [List.length] in *. lia.
  - split; [lia|]. destruct K5 as [(-> & -> & _)|(_ & -> & _)]; [congruence|auto].
Qed.

(** If a construct that is written well is refused, the offset is that of its
    last character: the quantifier, the opening of the group or the closing
    parenthesis. *)
Theorem C62_refused_character : forall features reject re m off,
  compile_at features reject re = Ok (None, m, off) ->
  match m with
  | Some MRepeated | Some MLimit => exists c, char_at re off = Some c /\ In c (chars "*+?}")
  | Some MTooDeep => exists c, char_at re off = Some c /\ In c (chars "(:!>")
  | Some MTooManyNames | Some MDuplicate => char_at re off = Some 62
  | Some MTooManyClosing | None => char_at re off = Some 41
  | _ => True
  end.
Proof.
  intros features reject re m off H. apply compile_where in H. cbv zeta in H.
  destruct H as [(_ & s' & x & R & ->)|(es & s2 & K1 & K2 & [(_ & K3 & K4 & K5)|(K3 & -> & K5)])].
  - destruct (refused_bounds _ _ _ _ _ _ R) as (t & m1 & m2 & RF & EM & SY & _ & _ & C & N). unfold char_at. rewrite Nat2Z.id, N.
    assert (Q : m2 = None -> match m with Some e => syntax e = true | None => True end).
    { intros ->. destruct m; [|exact I]. apply SY. congruence. }
    destruct m2 as [e|].
    + subst m. destruct t; cbn in RF, C; try contradiction; repeat (destruct RF as [RF|RF]); try discriminate; try (injection RF as ->);
        try (eexists; split; [reflexivity|]; cbn); try (f_equal; exact C); intuition.
    + specialize (Q eq_refl). destruct t; cbn in RF, C; try contradiction; repeat (destruct RF as [RF|RF]); try discriminate.
      destruct m as [e|]; [destruct e; try discriminate; exact I|]. f_equal. exact C.
  - destruct (last_err None es) as [e|] eqn:EL; [|congruence]. subst m. apply last_err_in in EL. destruct EL as [EL|EL]; [discriminate|].
    apply (loop_synt _ _ _ _ _ _ K1) in EL. destruct e; try discriminate; exact I.
  - destruct K5 as [(_ & -> & _)|[K5 _]]; [exact I|congruence].
Qed.

(** It is the first construct that is refused: everything before is read and
    accepted, and this one begins at [i] and ends at the offset. *)
Theorem C62_refused_construct : forall features reject re m off,
  compile_at features reject re = Ok (None, m, off) ->
  match m with Some e => syntax e = false /\ e <> MUnclosed | None => True end ->
  let en := Z.land features (Z.lnot reject) in
  exists i es d es1 d1 t1 t t2 s1 s2 m1 m2,
    (i <= Z.to_nat off < List.length re)%nat /\
    reads en reject re [] es (skipn i re) d /\
    scan_round en reject (skipn i re) d = Ok (es1, d1, skipn (S (Z.to_nat off)) re) /\
    es1 = t1 ++ Tok t :: t2 /\
    run first_pass (Tok TStart :: es ++ t1) one0 None = Ok (s1, m1, true) /\
    first_pass t s1 = Ok (s2, m2, false) /\ m = match m2 with Some _ => m2 | None => m1 end.
Proof.
  intros features reject re m off H HM en. apply compile_where in H. cbv zeta in H. fold en in H.
  destruct H as [(_ & s' & x & R & ->)|(es & s2 & K1 & K2 & [(_ & K3 & K4 & K5)|(K3 & -> & K5)])].
  - destruct (refused_bounds _ _ _ _ _ _ R) as (_ & _ & _ & _ & _ & _ & NE & L & _ & _).
    destruct R as (es & rest1 & d1 & es1 & d2 & t1 & t & t2 & s1 & m1 & m2 & K1 & K2 & K3 & K4 & K5 & K6 & K7 & K8 & K9).
    destruct (reads_after _ _ _ _ _ _ _ K1) as [i0 E0]. destruct K4 as [j0 E1]. cbn [plus] in E0, E1.
    assert (NE0 : (0 < List.length x)%nat) by (destruct x; [contradiction|cbn; lia]).
    assert (LL : (List.length x = List.length re - i0 - j0)%nat) by (rewrite E1, E0, !skipn_length; lia).
    assert (LI : (i0 + j0 < List.length re)%nat) by lia.
    rewrite Nat2Z.id. replace (List.length re - List.length x)%nat with (i0 + j0)%nat by lia.
    exists i0, es, d1, es1, d2, t1, t, t2, s1, s', m1, m2. split; [lia|]. rewrite <- E0. split; [exact K1|]. split.
    { rewrite K3. do 2 f_equal. rewrite E1, E0, !skipn_add. f_equal. lia. }
    split; [exact K6|]. split; [|auto]. cbn [run]. cbn [first_pass]. unfold add1. cbn [obind]. exact K7.
  - exfalso. destruct (last_err None es) as [e|] eqn:EL; [|congruence]. subst m. apply last_err_in in EL. destruct EL as [EL|EL]; [discriminate|].
    apply (loop_synt _ _ _ _ _ _ K1) in EL. destruct HM. congruence.
  - exfalso. destruct K5 as [(_ & -> & _)|[K5 _]]; [destruct HM; congruence|congruence].
Qed.

Example C62_refused_examples :
  compile_at AllFeatures 0 (chars "a*b+*c") = Ok (None, Some MRepeated, 4) /\
  compile_at AllFeatures 0 (chars "ab{2,300}c") = Ok (None, Some MLimit, 8) /\
  compile_at AllFeatures 0 (chars "(?<x>a)|(?<x>b)") = Ok (None, Some MDuplicate, 12) /\
  compile_at AllFeatures 0 (chars "((((((((((((a))))))))))))") = Ok (None, Some MTooDeep, 11) /\
  compile_at AllFeatures 0 (chars "ab)c") = Ok (None, None, 2).
Proof. repeat split; vm_compute; reflexivity. Qed.

(** An error in how the pattern is written does not stop the scan: the offset
    ends up on the last character or after it (or at a closing parenthesis too
    many, where compiling stops), wherever the error is, and the message is that
    of the last error. *)
Theorem C62_syntax_refuted :
  (forall features reject re e off,
    compile_at features reject re = Ok (None, Some e, off) -> syntax e = true ->
    (Z.of_nat (List.length re) - 1 <= off /\
     exists es a b, scan (Z.land features (Z.lnot reject)) reject re = Ok es /\ es = a ++ Err e :: b /\ existsb is_err b = false)
    \/ char_at re off = Some 41) /\
  compile_at AllFeatures 0 (chars "(?x") = Ok (None, Some MBadGroup, 2) /\
  compile_at AllFeatures 0 (chars "(?x a pattern that goes on)") = Ok (None, Some MBadGroup, 26) /\
  compile_at AllFeatures 0 (chars "(?x and later [b") = Ok (None, Some MBadClass, 16) /\
  compile_at AllFeatures 0 (chars "a\xz..") = Ok (None, Some MBadHex, 5).
Proof.
  split; [|repeat split; vm_compute; reflexivity].
  intros features reject re e off H HE. apply compile_where in H. cbv zeta in H.
  destruct H as [(_ & s' & x & R & ->)|(es & s2 & K1 & K2 & [(_ & K3 & K4 & K5)|(K3 & -> & K5)])].
  - right. destruct (refused_bounds _ _ _ _ _ _ R) as (t & m1 & m2 & RF & EM & SY & _ & _ & C & N). unfold char_at. rewrite Nat2Z.id, N.
    destruct m2 as [e2|].
    + exfalso. assert (e2 = e) by congruence. subst e2. destruct t; cbn in RF; try contradiction; repeat (destruct RF as [RF|RF]); try discriminate RF; injection RF as ->; discriminate HE.
    + destruct t; cbn in RF; try contradiction; repeat (destruct RF as [RF|RF]); try discriminate RF. f_equal. exact C.
  - left. split; [lia|]. symmetry in K3. apply last_err_split in K3. destruct K3 as [[K3 _]|(a & b & -> & K3)]; [discriminate|].
    unfold scan. rewrite K1. cbn [obind]. eexists; exists (Tok TStart :: a), b. split; [reflexivity|]. split; [|exact K3].
    replace (existsb is_err (a ++ Err e :: b)) with true by (rewrite existsb_app; cbn; rewrite orb_true_r; reflexivity). rewrite app_nil_r. reflexivity.
  - exfalso. destruct K5 as [(_ & K5 & _)|[K5 _]]; [|congruence]. injection K5 as ->. discriminate.
Qed.

(** A group that is not closed is reported at offset 0. *)
Theorem C62_unclosed_refuted :
  (forall features reject re off, compile_at features reject re = Ok (None, Some MUnclosed, off) -> off = 0) /\
  compile_at AllFeatures 0 (chars "abc(def") = Ok (None, Some MUnclosed, 0).
Proof.
  split; [|vm_compute; reflexivity].
  intros features reject re off H. apply compile_where in H. cbv zeta in H.
  destruct H as [(_ & s' & x & R & ->)|(es & s2 & K1 & K2 & [(_ & K3 & K4 & K5)|(K3 & -> & K5)])].
  - exfalso. destruct (refused_bounds _ _ _ _ _ _ R) as (t & m1 & m2 & RF & EM & SY & _).
    destruct m2 as [e2|].
    + assert (e2 = MUnclosed) by congruence. subst e2. destruct t; cbn in RF; try contradiction; repeat (destruct RF as [RF|RF]); discriminate RF.
    + discriminate (SY MUnclosed (eq_sym EM)).
  - exfalso. symmetry in K3. apply last_err_in in K3. destruct K3 as [K3|K3]; [discriminate|].
    apply (loop_synt _ _ _ _ _ _ K1) in K3. discriminate.
  - reflexivity.
Qed.

Print Assumptions C62_same_outcome.
Print Assumptions C62_inside.
Print Assumptions C62_refused_character.
Print Assumptions C62_refused_construct.
Print Assumptions C62_syntax_refuted.
Print Assumptions C62_unclosed_refuted.
