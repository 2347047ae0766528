(** C63: compile() accepts exactly the patterns that keep the rules, and
    errorMessage() names the rule that is broken. *)
From Coq Require Import String Ascii.
From Verif Require Import Base UTF8Model CharModel ErrNumModel StrNumModel RxCompModel RxTotal RxErrModel RxErrProofs RxErrTrack RxErrSyn RxMsgSpec RxMsgProofs.

Definition chars (s : string) : list Z := map (fun c => Z.of_N (N_of_ascii c)) (list_ascii_of_string s).

(** No construct is refused after those before it. *)
Definition none_refused (ts : list token) : Prop := forall h t r x, ts = h ++ t :: r -> ~ refused h t x.
(** The last mistake in how the pattern is written. *)
Definition last_mistake (es : list event) : option msg :=
  fold_left (fun m e => match e with Err x => Some x | Tok _ => m end) es None.

(** The outcome of compile, from the constructs and the mistakes that the
    pattern is read as. *)
Definition outcome_of (es : list event) (p : option (list Z)) (m : option msg) : Prop :=
  (exists a t b x, es = a ++ Tok t :: b /\ none_refused (tokens a) /\ refused (tokens a) t x /\
     p = None /\ m = match x with Some _ => x | None => last_mistake a end) \/
  (none_refused (tokens es) /\
   match last_mistake es with
   | Some e => p = None /\ m = Some e
   | None => (0 < open_groups (tokens es) /\ p = None /\ m = Some MUnclosed) \/
             (open_groups (tokens es) = 0 /\ p <> None /\ m = None)
   end).

Lemma not_refused_start h x : ~ refused h TStart x.
Proof. intros R. inversion R; subst. match goal with H : In _ _ |- _ => destruct H as [H|[H|[]]]; discriminate H end. Qed.
Lemma not_refused_accept h x : ~ refused h TAccept x.
Proof. intros R. inversion R; subst. match goal with H : In _ _ |- _ => destruct H as [H|[H|[]]]; discriminate H end. Qed.
Lemma hist_start1 : hist [TStart] start1.
Proof. split; [reflexivity|]. split; [reflexivity|]. exists [], true. repeat split. constructor. Qed.

Lemma none_start ts : (forall a t b x, ts = a ++ t :: b -> ~ refused ([TStart] ++ a) t x) -> none_refused (TStart :: ts).
Proof.
  intros H h t r x E. destruct h as [|h0 h]; cbn [app] in E; injection E as E1 E2; subst; [apply not_refused_start|]. eapply (H h t r x); reflexivity.
Qed.
Lemma none_snoc ts t : none_refused ts -> (forall x, ~ refused ts t x) -> none_refused (ts ++ [t]).
Proof.
  intros H N h u r x E. destruct r as [|r0 r] using rev_ind.
  - apply app_inj_tail in E. destruct E as [-> ->]. apply N.
  - rewrite app_comm_cons, app_assoc in E. apply app_inj_tail in E. destruct E as [E _]. exact (H h u r x E).
Qed.

Theorem C63_outcome : forall features reject re p m,
  compile features reject re = Ok (p, m) ->
  exists es, scan (Z.land features (Z.lnot reject)) reject re = Ok es /\ outcome_of es p m.
Proof.
  intros features reject re p m HC. destruct (compile_same _ _ _ _ _ HC) as [off HO]. apply compile_where in HO. cbv zeta in HO.
  unfold compile in HC. cbv zeta in HC. set (en := Z.land features (Z.lnot reject)) in *.
  destruct (scan en reject re) as [es| | ] eqn:ES; cbn [obind] in HC; try discriminate. exists es. split; [reflexivity|].
  unfold scan in ES. destruct (scan_loop en reject (List.length re) re []) as [es0| | ] eqn:EL; cbn [obind] in ES; try discriminate.
  assert (ee : es = Tok TStart :: es0 ++ (if existsb is_err es0 then [] else [Tok TAccept])) by congruence. clear ES.
  pose proof (loop_inner _ _ _ _ _ _ EL) as INN.
  assert (SPLIT : forall a t, In (Tok t) (firstn a es0) -> inner t) by (intros a t I; apply INN; rewrite <- (firstn_skipn a es0); apply in_or_app; auto).
  rewrite ee in HC. rewrite pass_run in HC. cbn [run] in HC. cbn [first_pass] in HC. unfold add1 in HC. cbn [obind] in HC.
  match type of HC with context [run first_pass _ ?s _] => change s with start1 in HC end. rewrite run_app in HC.
  destruct (run first_pass es0 start1 None) as [[[s m1] ok]| | ] eqn:ER; cbn [obind] in HC; try discriminate.
  destruct ok.
  - (* nothing refused *)
    right. destruct (run_hist es0 [TStart] start1 None s m1 hist_start1 INN ER) as [HH NR].
    pose proof (run_msg first_pass first_ok _ _ _ _ _ ER) as ->.
    assert (LM : last_mistake es = last_err None es0).
    { rewrite ee. unfold last_mistake. cbn [fold_left]. rewrite fold_left_app. unfold last_err. destruct (existsb is_err es0); reflexivity. }
    rewrite LM. pose proof (last_err_none es0 None) as LN. cbn [is_some orb] in LN.
    assert (NRT : none_refused (tokens es)).
    { rewrite ee. change (tokens (Tok TStart :: ?x)) with (TStart :: tokens x). rewrite tokens_app. apply none_start. 
      intros a t b x E. destruct (existsb is_err es0).
      - rewrite app_nil_r in E. exact (NR a t b x E).
      - change (tokens [Tok TAccept]) with [TAccept] in E. destruct b as [|b0 b] using rev_ind.
        + apply app_inj_tail in E. destruct E as [_ <-]. apply not_refused_accept.
        + rewrite app_comm_cons, app_assoc in E. apply app_inj_tail in E. destruct E as [E _]. exact (NR a t b x E). }
    split; [exact NRT|].
    destruct HO as [(-> & s' & x & R & _)|(es' & s2 & K1 & K2 & HO)].
    { exfalso. destruct R as (e1 & rest1 & d1 & e2 & d2 & t1 & t & t2 & s1 & mm1 & m2 & K1 & K2 & K3 & K4 & K5 & K6 & K7 & K8 & K9).
      assert (PRE : forall f rest d ee rest' d', reads en reject rest d ee rest' d' -> forall es', scan_loop en reject f rest d = Ok es' -> 
        exists f' more, scan_loop en reject f' rest' d' = Ok more /\ es' = ee ++ more).
      { intros f rest d ee' rest' d' RD. revert f. induction RD as [|rest d q1 q2 q3 q4 q5 q6 N SR RD IH]; intros f es' HL; [exists f, es'; auto|].
        destruct f as [|f]; cbn [scan_loop] in HL; destruct rest as [|c rest]; try contradiction; try discriminate.
        rewrite SR in HL. cbn [obind] in HL. destruct (scan_loop en reject f q3 q2) as [l| | ] eqn:E2; cbn [obind] in HL; try discriminate.
        destruct (IH _ _ E2) as (f' & more & M1 & ->). exists f', more. split; [exact M1|]. rewrite <- app_assoc. congruence. }
      destruct (PRE _ _ _ _ _ _ K1 _ EL) as (f' & more & M1 & M2).
      assert (exists more', more = e2 ++ more') as [more' ->].
      { destruct f' as [|f']; cbn [scan_loop] in M1; destruct rest1 as [|c rest1]; try contradiction; try discriminate.
        rewrite K3 in M1. cbn [obind] in M1. destruct (scan_loop en reject f' _ _) as [l| | ]; cbn [obind] in M1; try discriminate.
        exists l. congruence. }
      rewrite M2, K6, <- app_assoc, app_assoc, run_app, K7 in ER. cbn [obind app run] in ER. rewrite K8 in ER. cbn [obind] in ER. congruence. }
    assert (es' = es0) by congruence. subst es'. assert (s2 = s) by congruence. subst s2.
    destruct HH as (_ & _ & k & b & HS & HL & _).
    assert (OG : open_groups (tokens es) = Z.of_nat (List.length k)).
    { rewrite HL, ee. change (tokens (Tok TStart :: ?x)) with (TStart :: tokens x). rewrite tokens_app.
      destruct (existsb is_err es0); cbn [tokens flat_map app]; [rewrite app_nil_r; reflexivity|].
      change (TStart :: tokens es0 ++ [TAccept]) with ((TStart :: tokens es0) ++ [TAccept]). rewrite open_snoc. reflexivity. }
    destruct HO as [(-> & -> & NM & _)|(-> & _ & HO)].
    + destruct (last_err None es0) as [e|]; [auto|congruence].
    + rewrite OG. destruct HO as [(-> & -> & HT)|(NP & -> & HT)].
      * left. split; [|auto]. rewrite HS in HT. destruct k; [contradiction HT; reflexivity|]. cbn [List.length]. lia.
      * right. split; [|auto]. rewrite HS in HT. destruct k as [|x k]; [reflexivity|]. cbn [app tl] in HT. apply app_eq_nil in HT. destruct HT; discriminate.
  - (* refused *)
    left. destruct (run_refused first_pass _ _ _ _ _ ER) as (t1 & t & t2 & s1 & mm1 & m2 & EE & R1 & R2 & RM).
    assert (I1 : forall u, In (Tok u) t1 -> inner u) by (intros u I; apply INN; rewrite EE; apply in_or_app; auto).
    assert (I2 : inner t) by (apply INN; rewrite EE; apply in_or_app; right; left; reflexivity).
    destruct (run_hist t1 [TStart] start1 None s1 mm1 hist_start1 I1 R1) as [HH NR].
    pose proof (run_msg first_pass first_ok _ _ _ _ _ R1) as M1.
    destruct (hist_step _ _ _ HH I2) as [(mm & s' & RF & E)|(_ & s' & E & _)]; rewrite E in R2; [|congruence].
    assert (mm = m2) by congruence. subst mm.
    exists (Tok TStart :: t1), t, (t2 ++ (if existsb is_err es0 then [] else [Tok TAccept])), m2.
    split; [rewrite ee, EE, <- app_assoc; reflexivity|]. split; [apply none_start; exact NR|]. split; [exact RF|].
    cbn [obind andb negb] in HC. split; [congruence|]. assert (m = m1) by congruence. subst m. rewrite RM, M1. reflexivity.
Qed.

(** A pattern is accepted exactly when it is written without mistakes, no
    construct of it is refused and every group is closed. *)
Theorem C63_accepts : forall features reject re es p m,
  scan (Z.land features (Z.lnot reject)) reject re = Ok es -> compile features reject re = Ok (p, m) ->
  (p <> None <-> (forall e, ~ In (Err e) es) /\ none_refused (tokens es) /\ open_groups (tokens es) = 0).
Proof.
  intros features reject re es p m HS HC. destruct (C63_outcome _ _ _ _ _ HC) as (es' & HS' & O). assert (es' = es) by congruence. subst es'.
  assert (LM : forall e, last_mistake es = Some e -> In (Err e) es).
  { intros e He. change (last_mistake es) with (last_err None es) in He. apply last_err_in in He. destruct He as [He|He]; [discriminate|exact He]. }
  assert (LN : last_mistake es = None -> forall e, ~ In (Err e) es).
  { intros N e I. change (last_mistake es) with (last_err None es) in N. pose proof (last_err_none es None) as Q. rewrite N in Q. cbn [is_some orb] in Q.
    assert (existsb is_err es = true) by (apply existsb_exists; exists (Err e); split; [exact I|reflexivity]). congruence. }
  destruct O as [(a & t & b & x & -> & N & R & -> & _)|(N & O)].
  - split; [congruence|]. intros (_ & N2 & _). exfalso. apply (N2 (tokens a) t (tokens b) x); [|exact R]. rewrite tokens_app. reflexivity.
  - destruct (last_mistake es) as [e|] eqn:EM.
    + destruct O as [-> _]. split; [congruence|]. intros (NE & _). exfalso. exact (NE e (LM e eq_refl)).
    + destruct O as [(L & -> & _)|(L & NP & _)]; [split; [congruence|]; intros (_ & _ & Q); lia|]. split; [|auto]. intros _. auto.
Qed.

(** Each message names what is wrong: a message that is not about how the
    pattern is written is that of a construct the rules refuse, all before it
    being allowed; and a group reported as not closed is open at the end of a
    pattern where nothing else is wrong. *)
Theorem C63_message : forall features reject re e,
  compile features reject re = Ok (None, Some e) ->
  exists es, scan (Z.land features (Z.lnot reject)) reject re = Ok es /\
  match e with
  | MUnclosed => none_refused (tokens es) /\ (forall e, ~ In (Err e) es) /\ 0 < open_groups (tokens es)
  | _ => if syntax e then In (Err e) es
         else exists h t r, tokens es = h ++ t :: r /\ none_refused h /\ refused h t (Some e)
  end.
Proof.
  intros features reject re e HC. destruct (C63_outcome _ _ _ _ _ HC) as (es & HS & O). exists es. split; [exact HS|].
  assert (SY : forall e', In (Err e') es -> syntax e' = true).
  { intros e' I. unfold scan in HS. destruct (scan_loop _ _ _ _ _) as [es0| | ] eqn:EL; cbn [obind] in HS; try discriminate.
    assert (ee : es = Tok TStart :: es0 ++ (if existsb is_err es0 then [] else [Tok TAccept])) by congruence. rewrite ee in I.
    destruct I as [I|I]; [discriminate|]. apply in_app_or in I. destruct I as [I|I]; [exact (loop_synt _ _ _ _ _ _ EL e' I)|].
    destruct (existsb is_err es0); [destruct I|destruct I as [I|[]]; discriminate]. }
  assert (LM : forall l e', last_mistake l = Some e' -> In (Err e') l).
  { intros l e' He. change (last_mistake l) with (last_err None l) in He. apply last_err_in in He. destruct He as [He|He]; [discriminate|exact He]. }
  assert (SYN : In (Err e) es -> match e with MUnclosed => False | _ => True end).
  { intros I. apply SY in I. destruct e; try exact Logic.I. discriminate. }
  destruct O as [(a & t & b & x & -> & N & R & _ & EM)|(N & O)].
  - destruct x as [x|].
    + assert (x = e) by congruence. subst x.
      assert (G : exists h t' r, tokens (a ++ Tok t :: b) = h ++ t' :: r /\ none_refused h /\ refused h t' (Some e)).
      { exists (tokens a), t, (tokens b). split; [rewrite tokens_app; reflexivity|auto]. }
      inversion R; subst; exact G.
    + symmetry in EM. apply LM in EM. assert (I : In (Err e) (a ++ Tok t :: b)) by (apply in_or_app; auto). pose proof (SY _ I) as S1. rewrite S1. destruct e; try exact I. discriminate.
  - destruct (last_mistake es) as [e'|] eqn:EM.
    + destruct O as [_ O]. assert (e' = e) by congruence. subst e'. apply LM in EM. pose proof (SY _ EM) as S1. rewrite S1. destruct e; try exact EM. discriminate.
    + destruct O as [(L & _ & O)|(_ & _ & O)]; [|discriminate]. assert (e = MUnclosed) by congruence. subst e. split; [exact N|]. split; [|exact L].
      intros e I. change (last_mistake es) with (last_err None es) in EM. pose proof (last_err_none es None) as Q. rewrite EM in Q. cbn [is_some orb] in Q.
      assert (existsb is_err es = true) by (apply existsb_exists; exists (Err e); split; [exact I|reflexivity]). congruence.
Qed.

(** A closing parenthesis too many is refused without a message: compile()
    returns false and errorMessage() is the null pointer, although there is a
    message for it in the source, which is never given. *)
Theorem C63_closing_refuted :
  (forall features reject re m, compile features reject re = Ok (None, m) -> m <> Some MTooManyClosing) /\
  (forall features reject re, compile features reject re = Ok (None, None) ->
     exists es h r, scan (Z.land features (Z.lnot reject)) reject re = Ok es /\ tokens es = h ++ TEnd :: r /\ open_groups h <= 0) /\
  compile AllFeatures 0 (chars "(a))") = Ok (None, None).
Proof.
  split; [|split; [|vm_compute; reflexivity]].
  - intros features reject re m HC ->. destruct (C63_message _ _ _ _ HC) as (es & _ & K). cbn [syntax] in K.
    destruct K as (h & t & r & _ & _ & R). inversion R.
  - intros features reject re HC. destruct (C63_outcome _ _ _ _ _ HC) as (es & HS & O). destruct O as [(a & t & b & x & -> & N & R & _ & EM)|(N & O)].
    + destruct x; [discriminate|]. inversion R; subst. exists (a ++ Tok TEnd :: b), (tokens a), (tokens b). split; [exact HS|]. split; [rewrite tokens_app; reflexivity|assumption].
    + exfalso. destruct (last_mistake es); [destruct O; discriminate|]. destruct O as [(_ & _ & O)|(_ & O & _)]; congruence.
Qed.

(** Both sides occur. *)
Example C63_accepts_example : exists b, compile AllFeatures 0 (chars "(?<year>[0-9]{4})-(a|bc)*(?!x)") = Ok (Some b, None).
Proof. eexists. vm_compute. reflexivity. Qed.
Example C63_message_examples :
  compile AllFeatures 0 (chars "a|*") = Ok (None, Some MRepeated) /\
  compile AllFeatures 0 (chars "a{255}") = Ok (None, Some MLimit) /\
  (exists b, compile AllFeatures 0 (chars "a{254}") = Ok (Some b, None)) /\
  compile AllFeatures 0 (chars "(?<a>b)(?<ab>b)(?<a>c)") = Ok (None, Some MDuplicate) /\
  (exists b, compile AllFeatures 0 (chars "(?<a>b)(?<ab>b)(?<b>c)") = Ok (Some b, None)) /\
  compile AllFeatures 0 (chars "((((((((((((a))))))))))))") = Ok (None, Some MTooDeep) /\
  (exists b, compile AllFeatures 0 (chars "(((((((((((a)))))))))))") = Ok (Some b, None)) /\
  compile AllFeatures 0 (chars "(a(b)") = Ok (None, Some MUnclosed).
Proof. repeat split; try (eexists; vm_compute; reflexivity); vm_compute; reflexivity. Qed.

Print Assumptions C63_outcome.
Print Assumptions C63_accepts.
Print Assumptions C63_message.
Print Assumptions C63_closing_refuted.
