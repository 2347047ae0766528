(** errorOffset() through the rounds: proofs. *)
From Verif Require Import Base UTF8Model CharModel ErrNumModel StrNumModel RxCompModel RxTotal RxErrModel RxErrProofs.

(** ** Events *)
Definition last_err (m : option msg) (es : list event) : option msg :=
  fold_left (fun m e => match e with Err x => Some x | Tok _ => m end) es m.

Section Step.
Context {S : Type} (step : token -> S -> outcome (S * option msg * bool)).
Hypothesis Hstep : forall t s s' m', step t s = Ok (s', m', true) -> m' = None.

Lemma run_app a : forall b s m, run step (a ++ b) s m =
  do x <- run step a s m; let '(s', m', ok) := x : S * option msg * bool in if ok : bool then run step b s' m' else Ok (s', m', false).
Proof.
  induction a as [|e a IH]; intros b s m; [reflexivity|]. destruct e as [t|e]; cbn [app run]; [|apply IH].
  destruct (step t s) as [[[s' m'] [|]]| | ]; cbn [obind]; auto.
Qed.
Lemma pass_run es : forall s m, pass step es s m =
  do x <- run step es s m; let '(s', m', ok) := x : S * option msg * bool in Ok (s', m', ok && negb (is_some m')).
Proof.
  induction es as [|e es IH]; intros s m; [destruct m; reflexivity|]. destruct e as [t|e]; cbn [pass run]; [|apply IH].
  destruct (step t s) as [[[s' m'] [|]]| | ]; cbn [obind]; auto.
Qed.
Lemma run_msg es : forall s m s' m', run step es s m = Ok (s', m', true) -> m' = last_err m es.
Proof.
  induction es as [|e es IH]; intros s m s' m' H; [cbn [run] in H; unfold last_err; cbn; congruence|].
  destruct e as [t|e]; cbn [run] in H; [|apply IH in H; exact H].
  destruct (step t s) as [[[s1 m1] [|]]| | ] eqn:E; cbn [obind] in H; try discriminate.
  apply Hstep in E. subst m1. apply IH in H. exact H.
Qed.
Lemma run_refused es : forall s m s' m', run step es s m = Ok (s', m', false) ->
  exists t1 t t2 s1 m1 m2, es = t1 ++ Tok t :: t2 /\ run step t1 s m = Ok (s1, m1, true) /\
    step t s1 = Ok (s', m2, false) /\ m' = match m2 with Some _ => m2 | None => m1 end.
Proof.
  induction es as [|e es IH]; intros s m s' m' H; [discriminate|]. destruct e as [t|e]; cbn [run] in H.
  - destruct (step t s) as [[[s1 m1] [|]]| | ] eqn:E; cbn [obind] in H; try discriminate.
    + destruct (IH _ _ _ _ H) as (t1 & t' & t2 & s2 & m2 & m3 & -> & R & T & ->).
      exists (Tok t :: t1), t', t2, s2, m2, m3. split; [reflexivity|]. split; [|auto]. cbn [run]. rewrite E. cbn [obind]. exact R.
    + assert (s1 = s') by congruence. subst s1. exists [], t, es, s, m, m1. split; [reflexivity|]. split; [reflexivity|]. split; [exact E|]. congruence.
  - destruct (IH _ _ _ _ H) as (t1 & t' & t2 & s2 & m2 & m3 & -> & R & T & ->).
    exists (Err e :: t1), t', t2, s2, m2, m3. auto.
Qed.
Lemma last_err_app m a b : last_err m (a ++ b) = last_err (last_err m a) b.
Proof. apply fold_left_app. Qed.
Lemma last_err_flush m d : last_err m (flush d) = m.
Proof. destruct d; reflexivity. Qed.
Lemma last_err_none es : forall m, is_some (last_err m es) = is_some m || existsb is_err es.
Proof.
  induction es as [|e es IH]; intros m; [cbn; rewrite orb_false_r; reflexivity|].
  change (last_err m (e :: es)) with (last_err (match e with Err x => Some x | Tok _ => m end) es). rewrite IH.
  destruct e; cbn; [reflexivity|rewrite orb_true_r; reflexivity].
Qed.
Lemma flush_noerr d : existsb is_err (flush d) = false.
Proof. destruct d; reflexivity. Qed.
Lemma existsb_app' {A} (f : A -> bool) a b : existsb f (a ++ b) = existsb f a || existsb f b.
Proof. apply existsb_app. Qed.

Variables en rej : Z.
(** The rounds from [rest] on, up to some later point. *)
Inductive reads : list Z -> list Z -> list event -> list Z -> list Z -> Prop :=
| reads_here rest d : reads rest d [] rest d
| reads_more rest d es d1 rest1 es' rest' d' :
    rest <> [] -> scan_round en rej rest d = Ok (es, d1, rest1) -> reads rest1 d1 es' rest' d' ->
    reads rest d (es ++ es') rest' d'.

Lemma reads_after rest d es rest' d' : reads rest d es rest' d' -> after 0 rest' rest.
Proof.
  induction 1; [apply after_refl|]. destruct (round_ok en rej rest d) as [(x & y & z & E & A)|[_ E]]; [|congruence].
  assert (z = rest1) by congruence. subst z. eapply after_le; [|eapply after_trans; eassumption]. lia.
Qed.

Lemma after_length k x r : after k x r -> (length x <= length r)%nat.
Proof. intros [j ->]. rewrite skipn_length. lia. Qed.

(** The outcome is that of scanning everything first. *)
Lemma track_pass n : forall f rest d es s m s' m' ok off,
  scan_loop en rej f rest d = Ok es ->
  pass step (es ++ (if is_some m || existsb is_err es then [] else [Tok TAccept])) s m = Ok (s', m', ok) ->
  exists off', track en rej step f n rest d s m off = Ok (s', m', ok, off').
Proof.
  assert (BASE : forall d s m s' m' ok off,
    pass step (flush d ++ (if is_some m || existsb is_err (flush d) then [] else [Tok TAccept])) s m = Ok (s', m', ok) ->
    exists off' : Z, (do x <- run step (flush d) s m;
    let '(s, m, ok) := x : S * option msg * bool in
    if ok && negb (is_some m) then do y <- run step [Tok TAccept] s m; Ok (y, off) else Ok (s, m, false, off)) = Ok (s', m', ok, off')).
  { intros d s m s' m' ok off HP. rewrite flush_noerr, orb_false_r, pass_run, run_app in HP.
    destruct (run step (flush d) s m) as [[[s1 m1] ok1]| | ] eqn:ER; cbn [obind] in HP |- *; try discriminate.
    destruct ok1; cbn [obind andb] in HP |- *; [|exists off; congruence].
    apply run_msg in ER. rewrite last_err_flush in ER. subst m1. destruct m as [m|]; cbn [is_some negb] in HP |- *; [cbn [run obind] in HP; exists off; cbn in HP; congruence|].
    destruct (run step [Tok TAccept] s1 None) as [[[s2 m2] ok2]| | ] eqn:EA; cbn [obind] in HP |- *; try discriminate.
    exists off. destruct ok2; [|cbn [andb] in HP; congruence].
    apply run_msg in EA. cbn in EA. subst m2. cbn in HP. congruence. }
  induction f as [|f IH]; intros rest d es s m s' m' ok off HS HP.
  - destruct rest; [|discriminate]. cbn [scan_loop] in HS. assert (es = flush d) by congruence. subst es. cbn [track]. apply BASE, HP.
  - destruct rest as [|c rest]; [cbn [scan_loop] in HS; assert (es = flush d) by congruence; subst es; cbn [track]; apply BASE, HP|].
    cbn [scan_loop track] in HS |- *.
    destruct (scan_round en rej (c :: rest) d) as [[[es1 d1] rest1]| | ] eqn:ER; cbn [obind] in HS; try discriminate.
    destruct (stops_round en rej (c :: rest) d ltac:(discriminate) _ _ _ ER) as (x & -> & _). cbn [obind].
    destruct (scan_loop en rej f rest1 d1) as [es2| | ] eqn:EL; cbn [obind] in HS; try discriminate. assert (es = es1 ++ es2) by congruence. subst es.
    rewrite pass_run, <- app_assoc, run_app in HP.
    destruct (run step es1 s m) as [[[s1 m1] [|]]| | ] eqn:E1; cbn [obind] in HP |- *; try discriminate; [|cbn [andb] in HP; eexists; assert (X : (s1, m1, false) = (s', m', ok)) by congruence; injection X as <- <- <-; reflexivity].
    eapply IH; [exact EL|]. rewrite pass_run, <- HP. apply run_msg in E1. rewrite E1, last_err_none, existsb_app', orb_assoc. reflexivity.
Qed.

(** ** Where it points *)
(** A token of the construct that starts at [rest1] is refused. *)
Definition refused_at (rest d : list Z) (s : S) (m : option msg) (s' : S) (m' : option msg) (x : list Z) : Prop :=
  exists es rest1 d1 es1 d2 t1 t t2 s1 m1 m2,
    reads rest d es rest1 d1 /\ rest1 <> [] /\ scan_round en rej rest1 d1 = Ok (es1, d2, skipn 1 x) /\
    after 0 x rest1 /\ closes t (at_ x 0) /\
    es1 = t1 ++ Tok t :: t2 /\ run step (es ++ t1) s m = Ok (s1, m1, true) /\
    step t s1 = Ok (s', m2, false) /\ m' = match m2 with Some _ => m2 | None => m1 end.

Lemma track_where n : forall f rest d s m s' m' ok off off',
  (forall l s s' m' ok, step (TLit l) s = Ok (s', m', ok) -> ok = true) ->
  (length rest <= n)%nat ->
  track en rej step f n rest d s m off = Ok (s', m', ok, off') ->
  (ok = false /\ exists x, refused_at rest d s m s' m' x /\ off' = Z.of_nat (n - length x)) \/
  (exists es s2 m2, scan_loop en rej f rest d = Ok es /\ run step es s m = Ok (s2, m2, true) /\
     match m2 with
     | None => off' = off /\ run step [Tok TAccept] s2 None = Ok (s', m', ok)
     | Some _ => (s', m', ok) = (s2, m2, false) /\ (rest <> [] -> Z.of_nat n - 1 <= off' <= Z.of_nat n) /\ (rest = [] -> off' = off)
     end).
Proof.
  intros f rest d s m s' m' ok off off' HL. revert rest d s m off.
  assert (BASE : forall d s m off,
    (do x <- run step (flush d) s m;
    let '(s, m, ok) := x : S * option msg * bool in
    if ok && negb (is_some m) then do y <- run step [Tok TAccept] s m; Ok (y, off) else Ok (s, m, false, off)) = Ok (s', m', ok, off') ->
    exists s2 m2, run step (flush d) s m = Ok (s2, m2, true) /\
     match m2 with
     | None => off' = off /\ run step [Tok TAccept] s2 None = Ok (s', m', ok)
     | Some _ => (s', m', ok) = (s2, m2, false) /\ off' = off
     end).
  { intros d s m off H. assert (exists s2, run step (flush d) s m = Ok (s2, m, true)) as [s2 E].
    { destruct d as [|c d]; cbn [flush run] in H |- *; [eauto|].
      destruct (step (TLit (c :: d)) s) as [[[s2 m2] ok2]| | ] eqn:E; cbn [obind] in H |- *; try discriminate.
      pose proof (HL _ _ _ _ _ E). subst ok2. apply Hstep in E. subst m2. eauto. }
    exists s2, m. split; [exact E|]. rewrite E in H. cbn [obind andb] in H. destruct m as [m|]; cbn [is_some negb] in H.
    - split; congruence.
    - destruct (run step [Tok TAccept] s2 None) as [y| | ]; cbn [obind] in H; try discriminate. split; congruence. }
  induction f as [|f IH]; intros rest d s m off Hn H.
  - destruct rest as [|c rest]; [|discriminate]. cbn [track] in H. apply BASE in H. destruct H as (s2 & m2 & R & K).
    right. exists (flush d), s2, m2. split; [reflexivity|]. split; [exact R|]. destruct m2; [|exact K]. destruct K as [K1 K2]. split; [exact K1|]. split; [congruence|auto].
  - destruct rest as [|c rest].
    { cbn [track] in H. apply BASE in H. destruct H as (s2 & m2 & R & K).
      right. exists (flush d), s2, m2. split; [reflexivity|]. split; [exact R|]. destruct m2; [|exact K]. destruct K as [K1 K2]. split; [exact K1|]. split; [congruence|auto]. }
    cbn [track] in H.
    destruct (scan_round en rej (c :: rest) d) as [[[es1 d1] rest1]| | ] eqn:ER; cbn [obind] in H; try discriminate.
    destruct (stops_round en rej (c :: rest) d ltac:(discriminate) _ _ _ ER) as (x & EX & -> & AX & CX). rewrite EX in H. cbn [obind] in H.
    destruct (run step es1 s m) as [[[s1 m1] [|]]| | ] eqn:E1; cbn [obind negb orb] in H; try discriminate.
    + pose proof (after_length _ _ _ AX) as LX.
      assert (LS : (length (skipn 1 x) <= n)%nat) by (rewrite skipn_length; lia).
      destruct (IH _ _ _ _ _ LS H) as [(K0 & y & (es & r1 & d2 & es2 & d3 & t1 & t & t2 & sa & ma & mb & K1 & K2 & K3 & K4 & K5 & K6 & K7 & K8 & K9) & KO)|(es & s2 & m2 & K1 & K2 & K3)].
      * left. split; [exact K0|]. exists y. split; [|exact KO].
        exists (es1 ++ es), r1, d2, es2, d3, t1, t, t2, sa, ma, mb. split; [econstructor; [discriminate|exact ER|exact K1]|].
        split; [exact K2|]. split; [exact K3|]. split; [exact K4|]. split; [exact K5|]. split; [exact K6|]. split; [|auto]. rewrite <- app_assoc, run_app, E1. cbn [obind]. exact K7.
      * right. exists (es1 ++ es), s2, m2. split; [cbn [scan_loop]; rewrite ER; cbn [obind]; rewrite K1; reflexivity|].
        split; [rewrite run_app, E1; exact K2|].
        pose proof (run_msg _ _ _ _ _ E1) as M1. pose proof (run_msg _ _ _ _ _ K2) as M2.
        destruct m2 as [m2|].
        -- destruct K3 as (K3 & K4 & K5). split; [exact K3|]. split; [|discriminate]. intros _.
           destruct (skipn 1 x) as [|c1 r1] eqn:ESK; [|apply K4; discriminate].
           assert (length x <= 1)%nat by (assert (Q := f_equal (@length Z) ESK); rewrite skipn_length in Q; cbn [length] in Q; lia).
           assert (es = flush d1) by (destruct f; cbn [scan_loop] in K1; congruence). subst es. rewrite last_err_flush in M2.
           rewrite <- M2 in K5. cbn [is_some] in K5. rewrite (K5 eq_refl). lia.
        -- destruct K3 as (K3 & K4). split; [|exact K4].
           assert (is_some m1 = false). { symmetry in M2. apply (f_equal is_some) in M2. rewrite last_err_none in M2. cbn [is_some] in M2. destruct (is_some m1); [discriminate|reflexivity]. }
           rewrite H0 in K3. exact K3.
    + assert (s1 = s' /\ m1 = m' /\ ok = false /\ off' = Z.of_nat (n - length x)) as (-> & -> & -> & ->) by (repeat split; congruence).
      left. split; [reflexivity|]. exists x. split; [|reflexivity].
      destruct (run_refused _ _ _ _ _ E1) as (t1 & t & t2 & sa & ma & mb & Q1 & Q2 & Q3 & Q4).
      exists [], (c :: rest), d, es1, d1, t1, t, t2, sa, ma, mb.
      split; [constructor|]. split; [discriminate|]. split; [exact ER|]. split; [exact AX|].
      split; [apply CX; rewrite Q1; apply in_or_app; right; left; reflexivity|]. auto.
Qed.
End Step.

(** ** The two passes *)
Lemma first_ok t s s' m' : first_pass t s = Ok (s', m', true) -> m' = None.
Proof.
  unfold first_pass, add1, fail1. destruct t; intros H;
  repeat match goal with
  | H : context [match push1 ?k ?s with _ => _ end] |- _ => destruct (push1 k s); try discriminate
  | H : context [if ?b then _ else _] |- _ => destruct b; try discriminate
  | H : context [match o_stack ?s with _ => _ end] |- _ => destruct (o_stack s) as [|[[] []] ?]; try discriminate
  end; congruence.
Qed.
Lemma first_lit l s s' m' ok : first_pass (TLit l) s = Ok (s', m', ok) -> ok = true.
Proof. cbn [first_pass]. unfold add1. congruence. Qed.
Lemma first_accept s m : exists s', run first_pass [Tok TAccept] s m = Ok (s', m, true).
Proof. cbn [run first_pass]. unfold add1. cbn [obind]. eexists. reflexivity. Qed.

Definition fine (o : outcome (two * option msg * bool)) : Prop := forall x, o = Ok x -> snd (fst x) = None /\ snd x = true.
Lemma fine_bind {A} (a : outcome A) f : (forall y, fine (f y)) -> fine (obind a f).
Proof. intros H. destruct a; cbn [obind]; [apply H|discriminate|discriminate]. Qed.
Lemma fine_done cap b k mx g a : fine (done cap b k mx g a).
Proof. unfold done, cassert. destruct (_ <? _)%nat; [|discriminate]. intros x E. assert (x = (mktwo b k mx g a, None, true)) by congruence. subst. auto. Qed.
Lemma second_fine M cap st nm t s : fine (second_pass M cap st nm t s).
Proof.
  unfold second_pass. cbv zeta. apply fine_bind. intros _.
  destruct t; repeat (first [apply fine_bind; intros | apply fine_done | discriminate |
    match goal with |- fine (if ?b then _ else _) => destruct b | |- fine (match ?x with _ => _ end) => destruct x end]).
Qed.
Lemma second_ok M cap st nm t s s' m' : second_pass M cap st nm t s = Ok (s', m', true) -> m' = None.
Proof. intros H. apply second_fine in H. destruct H as [H _]. exact H. Qed.
Lemma second_lit M cap st nm l s s' m' ok : second_pass M cap st nm (TLit l) s = Ok (s', m', ok) -> ok = true.
Proof. intros H. apply second_fine in H. destruct H as [_ H]. exact H. Qed.

(** ** compile *)
Definition start1 : one := mkone 6 3 0 [(KStart, true)] 1 [] false.
Lemma first_start : run first_pass [Tok TStart] one0 None = Ok (start1, None, true).
Proof. reflexivity. Qed.

Lemma compile_same features reject re p m : compile features reject re = Ok (p, m) ->
  exists off, compile_at features reject re = Ok (p, m, off).
Proof.
  unfold compile, compile_at. cbv zeta. set (en := Z.land features (Z.lnot reject)). unfold scan.
  destruct (scan_loop en reject (length re) re []) as [es| | ] eqn:ES; cbn [obind]; try discriminate.
  assert (P : forall (T : Type) (step : token -> T -> outcome (T * option msg * bool)), (forall t s s' m', step t s = Ok (s', m', true) -> m' = None) ->
    forall s s' m' ok off, pass step (Tok TStart :: es ++ (if existsb is_err es then [] else [Tok TAccept])) s None = Ok (s', m', ok) ->
    exists off', scan_regex en reject step re s None off = Ok (s', m', ok, off')).
  { intros T step HS s s' m' ok off H. unfold scan_regex. cbn [pass run] in H |- *.
    destruct (step TStart s) as [[[s1 m1] [|]]| | ] eqn:E1; cbn [obind] in H |- *; try discriminate.
    - apply HS in E1. subst m1. cbn [run obind]. eapply track_pass; [exact HS|exact ES|exact H].
    - exists 0. congruence. }
  destruct (pass first_pass _ _ _) as [[[s m1] ok]| | ] eqn:E1; cbn [obind]; try discriminate.
  destruct (P _ first_pass first_ok _ _ _ _ 0 E1) as [off ->]. cbn [obind]. destruct ok; cbn [negb]; [|intros H; eexists; assert (p = None) by congruence; assert (m = m1) by congruence; subst; reflexivity].
  destruct (o_stack s); [|intros H; eexists; assert (p = None) by congruence; assert (m = Some MUnclosed) by congruence; subst; reflexivity].
  assert (m1 = None). { rewrite pass_run in E1. destruct (run first_pass _ _ _) as [[[sx mx] okx]| | ]; cbn [obind] in E1; try discriminate. destruct mx; [|congruence]. rewrite andb_false_r in E1. discriminate. }
  subst m1.
  destruct (pass (second_pass _ _ _ _) _ _ _) as [[[w m2] ok2]| | ] eqn:E2; cbn [obind]; try discriminate.
  destruct (P _ _ (second_ok _ _ _ _) _ _ _ _ off E2) as [off2 ->]. cbn [obind].
  destruct (app_bytes _ _ _); cbn [obind]; try discriminate. intros H. exists off2. congruence.
Qed.

(** All the ways to end. *)
Lemma compile_where features reject re p m off : compile_at features reject re = Ok (p, m, off) ->
  let en := Z.land features (Z.lnot reject) in
  (p = None /\ exists s' x, refused_at first_pass en reject re [] start1 None s' m x /\ off = Z.of_nat (length re - length x)) \/
  (exists es s2, scan_loop en reject (length re) re [] = Ok es /\ run first_pass es start1 None = Ok (s2, last_err None es, true) /\
    ((p = None /\ m = last_err None es /\ m <> None /\ Z.of_nat (length re) - 1 <= off <= Z.of_nat (length re)) \/
     (last_err None es = None /\ off = 0 /\
      ((p = None /\ m = Some MUnclosed /\ tl (o_stack s2) <> []) \/ (p <> None /\ m = None /\ tl (o_stack s2) = []))))).
Proof.
  unfold compile_at. cbv zeta. set (en := Z.land features (Z.lnot reject)). unfold scan_regex at 1. rewrite first_start. cbn [obind].
  destruct (track _ _ first_pass _ _ _ _ _ _ _) as [[[[s m1] ok] off1]| | ] eqn:E1; cbn [obind]; try discriminate.
  destruct (track_where first_pass first_ok en reject _ _ _ _ _ _ _ _ _ _ _ first_lit (le_n _) E1) as [(-> & x & R & ->)|(es & s2 & m2 & K1 & K2 & K3)].
  { cbn [negb]. intros H. left. assert (m = m1) by congruence. subst m1. split; [congruence|]. exists s, x. split; [exact R|congruence]. }
  pose proof (run_msg first_pass first_ok _ _ _ _ _ K2) as M2. subst m2. intros H. right. exists es, s2. split; [exact K1|]. split; [exact K2|].
  destruct (last_err None es) as [e|] eqn:EE.
  - destruct K3 as (K3 & K4 & K5). assert (s = s2 /\ m1 = Some e /\ ok = false) as (-> & -> & ->) by (repeat split; congruence).
    cbn [negb] in H. left. assert (m = Some e) by congruence. subst m. split; [congruence|]. split; [reflexivity|]. split; [discriminate|].
    assert (off1 = off) by congruence. subst off1. apply K4. intros ->. cbn [length scan_loop] in K1. cbn [flush] in K1. assert (es = []) by congruence. subst es. discriminate.
  - right. split; [reflexivity|]. destruct K3 as (-> & K4). destruct (first_accept s2 None) as [s3 K5]. rewrite K5 in K4.
    assert (s = s3 /\ m1 = None /\ ok = true) as (-> & -> & ->) by (repeat split; congruence). cbn [negb] in H.
    assert (ST : o_stack s3 = tl (o_stack s2)).
    { cbn [run first_pass] in K5. unfold add1, set_stack in K5. cbn [obind o_stack] in K5.
      apply (f_equal (fun o => match o with Ok x => o_stack (fst (fst x)) | _ => [] end)) in K5. cbn [fst o_stack] in K5. congruence. }
    rewrite <- ST. destruct (o_stack s3) as [|fr k]; [|split; [congruence|left; split; [congruence|split; [congruence|discriminate]]]].
    unfold scan_regex in H. cbn [run] in H.
    destruct (second_pass _ _ _ _ TStart _) as [[[w0 mw] okw]| | ] eqn:ES; cbn [obind] in H; try discriminate.
    pose proof (second_fine _ _ _ _ _ _ _ ES) as [F1 F2]. cbn [fst snd] in F1, F2. subst mw okw. cbn [obind] in H.
    match type of H with context [track ?a ?b ?c ?d ?e ?f ?g ?h ?i ?j] => destruct (track a b c d e f g h i j) as [[[[w m3] ok3] off3]| | ] eqn:E2 end; cbn [obind] in H; try discriminate.
    destruct (track_where _ (second_ok _ _ _ _) en reject _ _ _ _ _ _ _ _ _ _ _ (second_lit _ _ _ _) (le_n _) E2) as [(_ & x & R & _)|(es' & w2 & mw2 & J1 & J2 & J3)].
    { destruct R as (? & ? & ? & ? & ? & ? & ? & ? & ? & ? & ? & _ & _ & _ & _ & _ & _ & _ & R & _). apply second_fine in R. cbn in R. destruct R; discriminate. }
    assert (es' = es) by congruence. subst es'. pose proof (run_msg _ (second_ok _ _ _ _) _ _ _ _ _ J2) as M3. rewrite EE in M3. subst mw2.
    destruct J3 as (-> & J4).
    assert (G : m3 = None /\ ok3 = true).
    { cbn [run] in J4. destruct (second_pass _ _ _ _ TAccept w2) as [[[wx mx] okx]| | ] eqn:EX; cbn [obind] in J4; try discriminate.
      pose proof (second_fine _ _ _ _ _ _ _ EX) as [F1 F2]. cbn [fst snd] in F1, F2. subst mx okx. split; congruence. }
    destruct G as [-> ->]. destruct (app_bytes _ _ _) as [b| | ]; cbn [obind] in H; try discriminate. split; [congruence|]. right. split; [congruence|]. split; [congruence|reflexivity].
Qed.
