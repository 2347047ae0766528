(** The messages of the scanner. *)
From Verif Require Import Base UTF8Model CharModel ErrNumModel StrNumModel RxCompModel RxTotal RxErrModel RxErrProofs RxErrTrack.

(** The messages about how the pattern is written. *)
Definition syntax (m : msg) : bool :=
  match m with
  | MRejected | MBadRepetition | MBadOctal | MBadHex | MBadUnicode | MBadPosix | MBadClass | MBadName | MBadGroup => true
  | _ => false
  end.

Section Scan.
Variables en rej : Z.
Definition synt (es : list event) : Prop := forall e, In (Err e) es -> syntax e = true.
Lemma synt_app a b : synt a -> synt b -> synt (a ++ b).
Proof. intros A B e H. apply in_app_or in H. destruct H; auto. Qed.
Lemma flush_synt d : synt (flush d).
Proof. destruct d; [intros e []|]. intros e [H|[]]. discriminate. Qed.
Lemma delay_synt pre d c n r : synt pre -> synt (fst (fst (delay pre d c n r))).
Proof. intros H. unfold delay. destruct (repeats n); cbn [fst]; [apply synt_app; [exact H|apply flush_synt]|exact H]. Qed.
Lemma emit_synt pre d es r : synt pre -> synt es -> synt (fst (fst (emit pre d es r))).
Proof. intros H H'. unfold emit. cbn [fst]. repeat apply synt_app; auto. apply flush_synt. Qed.
Lemma supported_synt f : synt (fst (supported en rej f)).
Proof. unfold supported. destruct (negb _); cbn [fst]; [intros e [H|[]]; injection H as <-; reflexivity|intros e []]. Qed.
Ltac noend := let e := fresh in let H := fresh in intros e H; cbn in H; repeat (destruct H as [H|H]; [first [discriminate H | injection H as <-; reflexivity]|]); destruct H.
Definition gives (o : outcome round) : Prop := forall x, o = Ok x -> synt (fst (fst x)).
Lemma gives_ok x : synt (fst (fst x)) -> gives (Ok x).
Proof. intros H y E. assert (y = x) by congruence. subst. exact H. Qed.
Lemma gives_bind {A} (o : outcome A) f : (forall x, gives (f x)) -> gives (obind o f).
Proof. intros H y E. apply obind_ok in E. destruct E as (x & _ & E). eapply H, E. Qed.
Lemma code_synt radix k n bad rest d : syntax bad = true -> gives (scan_code radix k n bad rest d).
Proof. intros HB. apply gives_bind. intros r. destruct (_ || _); apply gives_ok; [intros e [H|[]]; injection H as <-; exact HB|]. apply delay_synt. noend. Qed.
Lemma count_synt pre rest d : synt pre -> gives (scan_count pre rest d).
Proof.
  intros HP. unfold scan_count. cbv zeta. destruct (match find_ch 44 _ with Some k => _ | None => _ end) as [close|]; [|apply gives_ok, emit_synt; [exact HP|noend]].
  apply gives_bind. intros mn. destruct (_ || _); [apply gives_ok, emit_synt; [exact HP|noend]|].
  destruct (_ =? 44); [|apply gives_ok, emit_synt; [exact HP|noend]].
  destruct (find_ch 125 _); [|apply gives_ok, emit_synt; [exact HP|noend]].
  apply gives_bind. intros mx. destruct (_ || _); apply gives_ok, emit_synt; try exact HP; noend.
Qed.
Lemma escape_synt rest d : gives (scan_escape en rest d).
Proof.
  unfold scan_escape. cbv zeta.
  repeat match goal with
  | |- gives (if ?b then _ else _) => destruct b
  | |- gives (Ok (delay _ _ _ _ _)) => apply gives_ok, delay_synt; noend
  | |- gives (scan_code _ _ _ _ _ _) => apply code_synt; reflexivity
  | |- gives (Ok (emit _ _ _ _)) => apply gives_ok, emit_synt; noend
  end.
  destruct (find_ch 125 (skipn 3 rest)) as [[|k]|]; apply gives_ok, emit_synt; noend.
Qed.
Lemma class_synt pre rest d : synt pre -> synt (fst (fst (scan_class pre rest d))).
Proof. intros HP. unfold scan_class. cbv zeta. destruct (class_loop _ _ _) as [[o|] r]; cbn [fst]; apply emit_synt; try exact HP; noend. Qed.
Lemma group_synt pre rest d : synt pre -> synt (fst (fst (scan_group en rej pre rest d))).
Proof.
  intros HP. unfold scan_group. destruct (_ || _); [apply emit_synt; [exact HP|noend]|]. cbv zeta.
  pose proof (supported_synt Capture) as S1. destruct (supported en rej Capture) as [e1 s1]. cbn [fst] in S1.
  pose proof (supported_synt NonCapture) as S2. destruct (supported en rej NonCapture) as [e2 s2]. cbn [fst] in S2.
  pose proof (supported_synt NegLookahead) as S3. destruct (supported en rej NegLookahead) as [e3 s3]. cbn [fst] in S3.
  destruct (s1 && _).
  - destruct (find_ch 62 (skipn 3 rest)) as [[|k]|]; apply emit_synt; try exact HP; apply synt_app; try exact S1; noend.
  - destruct (s2 && _); [|destruct (s3 && _)]; apply emit_synt; try exact HP; repeat apply synt_app; try assumption; noend.
Qed.
Lemma round_synt rest d : gives (scan_round en rej rest d).
Proof.
  unfold scan_round. cbv zeta.
  assert (SC : forall pre, synt pre -> gives (Ok (simple_char pre rest d))) by (intros; apply gives_ok, delay_synt; assumption).
  assert (F : forall f k, (forall pre, synt pre -> gives (k pre)) -> gives (let '(pre, ok) := supported en rej f in if ok then k pre else Ok (simple_char pre rest d))).
  { intros f k H. pose proof (supported_synt f) as S. destruct (supported en rej f) as [pre [|]]; cbn [fst] in S; [apply H, S|apply SC, S]. }
  assert (E : forall pre es, synt pre -> synt es -> gives (Ok (emit pre d es (skipn 1 rest)))) by (intros; apply gives_ok, emit_synt; assumption).
  destruct (_ =? 94); [apply (F BOL (fun pre => Ok (emit pre d [Tok TBOL] (skipn 1 rest)))); intros; apply E; [assumption|noend]|].
  destruct (_ =? 36); [apply (F EOL (fun pre => Ok (emit pre d [Tok TEOL] (skipn 1 rest)))); intros; apply E; [assumption|noend]|].
  destruct (_ =? 46); [destruct (enabled en AnyIsQuest); [apply SC; noend|apply E; noend]|].
  destruct (_ =? 63); [apply E; [noend|destruct (enabled en AnyIsQuest); noend]|].
  destruct (_ =? 42); [apply (F ZeroOrMore (fun pre => Ok (emit pre d ((if enabled en ZeroOrMoreAny then [Tok TAny] else []) ++ [Tok (TRep 0 0)]) (skipn 1 rest)))); intros; apply E; [assumption|destruct (enabled en ZeroOrMoreAny); noend]|].
  destruct (_ =? 43); [apply (F OneOrMore (fun pre => Ok (emit pre d [Tok (TRep 1 0)] (skipn 1 rest)))); intros; apply E; [assumption|noend]|].
  destruct (_ =? 123); [apply (F CountRepetition (fun pre => scan_count pre rest d)); intros; apply count_synt; assumption|].
  destruct (_ =? 92); [apply escape_synt|].
  destruct (_ =? 91); [apply (F CharClasses (fun pre => Ok (scan_class pre rest d))); intros; apply gives_ok, class_synt; assumption|].
  destruct (_ =? 124); [apply (F Alternates (fun pre => Ok (emit pre d [Tok TAlt] (skipn 1 rest)))); intros; apply E; [assumption|noend]|].
  destruct (_ =? 40); [apply (F Group (fun pre => Ok (scan_group en rej pre rest d))); intros; apply gives_ok, group_synt; assumption|].
  destruct (_ =? 41); [destruct (enabled en Group); [apply E; noend|apply SC; noend]|].
  destruct (_ || _); [|apply SC; noend]. destruct (enabled en ExtendedRE); [|apply SC; noend]. apply gives_ok. noend.
Qed.

Lemma loop_synt f : forall rest d es, scan_loop en rej f rest d = Ok es -> synt es.
Proof.
  induction f as [|f IH]; intros rest d es H; cbn [scan_loop] in H.
  - destruct rest; [|discriminate]. assert (es = flush d) by congruence. subst. apply flush_synt.
  - destruct rest as [|c rest]; [assert (es = flush d) by congruence; subst; apply flush_synt|].
    destruct (scan_round en rej (c :: rest) d) as [[[es1 d1] rest1]| | ] eqn:E; cbn [obind] in H; try discriminate.
    destruct (scan_loop en rej f rest1 d1) as [es2| | ] eqn:E2; cbn [obind] in H; try discriminate.
    assert (es = es1 ++ es2) by congruence. subst. apply synt_app; [exact (round_synt _ _ _ E)|eapply IH, E2].
Qed.
Lemma reads_synt rest d es rest' d' : reads en rej rest d es rest' d' -> synt es.
Proof. induction 1 as [|rest d es d1 rest1 es' rest' d' N R _ IH]; [intros e []|]. apply synt_app; [exact (round_synt _ _ _ R)|exact IH]. Qed.
End Scan.

Lemma last_err_in es : forall m e, last_err m es = Some e -> m = Some e \/ In (Err e) es.
Proof.
  induction es as [|x es IH]; intros m e H; [left; exact H|].
  change (last_err m (x :: es)) with (last_err (match x with Err y => Some y | Tok _ => m end) es) in H.
  apply IH in H. destruct H as [H|H]; [|right; right; exact H]. destruct x as [t|y]; [left; exact H|right; left; congruence].
Qed.

Lemma last_err_split es : forall m e, last_err m es = Some e ->
  (m = Some e /\ existsb is_err es = false) \/ exists a b, es = a ++ Err e :: b /\ existsb is_err b = false.
Proof.
  induction es as [|x es IH]; intros m e H; [left; auto|].
  change (last_err m (x :: es)) with (last_err (match x with Err y => Some y | Tok _ => m end) es) in H.
  apply IH in H. destruct H as [[H N]|(a & b & -> & N)]; [|right; exists (x :: a), b; auto].
  destruct x as [t|y]; [left; auto|]. right. exists [], es. split; [|exact N]. assert (y = e) by congruence. subst. reflexivity.
Qed.

(** What the first pass refuses, and with which message. *)
Definition refusal (t : token) (m : option msg) : Prop :=
  match t with
  | TRep _ _ => m = Some MRepeated \/ m = Some MLimit
  | TGroup | TNeg => m = Some MTooDeep
  | TNamed _ => m = Some MTooDeep \/ m = Some MTooManyNames \/ m = Some MDuplicate
  | TEnd => m = None \/ m = Some MTooManyClosing
  | _ => False
  end.
Lemma first_refusal t s s' m : first_pass t s = Ok (s', m, false) -> refusal t m.
Proof.
  unfold first_pass, add1, fail1. destruct t; intros H;
  repeat match goal with
  | H : context [match push1 ?k ?s with _ => _ end] |- _ => destruct (push1 k s); try discriminate
  | H : context [if ?b then _ else _] |- _ => destruct b; try discriminate
  | H : context [match o_stack ?s with _ => _ end] |- _ => destruct (o_stack s) as [|[[] []] ?]; try discriminate
  end; try discriminate; cbn [refusal]; intuition congruence.
Qed.
