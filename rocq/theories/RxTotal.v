(** Compiling ends, and what its results are. *)
From Verif Require Import Base UTF8Model CharModel ErrNumModel StrNumModel StrNumSpec StrNumProofs RxCompModel RxModel.

(** A count whose value is -2^63, the one number that as_int cannot negate:
    after a brace or a comma, blanks, a minus sign, blanks and the digits. *)
Definition risky (re : list Z) : Prop := exists a o n b, re = a ++ [o] ++ n ++ b /\ (o = 123 \/ o = 44) /\ numeral 10 n (- 2^63).


Lemma skipn_add {A} (l : list A) a b : skipn a (skipn b l) = skipn (b + a) l.
Proof. revert l. induction b as [|b IH]; intros l; [reflexivity|]. destruct l as [|x l]; [rewrite !skipn_nil; reflexivity|]. apply IH. Qed.
Definition after (k : nat) (r' r : list Z) : Prop := exists n, r' = skipn (k + n) r.
Lemma after_skip k a r' r : after k r' r -> after (k + a) (skipn a r') r.
Proof. intros [n ->]. exists n. rewrite skipn_add. f_equal. lia. Qed.
Lemma after_le k k' r' r : (k' <= k)%nat -> after k r' r -> after k' r' r.
Proof. intros L [n ->]. exists (k - k' + n)%nat. f_equal. lia. Qed.
Lemma after_refl r : after 0 r r. Proof. exists O. reflexivity. Qed.
Lemma after_skipn k r : after k (skipn k r) r. Proof. exists O. f_equal. lia. Qed.
Lemma after_trans a b x y z : after a x y -> after b y z -> after (b + a) x z.
Proof. intros [n ->] [m ->]. exists (n + m)%nat. rewrite skipn_add. f_equal. lia. Qed.
Lemma after_len r' r : r <> [] -> after 1 r' r -> (length r' < length r)%nat.
Proof. intros H [n ->]. rewrite skipn_length. destruct r; [contradiction|cbn [length]; lia]. Qed.
Lemma skipn_in {A} (x : A) n l : In x (skipn n l) -> In x l.
Proof. intros H. rewrite <- (firstn_skipn n l). apply in_or_app. auto. Qed.
Lemma firstn_in {A} (x : A) n l : In x (firstn n l) -> In x l.
Proof. intros H. rewrite <- (firstn_skipn n l). apply in_or_app. auto. Qed.
Lemma after_in x k r' r : after k r' r -> In x r' -> In x r.
Proof. intros [n ->]. apply skipn_in. Qed.
Lemma after_risky k r' r : after k r' r -> risky r' -> risky r.
Proof.
  intros [n ->] (a & o & m & b & E & H). exists (firstn (k + n) r ++ a), o, m, b. split; [|exact H].
  rewrite <- app_assoc, <- E. symmetry. apply firstn_skipn.
Qed.

(** ** Numbers *)
Lemma digits_run radix : 2 <= radix <= 36 -> forall t l, 0 <= l < 2^64 ->
  exists r o, RxCompModel.digits radix (u64 ((2^64 - 2) / radix + 1)) l t = Ok (r, o) /\
  forall v, o = Some v -> exists ds, t = ds ++ r /\ Forall (fun c => isdig radix c = true) ds /\ v = acc radix (map (dv radix) ds) l.
Proof.
  intros HR. induction t as [|c t IH]; intros l L; cbn [RxCompModel.digits].
  - do 2 eexists. split; [reflexivity|]. intros v E. exists []. split; [reflexivity|]. split; [constructor|]. cbn. congruence.
  - destruct (Digit_spec radix c ltac:(lia)) as (-> & _ & B & _). cbn [obind]. destruct (Z.ltb_spec (dv radix c) 0).
    + do 2 eexists. split; [reflexivity|]. intros v E. exists []. split; [reflexivity|]. split; [constructor|]. cbn. congruence.
    + destruct (overflow_test radix l (dv radix c) ltac:(lia) L ltac:(lia)) as [-> U]. destruct (Z.leb_spec (2^64) (l * radix + dv radix c)).
      * do 2 eexists. split; [reflexivity|]. intros v E. discriminate E.
      * rewrite U by lia. destruct (IH (l * radix + dv radix c)) as (r & o & -> & H'); [nia|]. do 2 eexists. split; [reflexivity|].
        intros v E. destruct (H' v E) as (ds & -> & F & ->). exists (c :: ds). split; [reflexivity|]. split; [|reflexivity].
        constructor; [|exact F]. unfold isdig. lia.
Qed.
Lemma skip_white_split t : exists w, t = w ++ skip_white t /\ Forall blank w.
Proof.
  induction t as [|c t (w & E & F)]; [exists []; split; [reflexivity|constructor]|]. cbn [skip_white].
  destruct (UCS4IsWhite c) eqn:W; [|exists []; split; [reflexivity|constructor]].
  exists (c :: w). split; [cbn [app]; congruence|]. constructor; [apply white_blank, W|exact F].
Qed.
Lemma as_int_ok radix t : 2 <= radix <= 36 -> (exists r, as_int radix t = Ok r) \/ ((exists n b, t = n ++ b /\ numeral radix n (- 2^63)) /\ as_int radix t = UB).
Proof.
  intros HR. unfold as_int. destruct (skip_white_split t) as (w1 & ET & W1). destruct (skip_white t) as [|c r]; [left; eexists; reflexivity|].
  destruct (Z.eqb_spec c 45) as [->|NC].
  - cbn [orb Z.eqb Pos.eqb]. destruct (skip_white_split r) as (w2 & ER & W2). destruct (skip_white r) as [|c' r']; [left; eexists; reflexivity|].
    destruct (Digit_spec radix c' ltac:(lia)) as (-> & _). cbn [obind]. destruct (Z.ltb_spec (dv radix c') 0) as [ND|ND]; [left; eexists; reflexivity|].
    destruct (digits_run radix HR (c' :: r') 0 ltac:(lia)) as (q & o & -> & HV). cbn [obind snd fst]. destruct o as [v|]; [|left; eexists; reflexivity]. cbn [andb].
    destruct (Z.eqb_spec v (2^63)) as [EV|EV]; [|left; eexists; reflexivity]. right. split; [|reflexivity].
    destruct (HV v eq_refl) as (ds & ED & FD & EA). exists (w1 ++ [45] ++ w2 ++ ds ++ []), q. split.
    { rewrite ET, ER, ED, app_nil_r. rewrite <- !app_assoc. reflexivity. }
    exists w1, [45], w2, ds, [], v. split; [reflexivity|]. split; [exact W1|]. split; [exact W2|]. split; [constructor|]. split; [|right; right; split; [reflexivity|lia]].
    unfold unsigned. destruct (Z.eqb_spec radix 0); [lia|]. apply digits_isdig; [lia|]. split; [|auto]. intros ->. cbn in EA. lia.
  - destruct (if (c =? 43) || false then _ else _) as [|c' r']; [left; eexists; reflexivity|].
    destruct (Digit_spec radix c' ltac:(lia)) as (-> & _). cbn [obind]. destruct (Z.ltb_spec (dv radix c') 0) as [ND|ND]; [left; eexists; reflexivity|].
    destruct (digits_run radix HR (c' :: r') 0 ltac:(lia)) as (q & o & -> & HV). cbn [obind snd fst]. destruct o as [v|]; cbn [andb]; left; eexists; reflexivity.
Qed.
Lemma acc_bound radix ds : 2 <= radix -> Forall (fun c => isdig radix c = true) ds -> forall l, 0 <= l -> acc radix (map (dv radix) ds) l < (l + 1) * radix ^ Z.of_nat (length ds).
Proof.
  intros HR. induction 1 as [|c ds D F IH]; intros l L; [cbn; lia|]. cbn [map acc fold_left length]. unfold acc in IH.
  destruct (Digit_spec radix c ltac:(lia)) as (_ & _ & B & _). rewrite Nat2Z.inj_succ, Z.pow_succ_r by lia. unfold isdig in D.
  assert (P : 0 < radix ^ Z.of_nat (length ds)) by (apply Z.pow_pos_nonneg; lia).
  eapply Z.lt_le_trans; [apply IH; nia|]. nia.
Qed.
(** A number of at most five characters is never the one *)
Lemma as_int_short radix t : 2 <= radix <= 16 -> (length t <= 5)%nat -> exists r, as_int radix t = Ok r.
Proof.
  intros HR L. destruct (as_int_ok radix t ltac:(lia)) as [H|[(n & b & -> & w1 & sg & w2 & d & w3 & v & -> & _ & _ & _ & U & K) _]]; [exact H|exfalso].
  unfold unsigned in U. destruct (Z.eqb_spec radix 0); [lia|]. apply digits_isdig in U; [|lia]. destruct U as (_ & F & EV).
  assert (B := acc_bound radix d ltac:(lia) F 0 ltac:(lia)). rewrite <- EV in B.
  assert (LD : (length d <= 5)%nat) by (rewrite !app_length in L; lia).
  assert (P : radix ^ Z.of_nat (length d) <= 16 ^ 5) by (transitivity (16 ^ Z.of_nat (length d)); [apply Z.pow_le_mono_l; lia|apply Z.pow_le_mono_r; lia]).
  assert (V : v < 16 ^ 5) by lia. assert (0 <= v) by (rewrite EV; apply acc_ge; [lia| |lia]; apply Forall_forall; intros e He; apply in_map_iff in He; destruct He as (x & <- & Hx); rewrite Forall_forall in F; specialize (F x Hx); unfold isdig in F; lia).
  change (16 ^ 5) with 1048576 in V. change (2 ^ 63) with 9223372036854775808 in K. lia.
Qed.

(** ** One round *)
Section Scan.
Variables en rej : Z.
Definition going (rest : list Z) (o : outcome round) : Prop :=
  (exists es d r, o = Ok (es, d, r) /\ after 1 r rest) \/ (risky rest /\ o = UB).
Lemma going_ok es d r rest : after 1 r rest -> going rest (Ok (es, d, r)).
Proof. intros H. left. exists es, d, r. auto. Qed.
Lemma going_skip es d k rest : (1 <= k)%nat -> going rest (Ok (es, d, skipn k rest)).
Proof. intros H. apply going_ok. apply (after_le k); [exact H|apply after_skipn]. Qed.
Lemma going_emit pre d es r rest : after 1 r rest -> going rest (Ok (emit pre d es r)).
Proof. apply going_ok. Qed.
Lemma going_delay pre d c n r rest : after 1 r rest -> going rest (Ok (delay pre d c n r)).
Proof. intros H. unfold delay. destruct (repeats n); apply going_ok, H. Qed.
Lemma going_simple pre d rest : going rest (Ok (simple_char pre rest d)).
Proof. apply going_delay, after_skipn. Qed.

Lemma count_ok pre rest d : at_ rest 0 = 123 -> going rest (scan_count pre rest d).
Proof.
  intros H0. unfold scan_count. cbv zeta.
  assert (R0 : rest = 123 :: skipn 1 rest). { unfold at_ in H0. destruct rest as [|x rest]; [discriminate H0|]. cbn in H0. subst. reflexivity. }
  assert (H2 : after 1 (skipn 2 rest) rest) by (apply (after_le 2); [lia|apply after_skipn]).
  destruct (match find_ch 44 (skipn 1 rest) with Some k => Some k | None => find_ch 125 (skipn 1 rest) end) as [close|]; [|apply going_emit, H2].
  assert (HA : forall n o r, o = 123 \/ o = 44 -> after 0 (o :: r) rest -> (exists x, as_int 10 (firstn n r) = Ok x) \/ (risky rest /\ as_int 10 (firstn n r) = UB)).
  { intros n o r Ho H. destruct (as_int_ok 10 (firstn n r)) as [X|[(m & b & E & N) X]]; [lia|left; exact X|right]. split; [|exact X].
    eapply after_risky; [exact H|]. exists [], o, m, (b ++ skipn n r). split; [|auto]. cbn [app]. rewrite app_assoc, <- E, firstn_skipn. reflexivity. }
  assert (E : (exists mn, (if (0 <? close)%nat then as_int 10 (firstn close (skipn 1 rest)) else Ok {| ir_value := 0; ir_err := 0; ir_scanned := 0 |}) = Ok mn) \/ (risky rest /\
    (if (0 <? close)%nat then as_int 10 (firstn close (skipn 1 rest)) else Ok {| ir_value := 0; ir_err := 0; ir_scanned := 0 |}) = UB)).
  { destruct (0 <? close)%nat; [|left; eexists; reflexivity]. apply (HA close 123); [auto|]. rewrite <- R0. apply after_refl. }
  destruct E as [(mn & ->)|[I ->]]; [|right; auto]. cbn [obind]. destruct (_ || _); [apply going_emit, H2|].
  assert (HQ : after 1 (skipn close (skipn 1 rest)) rest) by (rewrite skipn_add; apply (after_le (1 + close)); [lia|apply after_skipn]).
  assert (HQ1 : after 1 (skipn 1 (skipn close (skipn 1 rest))) rest) by (apply (after_le (1 + 1)); [lia|apply after_skip, HQ]).
  destruct (Z.eqb_spec (at_ (skipn close (skipn 1 rest)) 0) 44) as [HC|HC].
  - destruct (find_ch 125 _) as [close2|].
    + destruct (HA close2 44 (skipn 1 (skipn close (skipn 1 rest)))) as [(mx & ->)|[I ->]]; [auto| | |right; auto].
      { apply (after_le 1); [lia|]. unfold at_ in HC. destruct (skipn close (skipn 1 rest)) as [|x q]; [discriminate HC|]. cbn in HC. subst x. exact HQ. }
      cbn [obind]. destruct (_ || _); apply going_emit; eapply after_le; try (apply after_skip, HQ1); lia.
    + apply going_emit. eapply after_le; [|apply after_skip, HQ1]. lia.
  - apply going_emit, HQ1.
Qed.
Lemma code_ok radix k n bad rest d : 2 <= radix <= 16 -> (n <= 5)%nat -> (1 <= k)%nat -> going rest (scan_code radix k n bad rest d).
Proof.
  intros HR Hn Hk. unfold scan_code. destruct (as_int_short radix (firstn n (skipn k rest)) HR) as (r & ->); [rewrite firstn_length; lia|].
  cbn [obind]. destruct (_ || _); [apply going_skip; lia|]. cbv zeta. apply going_delay. eapply after_le; [|apply after_skipn]. lia.
Qed.
Lemma escape_ok rest d : going rest (scan_escape en rest d).
Proof.
  unfold scan_escape. cbv zeta.
  assert (A : forall k, (1 <= k)%nat -> after 1 (skipn k rest) rest) by (intros k Hk; apply (after_le k); [exact Hk|apply after_skipn]).
  repeat match goal with
  | |- going _ (if ?b then _ else _) => destruct b
  | |- going _ (Ok (delay _ _ _ _ _)) => apply going_delay, A; lia
  | |- going _ (Ok (emit _ _ _ _)) => apply going_emit
  | |- going _ (scan_code _ _ _ _ _ _) => apply code_ok; lia
  | |- after 1 (skipn ?k rest) rest => apply A; lia
  end.
  destruct (find_ch 125 (skipn 3 rest)) as [[|k]|]; apply going_emit; try (apply A; lia).
  rewrite skipn_add. apply A. lia.
Qed.
Lemma class_after f : forall r p, after 0 (snd (class_loop f r p)) r.
Proof.
  induction f as [|f IH]; intros r p; [apply after_refl|]. cbn [class_loop].
  assert (S : forall k x, after 0 x (skipn k r) -> after 0 x r) by (intros k x Hx; apply (after_le (k + 0)); [lia|]; eapply after_trans; [exact Hx|apply after_skipn]).
  repeat match goal with |- after 0 (snd (if ?b then _ else _)) _ => destruct b end;
    repeat match goal with |- context [if ?b then skipn 1 ?x else ?x] => destruct b end; cbn [snd];
    rewrite ?skipn_add; try apply after_refl; try solve [eapply after_le; [|apply after_skipn]; lia]; eapply S, IH.
Qed.
Lemma class_ok pre rest d : going rest (Ok (scan_class pre rest d)).
Proof.
  unfold scan_class. cbv zeta.
  set (n := if at_ rest 1 =? 94 then 2%nat else 1%nat). assert (Hn : (1 <= n)%nat) by (unfold n; destruct (_ =? _); lia).
  set (lit := (at_ (skipn n rest) 0 =? 45) || (at_ (skipn n rest) 0 =? 93)).
  match goal with |- context [class_loop ?f ?r ?p] => assert (A : after 1 (snd (class_loop f r p)) rest); [|destruct (class_loop f r p) as [o r']] end.
  { match goal with |- context [class_loop ?f ?r ?p] => pose proof (class_after f r p) as A end.
    destruct lit.
    - assert (T : after (n + 1) (skipn 1 (skipn n rest)) rest) by (rewrite skipn_add; apply after_skipn).
      eapply after_le; [|eapply after_trans; [exact A|exact T]]. lia.
    - eapply after_le; [|eapply after_trans; [exact A|apply after_skipn]]. lia. }
  cbn [fst snd] in *. assert (B : after 1 (skipn 1 r') rest) by (eapply after_le; [|apply after_skip, A]; lia).
  destruct o; apply going_emit, B.
Qed.
Lemma group_ok pre rest d : going rest (Ok (scan_group en rej pre rest d)).
Proof.
  unfold scan_group.
  assert (A : forall k, (1 <= k)%nat -> after 1 (skipn k rest) rest) by (intros k Hk; apply (after_le k); [exact Hk|apply after_skipn]).
  destruct (_ || _); [apply going_emit, A; lia|]. cbv zeta.
  destruct (supported en rej Capture) as [e1 s1]. destruct (s1 && _).
  - destruct (find_ch 62 (skipn 3 rest)) as [[|k]|]; apply going_emit; rewrite skipn_add; apply A; lia.
  - destruct (supported en rej NonCapture) as [e2 s2]. destruct (s2 && _); [apply going_emit, A; lia|].
    destruct (supported en rej NegLookahead) as [e3 s3]. destruct (s3 && _); apply going_emit, A; lia.
Qed.
Lemma comment_after r : after 0 (comment r) r.
Proof.
  induction r as [|c r [n IH]]; [apply after_refl|]. cbn [comment]. destruct (c =? 10); [apply after_refl|]. exists (S n). exact IH.
Qed.
Lemma round_ok rest d : going rest (scan_round en rej rest d).
Proof.
  unfold scan_round. cbv zeta.
  assert (F : forall f k, (forall pre, going rest (k pre)) -> going rest (let '(pre, ok) := supported en rej f in if ok then k pre else Ok (simple_char pre rest d))).
  { intros f k H. destruct (supported en rej f) as [pre [|]]; [apply H|apply going_simple]. }
  assert (E : forall pre es, going rest (Ok (emit pre d es (skipn 1 rest)))) by (intros; apply going_emit, after_skipn).
  destruct (_ =? 94); [apply (F BOL (fun pre => Ok (emit pre d [Tok TBOL] (skipn 1 rest)))); intros; apply E|].
  destruct (_ =? 36); [apply (F EOL (fun pre => Ok (emit pre d [Tok TEOL] (skipn 1 rest)))); intros; apply E|].
  destruct (_ =? 46); [destruct (enabled en AnyIsQuest); [apply going_simple|apply E]|].
  destruct (_ =? 63); [apply E|].
  destruct (_ =? 42); [apply (F ZeroOrMore (fun pre => Ok (emit pre d ((if enabled en ZeroOrMoreAny then [Tok TAny] else []) ++ [Tok (TRep 0 0)]) (skipn 1 rest)))); intros; apply E|].
  destruct (_ =? 43); [apply (F OneOrMore (fun pre => Ok (emit pre d [Tok (TRep 1 0)] (skipn 1 rest)))); intros; apply E|].
  destruct (Z.eqb_spec (at_ rest 0) 123) as [H0|_]; [apply (F CountRepetition (fun pre => scan_count pre rest d)); intros; apply count_ok, H0|].
  destruct (_ =? 92); [apply escape_ok|].
  destruct (_ =? 91); [apply (F CharClasses (fun pre => Ok (scan_class pre rest d))); intros; apply class_ok|].
  destruct (_ =? 124); [apply (F Alternates (fun pre => Ok (emit pre d [Tok TAlt] (skipn 1 rest)))); intros; apply E|].
  destruct (_ =? 40); [apply (F Group (fun pre => Ok (scan_group en rej pre rest d))); intros; apply group_ok|].
  destruct (_ =? 41); [destruct (enabled en Group); [apply E|apply going_simple]|].
  destruct (_ || _); [|apply going_simple]. destruct (enabled en ExtendedRE); [|apply going_simple]. apply going_ok.
  destruct (_ =? 35); [|apply after_skipn]. eapply after_le; [|apply (after_skip 1 1)]; [lia|].
  apply (after_le (1 + 0)); [lia|]. eapply after_trans; [apply comment_after|apply after_skipn].
Qed.

(** Only a closing parenthesis makes the token that ends a group *)
Definition no_end (es : list event) : Prop := ~ In (Tok TEnd) es.
Lemma no_end_app a b : no_end a -> no_end b -> no_end (a ++ b).
Proof. unfold no_end. intros A B H. apply in_app_or in H. tauto. Qed.
Lemma flush_end d : no_end (flush d).
Proof. destruct d; [intros []|]. cbn. intros [H|[]]. discriminate. Qed.
Lemma delay_end pre d c n r : no_end pre -> no_end (fst (fst (delay pre d c n r))).
Proof. intros H. unfold delay. destruct (repeats n); cbn [fst]; [apply no_end_app; [exact H|apply flush_end]|exact H]. Qed.
Lemma emit_end pre d es r : no_end pre -> no_end es -> no_end (fst (fst (emit pre d es r))).
Proof. intros H H'. unfold emit. cbn [fst]. repeat apply no_end_app; auto. apply flush_end. Qed.
Lemma supported_end f : no_end (fst (supported en rej f)).
Proof. unfold supported. destruct (negb _); cbn [fst]; [intros [H|[]]; discriminate|intros []]. Qed.
Ltac noend := unfold no_end; cbn; intuition discriminate.
Definition quiet (o : outcome round) : Prop := forall x, o = Ok x -> no_end (fst (fst x)).
Lemma quiet_ok x : no_end (fst (fst x)) -> quiet (Ok x).
Proof. intros H y E. assert (y = x) by congruence. subst. exact H. Qed.
Lemma quiet_bind {A} (o : outcome A) f : (forall x, quiet (f x)) -> quiet (obind o f).
Proof. intros H y E. apply obind_ok in E. destruct E as (x & _ & E). eapply H, E. Qed.
Lemma code_end radix k n bad rest d : quiet (scan_code radix k n bad rest d).
Proof. apply quiet_bind. intros r. destruct (_ || _); apply quiet_ok; [noend|]. apply delay_end. intros []. Qed.
Lemma count_end pre rest d : no_end pre -> quiet (scan_count pre rest d).
Proof.
  intros HP. unfold scan_count. cbv zeta. destruct (match find_ch 44 _ with Some k => _ | None => _ end) as [close|]; [|apply quiet_ok, emit_end; [exact HP|noend]].
  apply quiet_bind. intros mn. destruct (_ || _); [apply quiet_ok, emit_end; [exact HP|noend]|].
  destruct (_ =? 44); [|apply quiet_ok, emit_end; [exact HP|noend]].
  destruct (find_ch 125 _); [|apply quiet_ok, emit_end; [exact HP|noend]].
  apply quiet_bind. intros mx. destruct (_ || _); apply quiet_ok, emit_end; try exact HP; noend.
Qed.
Lemma escape_end rest d : quiet (scan_escape en rest d).
Proof.
  unfold scan_escape. cbv zeta.
  repeat match goal with
  | |- quiet (if ?b then _ else _) => destruct b
  | |- quiet (Ok (delay _ _ _ _ _)) => apply quiet_ok, delay_end; intros []
  | |- quiet (scan_code _ _ _ _ _ _) => apply code_end
  | |- quiet (Ok (emit _ _ _ _)) => apply quiet_ok, emit_end; noend
  end.
  destruct (find_ch 125 (skipn 3 rest)) as [[|k]|]; apply quiet_ok, emit_end; noend.
Qed.
Lemma class_end pre rest d : no_end pre -> no_end (fst (fst (scan_class pre rest d))).
Proof. intros HP. unfold scan_class. cbv zeta. destruct (class_loop _ _ _) as [[o|] r]; cbn [fst]; apply emit_end; try exact HP; noend. Qed.
Lemma group_end pre rest d : no_end pre -> no_end (fst (fst (scan_group en rej pre rest d))).
Proof.
  intros HP. unfold scan_group. destruct (_ || _); [apply emit_end; [exact HP|noend]|]. cbv zeta.
  pose proof (supported_end Capture) as S1. destruct (supported en rej Capture) as [e1 s1]. cbn [fst] in S1.
  pose proof (supported_end NonCapture) as S2. destruct (supported en rej NonCapture) as [e2 s2]. cbn [fst] in S2.
  pose proof (supported_end NegLookahead) as S3. destruct (supported en rej NegLookahead) as [e3 s3]. cbn [fst] in S3.
  destruct (s1 && _).
  - destruct (find_ch 62 (skipn 3 rest)) as [[|k]|]; apply emit_end; try exact HP; apply no_end_app; try exact S1; noend.
  - destruct (s2 && _); [|destruct (s3 && _)]; apply emit_end; try exact HP; repeat apply no_end_app; try assumption; noend.
Qed.
Lemma round_end rest d x : scan_round en rej rest d = Ok x -> In (Tok TEnd) (fst (fst x)) -> In 41 rest.
Proof.
  intros H I. assert (HC : at_ rest 0 = 41).
  2:{ unfold at_ in HC. destruct rest as [|c rest]; [discriminate HC|]. cbn in HC. left. exact HC. }
  destruct (Z.eqb_spec (at_ rest 0) 41) as [E|N]; [exact E|exfalso]. revert x H I. change (quiet (scan_round en rej rest d)). unfold scan_round. cbv zeta.
  assert (SC : forall pre, no_end pre -> quiet (Ok (simple_char pre rest d))) by (intros; apply quiet_ok, delay_end; assumption).
  assert (F : forall f k, (forall pre, no_end pre -> quiet (k pre)) -> quiet (let '(pre, ok) := supported en rej f in if ok then k pre else Ok (simple_char pre rest d))).
  { intros f k H. pose proof (supported_end f) as S. destruct (supported en rej f) as [pre [|]]; cbn [fst] in S; [apply H, S|apply SC, S]. }
  assert (E : forall pre es, no_end pre -> no_end es -> quiet (Ok (emit pre d es (skipn 1 rest)))) by (intros; apply quiet_ok, emit_end; assumption).
  destruct (_ =? 94); [apply (F BOL (fun pre => Ok (emit pre d [Tok TBOL] (skipn 1 rest)))); intros; apply E; [assumption|noend]|].
  destruct (_ =? 36); [apply (F EOL (fun pre => Ok (emit pre d [Tok TEOL] (skipn 1 rest)))); intros; apply E; [assumption|noend]|].
  destruct (_ =? 46); [destruct (enabled en AnyIsQuest); [apply SC; intros []|apply E; noend]|].
  destruct (_ =? 63); [apply E; [noend|destruct (enabled en AnyIsQuest); noend]|].
  destruct (_ =? 42); [apply (F ZeroOrMore (fun pre => Ok (emit pre d ((if enabled en ZeroOrMoreAny then [Tok TAny] else []) ++ [Tok (TRep 0 0)]) (skipn 1 rest)))); intros; apply E; [assumption|destruct (enabled en ZeroOrMoreAny); noend]|].
  destruct (_ =? 43); [apply (F OneOrMore (fun pre => Ok (emit pre d [Tok (TRep 1 0)] (skipn 1 rest)))); intros; apply E; [assumption|noend]|].
  destruct (_ =? 123); [apply (F CountRepetition (fun pre => scan_count pre rest d)); intros; apply count_end; assumption|].
  destruct (_ =? 92); [apply escape_end|].
  destruct (_ =? 91); [apply (F CharClasses (fun pre => Ok (scan_class pre rest d))); intros; apply quiet_ok, class_end; assumption|].
  destruct (_ =? 124); [apply (F Alternates (fun pre => Ok (emit pre d [Tok TAlt] (skipn 1 rest)))); intros; apply E; [assumption|noend]|].
  destruct (_ =? 40); [apply (F Group (fun pre => Ok (scan_group en rej pre rest d))); intros; apply quiet_ok, group_end; assumption|].
  destruct (Z.eqb_spec (at_ rest 0) 41); [contradiction|].
  destruct (_ || _); [|apply SC; intros []]. destruct (enabled en ExtendedRE); [|apply SC; intros []]. apply quiet_ok. intros [].
Qed.

(** ** The loop *)
Lemma loop_ok f : forall rest d, (length rest <= f)%nat ->
  (exists es, scan_loop en rej f rest d = Ok es /\ (In (Tok TEnd) es -> In 41 rest)) \/ (risky rest /\ scan_loop en rej f rest d = UB).
Proof.
  induction f as [|f IH]; intros rest d L.
  - destruct rest; [left; eexists; split; [reflexivity|intros H; exfalso; exact (flush_end d H)]|cbn in L; lia].
  - destruct rest as [|c rest]; [left; eexists; split; [reflexivity|intros H; exfalso; exact (flush_end d H)]|]. cbn [scan_loop].
    pose proof (round_end (c :: rest) d) as RE.
    destruct (round_ok (c :: rest) d) as [(es & d' & r & E & A)|[I E]]; rewrite E in *; cbn [obind]; [|right; auto].
    destruct (IH r d') as [(es' & E' & H')|[I E']].
    + apply after_len in A; [|discriminate]. cbn [length] in *. lia.
    + rewrite E'. cbn [obind]. left. eexists. split; [reflexivity|]. intros H. apply in_app_or in H. destruct H as [H|H]; [exact (RE _ eq_refl H)|]. eapply after_in; [exact A|auto].
    + rewrite E'. cbn [obind]. right. split; [eapply after_risky; eassumption|reflexivity].
Qed.
Lemma scan_total re : (exists es, scan en rej re = Ok es /\ (In (Tok TEnd) es -> In 41 re)) \/ (risky re /\ scan en rej re = UB).
Proof.
  unfold scan. destruct (loop_ok (length re) re [] (le_n _)) as [(es & -> & H)|[I ->]]; cbn [obind]; [|right; auto].
  left. eexists. split; [reflexivity|]. intros [X|X]; [discriminate X|]. apply in_app_or in X. destruct X as [X|X]; [auto|].
  exfalso. destruct (existsb is_err es); [destruct X|destruct X as [X|[]]; discriminate X].
Qed.
End Scan.

(** ** What compile returns *)
Lemma pass_err {S} (step : token -> S -> outcome (S * option msg * bool)) es : forall s m s' m' ok,
  pass step es s m = Ok (s', m', ok) -> ok = true -> m' = None /\ m = None /\ Forall (fun e => is_err e = false) es.
Proof.
  induction es as [|[t|e] es IH]; intros s m s' m' ok H Hok; cbn [pass] in H.
  - assert (E : m' = m) by congruence. assert (E2 : ok = match m with None => true | Some _ => false end) by congruence. subst m'. rewrite Hok in E2. destruct m; [discriminate E2|]. auto.
  - apply obind_ok in H. destruct H as ([[s1 m1] ok1] & E & H). destruct ok1; [|exfalso; congruence].
    apply IH in H; [|exact Hok]. destruct H as (A & B & C). split; [exact A|]. destruct m1; [discriminate B|]. split; [exact B|]. constructor; [reflexivity|exact C].
  - apply IH in H; [|exact Hok]. destruct H as (_ & B & _). discriminate B.
Qed.
Lemma pass_first es : forall s m s' ok, pass first_pass es s m = Ok (s', None, ok) -> ok = false -> In (Tok TEnd) es.
Proof.
  induction es as [|[t|e] es IH]; intros s m s' ok H Hok; cbn [pass] in H.
  - exfalso. destruct m; congruence.
  - apply obind_ok in H. destruct H as ([[s1 m1] ok1] & E & H). destruct ok1; [right; eapply IH; eassumption|].
    assert (m1 = None) by (destruct m1; [discriminate H|reflexivity]). subst m1. left. f_equal.
    unfold first_pass, add1, fail1 in E. destruct t; try discriminate E;
      repeat match type of E with context [match ?x with _ => _ end] => destruct x; try discriminate E end. reflexivity.
  - right. eapply IH; eassumption.
Qed.
Lemma second_true M cap st nm t s x : second_pass M cap st nm t s = Ok x -> snd x = true /\ snd (fst x) = None.
Proof.
  intros H. unfold second_pass in H. apply obind_ok in H. destruct H as (u & _ & H).
  assert (D : forall b k mx g a, done cap b k mx g a = Ok x -> snd x = true /\ snd (fst x) = None).
  { intros b k mx g a E. unfold done, cassert in E. destruct (_ <? _)%nat; [|discriminate E]. assert (x = (mktwo b k mx g a, None, true)) by congruence. subst. auto. }
  destruct t; repeat first
    [ eapply D; exact H
    | discriminate H
    | match type of H with obind _ _ = _ => apply obind_ok in H; destruct H as (? & _ & H) end
    | match type of H with (match ?x with _ => _ end) = _ => destruct x end
    | progress cbv zeta in H ].
Qed.
Lemma pass_second M cap st nm es : forall s s' m ok, Forall (fun e => is_err e = false) es ->
  pass (second_pass M cap st nm) es s None = Ok (s', m, ok) -> m = None /\ ok = true.
Proof.
  induction es as [|[t|e] es IH]; intros s s' m ok HF H; cbn [pass] in H.
  - split; congruence.
  - apply Forall_cons_iff in HF. destruct HF as [_ HF]. apply obind_ok in H. destruct H as (x & E & H). apply second_true in E. destruct x as [[s1 m1] ok1]. cbn [fst snd] in E. destruct E as [-> ->].
    eapply IH; eassumption.
  - apply Forall_cons_iff in HF. destruct HF as [HE _]. discriminate HE.
Qed.
Lemma compile_result features reject re p m : compile features reject re = Ok (p, m) ->
  (p <> None /\ m = None) \/ (p = None /\ m <> None) \/ (p = None /\ m = None /\ In 41 re).
Proof.
  intros H. unfold compile in H. apply obind_ok in H. destruct H as (es & ES & H).
  apply obind_ok in H. destruct H as ([[s m1] ok1] & E1 & H).
  destruct ok1; cbn [negb] in H.
  - destruct (o_stack s); [|right; left; split; congruence].
    destruct (pass_err _ _ _ _ _ _ _ E1 eq_refl) as (_ & _ & HF).
    apply obind_ok in H. destruct H as ([[w m2] ok2] & E2 & H). apply pass_second in E2; [|exact HF]. destruct E2 as [-> ->].
    apply obind_ok in H. destruct H as (b & _ & H). left. split; congruence.
  - assert (p = None) by congruence. assert (m = m1) by congruence. subst. right. destruct m1; [left; split; [reflexivity|discriminate]|right].
    split; [reflexivity|]. split; [reflexivity|].
    apply pass_first in E1; [|reflexivity]. destruct (scan_total (Z.land features (Z.lnot reject)) reject re) as [(es' & E & HI)|[_ E]]; rewrite ES in E; [|discriminate E].
    assert (es' = es) by congruence. subst. auto.
Qed.
