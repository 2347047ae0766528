(** The tokens of a pattern have characters that can be written and read back. *)
From Verif Require Import Base UTF8Model UTF8Spec CharModel ErrNumModel StrNumModel StrNumSpec StrNumProofs RxCompModel RxModel RxTotal RxCode.

(** A pattern of characters that do not stand for encoding errors, where no
    [\x] or [\u] is followed by a numeral of value -1 (it would be the code
    0xFFFFFFFF, that of the end of an input) *)
Definition ordinary (re : list Z) : Prop :=
  Forall fine re /\
  forall a k n b, re = a ++ 92 :: k :: n ++ b -> k = 120 \/ k = 117 -> ~ numeral 16 n (-1).

Lemma skip_white_le l : (length (skip_white l) <= length l)%nat.
Proof. induction l as [|c l IH]; cbn [skip_white]; [lia|]; destruct (UCS4IsWhite c); cbn [length]; lia. Qed.
Lemma s32_small v : - 2^20 < v < 2^20 -> s32 v = v.
Proof. intros H. unfold s32. cbv zeta. pose proof (Z.div_mod v 4294967296 ltac:(lia)). pose proof (Z.mod_pos_bound v 4294967296 ltac:(lia)). destruct (Z.ltb_spec (v mod 4294967296) 2147483648); lia. Qed.
Lemma as_int_fine radix t r : 2 <= radix <= 16 -> (length t <= 5)%nat -> as_int radix t = Ok r ->
  0 <= ir_value r < 2^20 \/ (- 2^20 < ir_value r < 0 /\ exists n b, t = n ++ b /\ numeral radix n (ir_value r) /\ forall c q, n = c :: q -> c = 45 \/ UCS4IsWhite c = true).
Proof.
  intros HR HL H. unfold as_int in H. destruct (skip_white_split t) as (w1 & ET & W1). pose proof (skip_white_le t) as L1. destruct (skip_white t) as [|c r0]; [left; inversion H; cbn; lia|].
  cbv zeta in H. set (body := if (c =? 43) || (c =? 45) then skip_white r0 else c :: r0) in *.
  assert (HB : (length body <= 5)%nat) by (unfold body; pose proof (skip_white_le r0); destruct (_ || _); cbn [length] in *; lia).
  assert (EB : c = 45 -> exists w2, r0 = w2 ++ body /\ Forall blank w2) by (intros ->; apply skip_white_split). clearbody body.
  destruct body as [|d b]; [left; inversion H; cbn; lia|]. destruct (Digit_spec radix d ltac:(lia)) as (E & _). rewrite E in H. cbn [obind] in H. destruct (Z.ltb_spec (dv radix d) 0); [left; inversion H; cbn; lia|].
  destruct (digits_run radix ltac:(lia) (d :: b) 0 ltac:(lia)) as (q & o & ED & HV). rewrite ED in H. cbn [obind snd fst] in H. destruct o as [v|]; [|left; inversion H; cbn; lia].
  destruct (HV v eq_refl) as (ds & EDS & FD & EV).
  assert (LD : (length ds <= 5)%nat) by (rewrite EDS, app_length in HB; lia).
  assert (B := acc_bound radix ds ltac:(lia) FD 0 ltac:(lia)). rewrite <- EV in B.
  assert (P : radix ^ Z.of_nat (length ds) <= 16 ^ 5) by (transitivity (16 ^ Z.of_nat (length ds)); [apply Z.pow_le_mono_l; lia|apply Z.pow_le_mono_r; lia]).
  change (16 ^ 5) with (2 ^ 20) in P.
  assert (V0 : 0 <= v) by (rewrite EV; apply acc_ge; [lia| |lia]; apply Forall_forall; intros e He; apply in_map_iff in He; destruct He as (x & <- & Hx); rewrite Forall_forall in FD; specialize (FD x Hx); unfold isdig in FD; lia).
  assert (N63 : (v =? 2^63) = false) by lia. rewrite N63, andb_false_r in H. assert (L63 : (v <? 2^63) = true) by lia. rewrite L63 in H.
  assert (EI : ir_value r = if c =? 45 then - v else v). { assert (EI : ir_value r = s32 (if c =? 45 then - v else v)) by (match type of H with Ok ?x = Ok r => assert (ER : x = r) by congruence; rewrite <- ER end; cbn [ir_value]; reflexivity). rewrite EI. apply s32_small. destruct (c =? 45); lia. }
  rewrite EI. destruct (Z.eqb_spec c 45) as [->|_]; [|left; lia]. destruct (Z.eq_dec v 0) as [->|NZ]; [left; lia|right]. split; [lia|].
  destruct (EB eq_refl) as (w2 & E2 & W2). exists (w1 ++ [45] ++ w2 ++ ds ++ []), q. split; [rewrite ET, E2, EDS, app_nil_r, <- !app_assoc; reflexivity|]. split.
  - exists w1, [45], w2, ds, [], v. split; [reflexivity|]. split; [exact W1|]. split; [exact W2|]. split; [constructor|]. split; [|right; right; auto].
    unfold unsigned. destruct (Z.eqb_spec radix 0); [lia|]. apply digits_isdig; [lia|]. split; [|auto]. intros ->. cbn in EV. lia.
  - intros x y EX. destruct w1 as [|z w1]; [left; cbn in EX; congruence|right]. apply Forall_cons_iff in W1. destruct W1 as [W1 _]. cbn in EX. assert (x = z) by congruence. subst. apply white_blank, W1.
Qed.

Lemma fine_small c : 0 <= c < 2^31 -> fine c.
Proof. intros H. unfold fine, ucs4, replacement. lia. Qed.
Lemma fine0 : fine 0. Proof. apply fine_small. lia. Qed.
Lemma at0_fine r : Forall fine r -> fine (at_ r 0).
Proof. intros H. unfold at_. destruct r as [|c r]; [apply fine0|]. cbn. inversion H; assumption. Qed.
Lemma at1_fine c r : Forall fine r -> fine (at_ (c :: r) 1).
Proof. intros H. apply at0_fine in H. unfold at_ in *. cbn in *. destruct r; exact H. Qed.
Lemma skipn_fine n r : Forall fine r -> Forall fine (skipn n r).
Proof. intros H. rewrite <- (firstn_skipn n r) in H. apply Forall_app in H. tauto. Qed.
Lemma firstn_fine n r : Forall fine r -> Forall fine (firstn n r).
Proof. intros H. rewrite <- (firstn_skipn n r) in H. apply Forall_app in H. tauto. Qed.
Lemma ordinary_skip n re : ordinary re -> ordinary (skipn n re).
Proof.
  intros [H1 H2]. split; [apply skipn_fine, H1|]. intros a k m b E. apply (H2 (firstn n re ++ a) k m b). rewrite <- app_assoc, <- E. symmetry. apply firstn_skipn.
Qed.

Section Tame.
Variables en rej : Z.
Definition tame (es : list event) : Prop := Forall (fun e => match e with Tok t => token_ok t | Err _ => True end) es.
Lemma tame_app a b : tame a -> tame b -> tame (a ++ b).
Proof. intros A B. apply Forall_app. auto. Qed.
Lemma flush_tame d : Forall fine d -> tame (flush d).
Proof. intros H. destruct d; [constructor|]. constructor; [exact H|constructor]. Qed.
(** The events and the characters held back are fine *)
Definition nice (x : round) : Prop := tame (fst (fst x)) /\ Forall fine (snd (fst x)).
Lemma delay_tame pre d c n r : tame pre -> Forall fine d -> fine c -> nice (delay pre d c n r).
Proof.
  intros H D C. unfold delay. destruct (repeats n); split; cbn [fst snd].
  - apply tame_app; [exact H|apply flush_tame, D].
  - constructor; [exact C|constructor].
  - exact H.
  - apply Forall_app. split; [exact D|]. constructor; [exact C|constructor].
Qed.
Lemma emit_tame pre d es r : tame pre -> Forall fine d -> tame es -> nice (emit pre d es r).
Proof. intros H D H'. unfold emit. split; cbn [fst snd]; [|constructor]. repeat apply tame_app; auto. apply flush_tame, D. Qed.
Lemma supported_tame f : tame (fst (supported en rej f)).
Proof. unfold supported. destruct (negb _); cbn [fst]; repeat constructor. Qed.
Definition calming (o : outcome round) : Prop := forall x, o = Ok x -> nice x.
Lemma calming_ok x : nice x -> calming (Ok x).
Proof. intros H y E. assert (y = x) by congruence. subst. exact H. Qed.
Lemma calming_bind {A} (o : outcome A) f : (forall x, o = Ok x -> calming (f x)) -> calming (obind o f).
Proof. intros H y E. apply obind_ok in E. destruct E as (x & E' & E). eapply H; eassumption. Qed.
Ltac tame := repeat first [apply Forall_cons; [cbn [token_ok]; try exact I; try (unfold u16; apply Z.mod_pos_bound; lia); try lia|] | apply Forall_nil].

Lemma code_tame radix k n bad rest d : 2 <= radix <= 16 -> (n <= 5)%nat -> Forall fine d ->
  (forall m b, firstn n (skipn k rest) = m ++ b -> numeral radix m (-1) -> (forall c q, m = c :: q -> c = 45 \/ UCS4IsWhite c = true) -> False) -> calming (scan_code radix k n bad rest d).
Proof.
  intros HR Hn D H. apply calming_bind. intros r E. apply as_int_fine in E; [|exact HR|rewrite firstn_length; lia].
  destruct (_ || _); apply calming_ok; [split; [tame|exact D]|]. apply delay_tame; [constructor|exact D|]. unfold fine, ucs4, replacement, u32.
  destruct E as [E|(E & m & b & EM & N & C)]; [rewrite Z.mod_small by lia; lia|].
  assert (V : ir_value r <> -1) by (intros V; rewrite V in N; exact (H m b EM N C)).
  replace (ir_value r mod 4294967296) with (ir_value r + 4294967296) by (rewrite <- (Z_mod_plus_full _ 1); rewrite Z.mod_small; lia). lia.
Qed.
Lemma count_tame pre rest d : tame pre -> Forall fine d -> calming (scan_count pre rest d).
Proof.
  intros HP D. unfold scan_count. cbv zeta. destruct (match find_ch 44 _ with Some k => _ | None => _ end) as [close|]; [|apply calming_ok, emit_tame; [exact HP|exact D|tame]].
  apply calming_bind. intros mn _. destruct (_ || _); [apply calming_ok, emit_tame; [exact HP|exact D|tame]|].
  destruct (_ =? 44); [|apply calming_ok, emit_tame; [exact HP|exact D|tame]].
  destruct (find_ch 125 _); [|apply calming_ok, emit_tame; [exact HP|exact D|tame]].
  apply calming_bind. intros mx _. destruct (_ || _); apply calming_ok, emit_tame; try exact HP; try exact D; tame.
Qed.
Lemma not_white_digit c : 48 <= c <= 55 -> c <> 45 /\ UCS4IsWhite c = false.
Proof. intros H. split; [lia|]. assert (C : c = 48 \/ c = 49 \/ c = 50 \/ c = 51 \/ c = 52 \/ c = 53 \/ c = 54 \/ c = 55) by lia. destruct C as [->|[->|[->|[->|[->|[->|[->| ->]]]]]]]; reflexivity. Qed.
Lemma escape_tame rest d : ordinary rest -> at_ rest 0 = 92 -> Forall fine d -> calming (scan_escape en rest d).
Proof.
  intros [HF HO] H0 D. destruct rest as [|c0 rest]; [discriminate H0|]. change (at_ (c0 :: rest) 0) with c0 in H0. subst c0. unfold scan_escape. cbv zeta.
  assert (HR : Forall fine rest) by (inversion HF; assumption).
  remember (at_ (92 :: rest) 1) as c eqn:Ec. assert (Hc : fine c) by (rewrite Ec; apply at1_fine, HR).
  assert (P : forall ch, fine ch -> calming (Ok (delay [] d ch (at_ (92 :: rest) 2) (skipn 2 (92 :: rest))))).
  { intros ch Hch. apply calming_ok, delay_tame; [constructor|exact D|exact Hch]. }
  assert (Q : forall ch, fine ch -> calming (Ok (delay [] d (if enabled en CEscapes then ch else c) (at_ (92 :: rest) 2) (skipn 2 (92 :: rest))))).
  { intros ch Hch. apply P. destruct (enabled en CEscapes); assumption. }
  assert (Hrest : c <> 0 -> exists r', rest = c :: r').
  { rewrite Ec. unfold at_. destruct rest as [|x r']; [cbn; congruence|]. cbn. intros _. eauto. }
  do 6 (destruct (_ =? _); [apply Q, fine_small; lia|]).
  destruct ((48 <=? c) && (c <=? 55)) eqn:E8.
  { destruct (enabled en OctalChar); [|apply P, Hc]. apply code_tame; [lia|lia|exact D|]. destruct (Hrest ltac:(lia)) as (r' & ->). cbn [skipn firstn]. intros m b EM N C.
    destruct m as [|x m]; [destruct N as (w1 & sg & w2 & ds & w3 & v & EN & _ & _ & _ & U & _); symmetry in EN; repeat (apply app_eq_nil in EN; destruct EN as [? EN]); subst; destruct U as [U _]; apply U; reflexivity|].
    cbn [app] in EM. assert (x = c) by congruence. subst x. specialize (C c m eq_refl). destruct (not_white_digit c ltac:(lia)). destruct C; congruence. }
  assert (X : forall n, c = 120 \/ c = 117 -> forall m b, firstn n (skipn 2 (92 :: rest)) = m ++ b -> numeral 16 m (-1) -> (forall x q, m = x :: q -> x = 45 \/ UCS4IsWhite x = true) -> False).
  { intros n Hk m b EM N _. destruct (Hrest ltac:(lia)) as (r' & ER). rewrite ER in EM. cbn [skipn] in EM. apply (HO [] c m (b ++ skipn n r')); [|exact Hk|exact N].
    rewrite ER, app_assoc, <- EM, firstn_skipn. reflexivity. }
  destruct (Z.eqb_spec c 120) as [E|_].
  { destruct (enabled en HexChar); [|apply P, Hc]. apply code_tame; [lia|lia|exact D|]. apply X. auto. }
  destruct (Z.eqb_spec c 117) as [E|_].
  { destruct (enabled en UnicodeChar); [|apply P, Hc]. apply code_tame; [lia|lia|exact D|]. apply X. auto. }
  destruct (_ || _).
  { destruct (enabled en Shorthand); [|apply P, Hc]. apply calming_ok, emit_tame; [constructor|exact D|]. constructor; [|constructor]. constructor; [exact Hc|constructor]. }
  destruct (c =? 112); [|apply P, Hc]. destruct (enabled en PropertyChars); [|apply P, Hc].
  assert (B : calming (Ok (emit [] d [Err MBadPosix] (skipn 3 (92 :: rest))))) by (apply calming_ok, emit_tame; [constructor|exact D|tame]).
  destruct (_ =? 123); [|exact B]. destruct (find_ch _ _) as [[|k]|]; [exact B| |exact B].
  apply calming_ok, emit_tame; [constructor|exact D|]. constructor; [|constructor]. cbn [token_ok]. apply firstn_fine, skipn_fine, HF.
Qed.
Lemma class_loop_fine f : forall r p, Forall fine r -> Forall fine p -> match fst (class_loop f r p) with Some q => Forall fine q | None => True end.
Proof.
  induction f as [|f IH]; intros r p HR HP; [exact I|]. cbn [class_loop]. destruct (_ =? 0); [exact I|]. destruct (_ =? 93); [exact HP|].
  set (r1 := if at_ r 0 =? 92 then skipn 1 r else r). assert (H1 : Forall fine r1) by (unfold r1; destruct (_ =? 92); [apply skipn_fine|]; exact HR). clearbody r1.
  destruct (_ =? 0); [exact I|]. destruct (_ && _).
  - destruct (_ =? 0); [exact I|]. set (r2 := if at_ (skipn 2 r1) 0 =? 92 then skipn 1 (skipn 2 r1) else skipn 2 r1).
    assert (H2 : Forall fine r2) by (unfold r2; destruct (_ =? 92); repeat apply skipn_fine; exact H1). clearbody r2. destruct (_ =? 0); [exact I|].
    apply IH; [apply skipn_fine, H2|]. apply Forall_app. split; [exact HP|]. repeat (constructor; [apply at0_fine; assumption|]). constructor.
  - apply IH; [apply skipn_fine, H1|]. apply Forall_app. split; [exact HP|]. repeat (constructor; [apply at0_fine; assumption|]). constructor.
Qed.
Lemma class_tame pre rest d : Forall fine rest -> tame pre -> Forall fine d -> nice (scan_class pre rest d).
Proof.
  intros HF HP D. unfold scan_class. cbv zeta. set (r := skipn (if at_ rest 1 =? 94 then 2 else 1) rest). assert (HR : Forall fine r) by apply skipn_fine, HF.
  set (r1 := if (at_ r 0 =? 45) || (at_ r 0 =? 93) then skipn 1 r else r).
  set (p1 := if (at_ r 0 =? 45) || (at_ r 0 =? 93) then [at_ r 0; at_ r 0] else []).
  assert (C : match fst (class_loop (S (length r)) r1 p1) with Some q => Forall fine q | None => True end).
  { apply class_loop_fine; [unfold r1|unfold p1]; destruct (_ || _); try apply skipn_fine, HR; try exact HR; [|constructor]. repeat (constructor; [apply at0_fine, HR|]). constructor. }
  destruct (class_loop _ _ _) as [[o|] r']; cbn [fst snd] in *; apply emit_tame; try exact HP; try exact D; [|tame]. constructor; [exact C|constructor].
Qed.
Lemma group_tame pre rest d : Forall fine rest -> tame pre -> Forall fine d -> nice (scan_group en rej pre rest d).
Proof.
  intros HF HP D. unfold scan_group. destruct (_ || _); [apply emit_tame; [exact HP|exact D|tame]|]. cbv zeta.
  pose proof (supported_tame Capture) as S1. destruct (supported en rej Capture) as [e1 s1]. cbn [fst] in S1.
  pose proof (supported_tame NonCapture) as S2. destruct (supported en rej NonCapture) as [e2 s2]. cbn [fst] in S2.
  pose proof (supported_tame NegLookahead) as S3. destruct (supported en rej NegLookahead) as [e3 s3]. cbn [fst] in S3.
  destruct (s1 && _).
  - destruct (find_ch 62 (skipn 3 rest)) as [[|k]|] eqn:EF; apply emit_tame; try exact HP; try exact D; apply tame_app; try exact S1; try tame.
    split; [apply firstn_fine, skipn_fine, HF|]. destruct (skipn 3 rest); [discriminate EF|discriminate].
  - destruct (s2 && _); [|destruct (s3 && _)]; apply emit_tame; try exact HP; try exact D; repeat apply tame_app; try assumption; tame.
Qed.
Lemma round_tame rest d : ordinary rest -> Forall fine d -> calming (scan_round en rej rest d).
Proof.
  intros HO D. pose proof HO as [HF _]. unfold scan_round. cbv zeta.
  assert (SC : forall pre, tame pre -> calming (Ok (simple_char pre rest d))) by (intros; apply calming_ok, delay_tame; [assumption|exact D|apply at0_fine, HF]).
  assert (F : forall f k, (forall pre, tame pre -> calming (k pre)) -> calming (let '(pre, ok) := supported en rej f in if ok then k pre else Ok (simple_char pre rest d))).
  { intros f k H. pose proof (supported_tame f) as S. destruct (supported en rej f) as [pre [|]]; cbn [fst] in S; [apply H, S|apply SC, S]. }
  assert (E : forall pre es, tame pre -> tame es -> calming (Ok (emit pre d es (skipn 1 rest)))) by (intros; apply calming_ok, emit_tame; assumption).
  destruct (_ =? 94); [apply (F BOL (fun pre => Ok (emit pre d [Tok TBOL] (skipn 1 rest)))); intros; apply E; [assumption|tame]|].
  destruct (_ =? 36); [apply (F EOL (fun pre => Ok (emit pre d [Tok TEOL] (skipn 1 rest)))); intros; apply E; [assumption|tame]|].
  destruct (_ =? 46); [destruct (enabled en AnyIsQuest); [apply SC; constructor|apply E; tame]|].
  destruct (_ =? 63); [apply E; [tame|destruct (enabled en AnyIsQuest); tame]|].
  destruct (_ =? 42); [apply (F ZeroOrMore (fun pre => Ok (emit pre d ((if enabled en ZeroOrMoreAny then [Tok TAny] else []) ++ [Tok (TRep 0 0)]) (skipn 1 rest)))); intros; apply E; [assumption|destruct (enabled en ZeroOrMoreAny); tame]|].
  destruct (_ =? 43); [apply (F OneOrMore (fun pre => Ok (emit pre d [Tok (TRep 1 0)] (skipn 1 rest)))); intros; apply E; [assumption|tame]|].
  destruct (_ =? 123); [apply (F CountRepetition (fun pre => scan_count pre rest d)); intros; apply count_tame; assumption|].
  destruct (Z.eqb_spec (at_ rest 0) 92); [apply escape_tame; assumption|].
  destruct (_ =? 91); [apply (F CharClasses (fun pre => Ok (scan_class pre rest d))); intros; apply calming_ok, class_tame; assumption|].
  destruct (_ =? 124); [apply (F Alternates (fun pre => Ok (emit pre d [Tok TAlt] (skipn 1 rest)))); intros; apply E; [assumption|tame]|].
  destruct (_ =? 40); [apply (F Group (fun pre => Ok (scan_group en rej pre rest d))); intros; apply calming_ok, group_tame; assumption|].
  destruct (_ =? 41); [destruct (enabled en Group); [apply E; tame|apply SC; constructor]|].
  destruct (_ || _); [|apply SC; constructor]. destruct (enabled en ExtendedRE); [|apply SC; constructor]. apply calming_ok. split; [constructor|exact D].
Qed.
Lemma loop_tame f : forall rest d es, ordinary rest -> Forall fine d -> scan_loop en rej f rest d = Ok es -> tame es.
Proof.
  induction f as [|f IH]; intros [|c rest] d es HO D H; cbn [scan_loop] in H; try discriminate H; try (assert (es = flush d) by congruence; subst; apply flush_tame, D).
  apply obind_ok in H. destruct H as ([[e1 d1] r1] & E & H). apply obind_ok in H. destruct H as (e2 & E2 & H). assert (es = e1 ++ e2) by congruence. subst.
  destruct (round_tame _ _ HO D _ E) as [T1 T2]. cbn [fst snd] in *. apply tame_app; [exact T1|]. eapply IH; [|exact T2|exact E2].
  pose proof (round_ok en rej (c :: rest) d) as RO. rewrite E in RO. destruct RO as [(es' & d' & r' & E' & [k A])|[_ X]]; [|discriminate X].
  assert (Er : r' = r1) by congruence. rewrite <- Er, A. apply ordinary_skip, HO.
Qed.
Lemma scan_tame re es : ordinary re -> scan en rej re = Ok es -> tame es.
Proof.
  intros HO H. unfold scan in H. apply obind_ok in H. destruct H as (mid & E & H). apply loop_tame in E; [|exact HO|constructor].
  assert (EE : es = Tok TStart :: mid ++ (if existsb is_err mid then [] else [Tok TAccept])) by congruence. rewrite EE. constructor; [exact I|]. apply tame_app; [exact E|].
  destruct (existsb is_err mid); repeat constructor.
Qed.
End Tame.
