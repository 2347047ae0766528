(** Every pattern of at most 83 characters has a short program. *)
From Verif Require Import Base UTF8Model CharModel RxCompModel RxModel RxTotal RxProg.
From Verif Require RxSize.

Definition w_tok (t : token) : Z :=
  match t with
  | TStart => 15 | TAccept => 11 | TLit l => 1 + Z.of_nat (length l) + nbytes l | TBOL | TEOL | TAny => 1
  | TRep _ _ => 8 | TProp l | TClass _ l => 1 + string_size l | TAlt => 12 | TGroup => 1 | TNamed l => 3 + string_size l | TNeg => 4 | TEnd => 2
  end.
Definition w_ev (e : event) : Z := match e with Tok t => w_tok t | Err _ => 0 end.
Definition weight (es : list event) : Z := fold_right (fun e n => w_ev e + n) 0 es.
Lemma weight_app a b : weight (a ++ b) = weight a + weight b.
Proof. induction a as [|e a IH]; [reflexivity|]. cbn [app weight fold_right]. fold (weight (a ++ b)). fold (weight a). lia. Qed.
Definition zlen (l : list Z) : Z := Z.of_nat (length l).
Lemma nbytes_max l : 0 <= nbytes l <= 6 * zlen l.
Proof. unfold zlen. induction l as [|c l IH]; cbn [nbytes fold_right length]; [lia|]. fold (nbytes l). pose proof (RxSize.utf8len_range c). unfold blen. lia. Qed.
Lemma size_max l : 0 <= string_size l <= 6 + 6 * zlen l.
Proof. unfold string_size. pose proof (nbytes_max l). pose proof (RxSize.utf8len_range (nbytes l)). unfold blen. lia. Qed.

(** ** The first pass counts no more *)
Lemma first_weight t s r : first_pass t s = Ok r -> snd r = true -> o_bytes (fst (fst r)) + 3 * o_offsets (fst (fst r)) <= o_bytes s + 3 * o_offsets s + w_tok t.
Proof.
  intros H T. destruct t; cbn [first_pass w_tok] in *; unfold add1, fail1, push1, set_stack in H;
  repeat match type of H with (if ?b then _ else _) = _ => destruct b eqn:? | context [if (?a <=? ?b)%nat then _ else _] => destruct (a <=? b)%nat | (match ?x with _ => _ end) = _ => destruct x eqn:? end;
  try discriminate H; (match type of H with Ok ?v = Ok r => assert (X : r = v) by congruence; rewrite X in *; clear X H r end); try discriminate T; cbn [fst snd o_bytes o_offsets]; lia.
Qed.
Lemma pass_weight es : forall s m s' m', pass first_pass es s m = Ok (s', m', true) -> o_bytes s' + 3 * o_offsets s' <= o_bytes s + 3 * o_offsets s + weight es.
Proof.
  induction es as [|[t|e] es IH]; intros s m s' m' H; cbn [pass weight fold_right] in H |- *.
  - assert (s' = s) by congruence. subst. lia.
  - fold (weight es). apply obind_ok in H. destruct H as (r & E & H). pose proof (first_weight _ _ _ E) as W. destruct r as [[s1 m1] ok]. destruct ok; [|discriminate H]. cbn [fst snd] in W. apply IH in H. cbn [w_ev]. specialize (W eq_refl). lia.
  - fold (weight es). apply IH in H. cbn [w_ev]. lia.
Qed.

(** ** Scanning *)
Section Scan.
Variables en rej : Z.
Definition cheap (rest d : list Z) (o : outcome round) : Prop := forall x, o = Ok x -> weight (fst (fst x)) + 8 * zlen (snd (fst x)) + 12 * zlen (snd x) <= 8 * zlen d + 12 * zlen rest.
Lemma flush_weight d : weight (flush d) <= 8 * zlen d.
Proof. destruct d as [|c d]; [cbn; unfold zlen; cbn; lia|]. cbn [flush weight fold_right w_ev w_tok]. pose proof (nbytes_max (c :: d)). unfold zlen in *. cbn [length] in *. lia. Qed.
Lemma after_zlen r rest : rest <> [] -> after 1 r rest -> zlen r + 1 <= zlen rest.
Proof. intros H A. pose proof (after_len _ _ H A). unfold zlen. lia. Qed.
Lemma skip_zlen k (l : list Z) : Z.of_nat k <= zlen l -> zlen (skipn k l) = zlen l - Z.of_nat k.
Proof. unfold zlen. intros H. rewrite skipn_length. lia. Qed.
Lemma skip_zle k (l : list Z) : 0 <= zlen (skipn k l) <= zlen l.
Proof. unfold zlen. rewrite skipn_length. lia. Qed.
Lemma cheap_emit rest pre d es r : weight pre = 0 -> weight es + 12 * zlen r <= 12 * zlen rest -> cheap rest d (Ok (emit pre d es r)).
Proof. intros H1 H2 x E. unfold emit in E. inversion E; subst x. cbn [fst snd]. rewrite !weight_app. pose proof (flush_weight d). change (zlen []) with 0. lia. Qed.
Lemma cheap_delay rest pre d c n r : weight pre = 0 -> zlen r + 1 <= zlen rest -> cheap rest d (Ok (delay pre d c n r)).
Proof.
  intros H1 H2 x E. unfold delay in E. pose proof (flush_weight d). destruct (repeats n); inversion E; subst x; cbn [fst snd]; rewrite ?weight_app.
  - change (zlen [c]) with 1. lia.
  - unfold zlen in *. rewrite app_length. cbn [length]. lia.
Qed.
Lemma cheap_bind {A} rest d (o : outcome A) f : (forall x, cheap rest d (f x)) -> cheap rest d (obind o f).
Proof. intros H y E. apply obind_ok in E. destruct E as (x & _ & E). exact (H x y E). Qed.
Lemma supported_weight f : weight (fst (supported en rej f)) = 0.
Proof. unfold supported. destruct (negb _); reflexivity. Qed.
(** Where the rest is shorter by one *)
Lemma step_zlen es (d d' r rest : list Z) o : rest <> [] -> going rest o -> o = Ok (es, d', r) -> zlen r + 1 <= zlen rest.
Proof. intros HN G H. rewrite H in G. destruct G as [(es' & d1 & r' & E & A)|[_ X]]; [|discriminate X]. inversion E; subst. apply after_zlen; assumption. Qed.
Lemma cheap_emit12 rest pre d es r : rest <> [] -> after 1 r rest -> weight pre = 0 -> weight es <= 12 -> cheap rest d (Ok (emit pre d es r)).
Proof. intros HN A H1 H2. apply cheap_emit; [exact H1|]. pose proof (after_zlen _ _ HN A). lia. Qed.

Lemma after_of k rest : (1 <= k)%nat -> after 1 (skipn k rest) rest.
Proof. intros H. exists (k - 1)%nat. f_equal. lia. Qed.
Lemma code_cheap radix k n bad rest d : rest <> [] -> (1 <= k)%nat -> cheap rest d (scan_code radix k n bad rest d).
Proof.
  intros HN Hk. apply cheap_bind. intros r. destruct (_ || _).
  - intros x E. assert (X : x = ([Err bad], d, skipn (S k) rest)) by congruence. rewrite X. cbn [fst snd weight fold_right w_ev]. pose proof (skip_zle (S k) rest). lia.
  - apply cheap_delay; [reflexivity|]. apply after_zlen; [exact HN|]. apply after_of. lia.
Qed.
Lemma count_cheap pre rest d : rest <> [] -> weight pre = 0 -> cheap rest d (scan_count pre rest d).
Proof.
  intros HN HP. assert (EM : forall es r, weight es <= 12 -> after 1 r rest -> cheap rest d (Ok (emit pre d es r))) by (intros; apply cheap_emit12; assumption).
  assert (SK : forall a b, (1 <= a)%nat -> after 1 (skipn b (skipn a rest)) rest) by (intros; rewrite skipn_add; apply after_of; lia).
  unfold scan_count. cbv zeta. destruct (match find_ch 44 _ with Some k => _ | None => _ end) as [close|]; [|apply EM; [cbn; lia|apply after_of; lia]].
  apply cheap_bind. intros mn. destruct (_ || _); [apply EM; [cbn; lia|apply after_of; lia]|].
  destruct (_ =? 44); [|apply EM; [cbn; lia|rewrite !skipn_add; apply after_of; lia]].
  destruct (find_ch 125 _); [|apply EM; [cbn; lia|rewrite !skipn_add; apply after_of; lia]].
  apply cheap_bind. intros mx. destruct (_ || _); (apply EM; [cbn; lia|rewrite !skipn_add; apply after_of; lia]).
Qed.
Lemma find_len c l k : find_ch c l = Some k -> Z.of_nat k < zlen l.
Proof.
  unfold zlen. revert k. induction l as [|x l IH]; intros k H; cbn [find_ch] in H; [discriminate|]. destruct (_ =? _); [inversion H; cbn [length]; lia|].
  destruct (find_ch c l) as [j|]; [|discriminate H]. inversion H; subst. specialize (IH j eq_refl). cbn [length]. lia.
Qed.
Lemma skip3 (rest : list Z) : 0 < zlen (skipn 3 rest) -> zlen (skipn 3 rest) = zlen rest - 3.
Proof. unfold zlen. rewrite skipn_length. lia. Qed.
Lemma at1_len rest : rest <> [] -> at_ rest 1 <> 0 -> 2 <= zlen rest.
Proof. intros N H. destruct rest as [|a [|b r]]; [congruence|elim H; reflexivity|]. unfold zlen. cbn [length]. lia. Qed.
Lemma escape_cheap rest d : rest <> [] -> cheap rest d (scan_escape en rest d).
Proof.
  intros HN. unfold scan_escape. cbv zeta. remember (at_ rest 1) as c eqn:Ec.
  assert (PL : forall ch, cheap rest d (Ok (delay [] d ch (at_ rest 2) (skipn 2 rest)))).
  { intros ch. apply cheap_delay; [reflexivity|]. apply after_zlen; [exact HN|apply after_of; lia]. }
  do 6 (destruct (_ =? _); [apply PL|]).
  destruct (_ && _); [destruct (enabled _ _); [apply code_cheap; [exact HN|lia]|apply PL]|].
  destruct (_ =? 120); [destruct (enabled _ _); [apply code_cheap; [exact HN|lia]|apply PL]|].
  destruct (_ =? 117); [destruct (enabled _ _); [apply code_cheap; [exact HN|lia]|apply PL]|].
  destruct ((c =? 115) || (c =? 100) || (c =? 104)) eqn:E3.
  { destruct (enabled _ _); [|apply PL]. apply cheap_emit; [reflexivity|]. assert (HH : at_ rest 1 <> 0) by lia. pose proof (at1_len rest HN HH). rewrite skip_zlen by lia.
    cbn [weight fold_right w_ev w_tok]. pose proof (size_max [c]). change (zlen [c]) with 1 in *. lia. }
  destruct (c =? 112); [|apply PL]. destruct (enabled _ _); [|apply PL].
  assert (B : cheap rest d (Ok (emit [] d [Err MBadPosix] (skipn 3 rest)))) by (apply cheap_emit12; [exact HN|apply after_of; lia|reflexivity|cbn; lia]).
  destruct (_ =? 123); [|exact B]. destruct (find_ch 125 (skipn 3 rest)) as [[|k]|] eqn:EF; [exact B| |exact B].
  apply find_len in EF. pose proof (skip3 rest ltac:(lia)). apply cheap_emit; [reflexivity|]. rewrite (skip_zlen (S (S k))) by lia. cbn [weight fold_right w_ev w_tok].
  pose proof (size_max (firstn (S k) (skipn 3 rest))) as Q. assert (zlen (firstn (S k) (skipn 3 rest)) = Z.of_nat (S k)) by (unfold zlen in *; rewrite firstn_length; lia). lia.
Qed.
Lemma class_cheap_loop f : forall r p, match class_loop f r p with (Some q, r') => zlen q + 2 * zlen r' <= zlen p + 2 * zlen r /\ 0 < zlen r' | (None, r') => True end.
Proof.
  assert (AT : forall r, at_ r 0 <> 0 -> 0 < zlen r) by (intros r; unfold zlen; destruct r; [intros H; elim H; reflexivity|cbn [length]; lia]).
  assert (AT1 : forall r, at_ r 0 <> 0 -> at_ r 1 <> 0 -> 2 <= zlen r) by (intros r H; apply at1_len; intros ->; apply H; reflexivity).
  induction f as [|f IH]; intros r p; [exact I|]. cbn [class_loop]. destruct (Z.eqb_spec (at_ r 0) 0); [exact I|]. destruct (_ =? 93); [split; [lia|apply AT; assumption]|].
  set (r1 := if at_ r 0 =? 92 then skipn 1 r else r). assert (H1 : zlen r1 <= zlen r) by (unfold r1; destruct (_ =? 92); [apply skip_zle|lia]). clearbody r1.
  destruct (Z.eqb_spec (at_ r1 0) 0); [exact I|]. destruct ((at_ r1 1 =? 45) && _) eqn:E2.
  - destruct (_ =? 0); [exact I|]. set (r2 := if at_ (skipn 2 r1) 0 =? 92 then skipn 1 (skipn 2 r1) else skipn 2 r1).
    assert (H2 : zlen r2 <= zlen (skipn 2 r1)) by (unfold r2; destruct (_ =? 92); [apply skip_zle|lia]). clearbody r2. destruct (Z.eqb_spec (at_ r2 0) 0); [exact I|].
    specialize (IH (skipn 1 r2) (p ++ [at_ r1 0; at_ r2 0])). destruct (class_loop f _ _) as [[q|] r']; [|exact I]. apply AT in n1. rewrite (skip_zlen 1) in IH by lia.
    assert (H : at_ r1 1 <> 0) by lia. apply AT1 in H; [|assumption]. rewrite (skip_zlen 2) in H2 by lia. unfold zlen in *. rewrite app_length in IH. cbn [length] in IH. lia.
  - specialize (IH (skipn 1 r1) (p ++ [at_ r1 0; at_ r1 0])). destruct (class_loop f _ _) as [[q|] r']; [|exact I]. apply AT in n0. rewrite (skip_zlen 1) in IH by lia.
    unfold zlen in *. rewrite app_length in IH. cbn [length] in IH. lia.
Qed.
Lemma class_cheap pre rest d : rest <> [] -> weight pre = 0 -> cheap rest d (Ok (scan_class pre rest d)).
Proof.
  intros HN HP. pose proof (class_ok pre rest d) as GO. unfold scan_class in *. cbv zeta in *.
  set (r := skipn (if at_ rest 1 =? 94 then 2 else 1) rest) in *. assert (HR : zlen r + 1 <= zlen rest) by (apply after_zlen; [exact HN|unfold r; destruct (_ =? 94); apply after_of; lia]).
  set (r1 := if (at_ r 0 =? 45) || (at_ r 0 =? 93) then skipn 1 r else r) in *.
  set (p1 := if (at_ r 0 =? 45) || (at_ r 0 =? 93) then [at_ r 0; at_ r 0] else []) in *.
  assert (HI : zlen p1 + 2 * zlen r1 <= 2 * zlen r).
  { unfold p1, r1. destruct ((at_ r 0 =? 45) || (at_ r 0 =? 93)) eqn:E; [|change (zlen []) with 0; lia]. change (zlen [at_ r 0; at_ r 0]) with 2.
    assert (0 < zlen r) by (unfold zlen; destruct r; [discriminate E|cbn [length]; lia]). rewrite (skip_zlen 1) by lia. lia. }
  pose proof (class_cheap_loop (S (length r)) r1 p1) as C. destruct (class_loop _ _ _) as [[q|] r']; cbn [fst snd] in *.
  - apply cheap_emit; [exact HP|]. destruct C as [C1 C2]. rewrite (skip_zlen 1) by lia. cbn [weight fold_right w_ev w_tok]. pose proof (size_max q). lia.
  - apply cheap_emit; [exact HP|]. cbn [weight fold_right w_ev]. pose proof (step_zlen _ d _ _ _ _ HN GO eq_refl). lia.
Qed.
Lemma group_cheap pre rest d : rest <> [] -> weight pre = 0 -> cheap rest d (Ok (scan_group en rej pre rest d)).
Proof.
  intros HN HP. assert (EM : forall es k, weight es <= 12 -> (1 <= k)%nat -> cheap rest d (Ok (emit pre d es (skipn k rest)))) by (intros; apply cheap_emit12; try assumption; apply after_of; lia).
  unfold scan_group. destruct (_ || _); [apply EM; [cbn; lia|lia]|]. cbv zeta.
  pose proof (supported_weight Capture) as S1. destruct (supported en rej Capture) as [e1 s1]. cbn [fst] in S1.
  pose proof (supported_weight NonCapture) as S2. destruct (supported en rej NonCapture) as [e2 s2]. cbn [fst] in S2.
  pose proof (supported_weight NegLookahead) as S3. destruct (supported en rej NegLookahead) as [e3 s3]. cbn [fst] in S3.
  destruct (s1 && _).
  - assert (BAD : cheap rest d (Ok (emit pre d (e1 ++ [Err MBadName]) (skipn 1 (skipn 3 rest))))) by (rewrite skipn_add; apply EM; [rewrite weight_app, S1; cbn; lia|lia]).
    destruct (find_ch 62 (skipn 3 rest)) as [[|k]|] eqn:EF; [exact BAD| |exact BAD].
    apply find_len in EF. pose proof (skip3 rest ltac:(lia)). apply cheap_emit; [exact HP|]. rewrite (skip_zlen (S (S k))) by lia. rewrite weight_app, S1. cbn [weight fold_right w_ev w_tok].
    pose proof (size_max (firstn (S k) (skipn 3 rest))) as Q. assert (zlen (firstn (S k) (skipn 3 rest)) = Z.of_nat (S k)) by (unfold zlen in *; rewrite firstn_length; lia). lia.
  - destruct (s2 && _); [|destruct (s3 && _)]; (apply EM; [|lia]); rewrite !weight_app, ?S1, ?S2, ?S3; cbn; lia.
Qed.
Lemma round_cheap rest d : rest <> [] -> cheap rest d (scan_round en rej rest d).
Proof.
  intros HN. unfold scan_round. cbv zeta.
  assert (SC : forall pre, weight pre = 0 -> cheap rest d (Ok (simple_char pre rest d))) by (intros; apply cheap_delay; [assumption|apply after_zlen; [exact HN|apply after_of; lia]]).
  assert (F : forall f k, (forall pre, weight pre = 0 -> cheap rest d (k pre)) -> cheap rest d (let '(pre, ok) := supported en rej f in if ok then k pre else Ok (simple_char pre rest d))).
  { intros f k H. pose proof (supported_weight f) as S. destruct (supported en rej f) as [pre [|]]; cbn [fst] in S; [apply H, S|apply SC, S]. }
  assert (E : forall pre es, weight pre = 0 -> weight es <= 12 -> cheap rest d (Ok (emit pre d es (skipn 1 rest)))) by (intros; apply cheap_emit12; try assumption; apply after_of; lia).
  destruct (_ =? 94); [apply (F BOL (fun pre => Ok (emit pre d [Tok TBOL] (skipn 1 rest)))); intros; apply E; [assumption|cbn; lia]|].
  destruct (_ =? 36); [apply (F EOL (fun pre => Ok (emit pre d [Tok TEOL] (skipn 1 rest)))); intros; apply E; [assumption|cbn; lia]|].
  destruct (_ =? 46); [destruct (enabled en AnyIsQuest); [apply SC; reflexivity|apply E; [reflexivity|cbn; lia]]|].
  destruct (_ =? 63); [apply E; [reflexivity|destruct (enabled en AnyIsQuest); cbn; lia]|].
  destruct (_ =? 42); [apply (F ZeroOrMore (fun pre => Ok (emit pre d ((if enabled en ZeroOrMoreAny then [Tok TAny] else []) ++ [Tok (TRep 0 0)]) (skipn 1 rest)))); intros; apply E; [assumption|destruct (enabled en ZeroOrMoreAny); cbn; lia]|].
  destruct (_ =? 43); [apply (F OneOrMore (fun pre => Ok (emit pre d [Tok (TRep 1 0)] (skipn 1 rest)))); intros; apply E; [assumption|cbn; lia]|].
  destruct (_ =? 123); [apply (F CountRepetition (fun pre => scan_count pre rest d)); intros; apply count_cheap; assumption|].
  destruct (Z.eqb_spec (at_ rest 0) 92); [apply escape_cheap; assumption|].
  destruct (_ =? 91); [apply (F CharClasses (fun pre => Ok (scan_class pre rest d))); intros; apply class_cheap; assumption|].
  destruct (_ =? 124); [apply (F Alternates (fun pre => Ok (emit pre d [Tok TAlt] (skipn 1 rest)))); intros; apply E; [assumption|cbn; lia]|].
  destruct (_ =? 40); [apply (F Group (fun pre => Ok (scan_group en rej pre rest d))); intros; apply group_cheap; assumption|].
  destruct (_ =? 41); [destruct (enabled en Group); [apply E; [reflexivity|cbn; lia]|apply SC; reflexivity]|].
  destruct (_ || _); [|apply SC; reflexivity]. destruct (enabled en ExtendedRE); [|apply SC; reflexivity].
  intros x X. assert (XX : x = ([], d, skipn 1 (if at_ rest 1 =? 35 then comment (skipn 1 rest) else rest))) by congruence. rewrite XX. cbn [fst snd weight fold_right]. assert (AF : after 0 (skipn 1 (if at_ rest 1 =? 35 then comment (skipn 1 rest) else rest)) rest).
  { apply (after_le 1); [lia|]. destruct (_ =? 35); [|apply after_of; lia]. apply (after_le 2); [lia|]. apply (after_skip 1 1). apply (after_trans 0 1 _ (skipn 1 rest)); [apply comment_after|apply after_skipn]. }
  destruct AF as [k0 ->]. cbn [Nat.add]. pose proof (skip_zle k0 rest). lia.
Qed.
Lemma loop_weight f : forall rest d es, scan_loop en rej f rest d = Ok es -> weight es <= 8 * zlen d + 12 * zlen rest.
Proof.
  induction f as [|f IH]; intros [|c rest] d es H; cbn [scan_loop] in H; try discriminate H;
    try (assert (es = flush d) by congruence; subst; pose proof (flush_weight d); change (zlen []) with 0; lia).
  apply obind_ok in H. destruct H as ([[e1 d1] r1] & E & H). apply obind_ok in H. destruct H as (e2 & E2 & H). assert (es = e1 ++ e2) by congruence. subst.
  apply (round_cheap (c :: rest) d) in E; [|discriminate]. cbn [fst snd] in E. apply IH in E2. rewrite weight_app. lia.
Qed.
Lemma scan_weight re es : scan en rej re = Ok es -> weight es <= 26 + 12 * zlen re.
Proof.
  intros H. unfold scan in H. apply obind_ok in H. destruct H as (mid & E & H). apply loop_weight in E. change (zlen []) with 0 in E.
  assert (EE : es = Tok TStart :: mid ++ (if existsb is_err mid then [] else [Tok TAccept])) by congruence. rewrite EE. cbn [weight fold_right w_ev w_tok].
  fold (weight (mid ++ if existsb is_err mid then [] else [Tok TAccept])). rewrite weight_app. destruct (existsb is_err mid); [change (weight []) with 0|change (weight [Tok TAccept]) with 11]; lia.
Qed.
End Scan.

Lemma short_83 features reject re : (length re <= 83)%nat -> short_program features reject re.
Proof.
  intros HL B O' S H. unfold counted in H. destruct (scan _ _ _) as [es| |] eqn:Es; try discriminate H. apply scan_weight in Es.
  destruct (pass _ _ _ _) as [[[s m] ok]| |] eqn:Ex; try discriminate H. destruct ok; [|discriminate H]. destruct (o_stack s); [|discriminate H].
  assert (B = o_bytes s) by congruence. assert (O' = o_offsets s) by congruence. subst B O'. apply pass_weight in Ex. cbn [one0 o_bytes o_offsets] in Ex. unfold zlen in *. lia.
Qed.
