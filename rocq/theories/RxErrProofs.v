(** Where errorOffset() points: proofs. *)
From Verif Require Import Base UTF8Model CharModel ErrNumModel StrNumModel RxCompModel RxTotal RxErrModel.

Section Scan.
Variables en rej : Z.

(** The last character of a construct that gives this token. *)
Definition closes (t : token) (c : Z) : Prop :=
  match t with
  | TLit _ => True
  | TBOL => c = 94 | TEOL => c = 36 | TAny => c = 46 \/ c = 63 \/ c = 42 | TAlt => c = 124 | TEnd => c = 41
  | TRep _ _ => c = 42 \/ c = 43 \/ c = 63 \/ c = 125
  | TProp _ => c = 115 \/ c = 100 \/ c = 104 \/ c = 125
  | TClass _ _ => c = 93
  | TGroup => c = 40 \/ c = 58
  | TNamed _ => c = 62
  | TNeg => c = 33
  | TStart | TAccept => False
  end.
(** The round ends before [i] is incremented: what follows is the next round. *)
Definition stops (rest : list Z) (o : outcome round) (i : outcome (list Z)) : Prop :=
  forall es d r, o = Ok (es, d, r) -> exists x, i = Ok x /\ r = skipn 1 x /\ after 0 x rest /\
    (forall t, In (Tok t) es -> closes t (at_ x 0)).

Definition lit_only (es : list event) : Prop := forall t, In (Tok t) es -> exists l, t = TLit l.
Lemma lit_flush d : lit_only (flush d).
Proof. destruct d; intros t H; cbn in H; [contradiction|]. destruct H as [H|[]]. injection H as <-. eauto. Qed.
Lemma lit_app a b : lit_only a -> lit_only b -> lit_only (a ++ b).
Proof. intros A B t H. apply in_app_or in H. destruct H; auto. Qed.
Lemma lit_err l : lit_only [Err l].
Proof. intros t [H|[]]. discriminate. Qed.
Lemma lit_nil : lit_only [].
Proof. intros t []. Qed.
Lemma lit_supported f : lit_only (fst (supported en rej f)).
Proof. unfold supported. destruct (negb _); [apply lit_err|apply lit_nil]. Qed.

Lemma stops_lit rest es d r x : r = skipn 1 x -> after 0 x rest -> lit_only es -> stops rest (Ok (es, d, r)) (Ok x).
Proof.
  intros E A L es' d' r' H. assert (es' = es) by congruence. assert (r' = r) by congruence. subst.
  exists x. split; [reflexivity|]. split; [reflexivity|]. split; [exact A|]. intros t I. destruct (L t I) as [l ->]. exact Logic.I.
Qed.
Lemma stops_tok rest pre d ts r x : r = skipn 1 x -> after 0 x rest -> lit_only pre ->
  (forall t, In (Tok t) ts -> closes t (at_ x 0)) -> stops rest (Ok (emit pre d ts r)) (Ok x).
Proof.
  intros E A L C es' d' r' H. unfold emit in H. assert (es' = pre ++ flush d ++ ts) by congruence. assert (r' = r) by congruence. subst.
  exists x. split; [reflexivity|]. split; [reflexivity|]. split; [exact A|]. intros t I.
  apply in_app_or in I. destruct I as [I|I]; [destruct (L t I) as [l ->]; exact Logic.I|].
  apply in_app_or in I. destruct I as [I|I]; [destruct (lit_flush d t I) as [l ->]; exact Logic.I|]. exact (C t I).
Qed.
Lemma one_tok t c : closes t c -> forall t', In (Tok t') [Tok t] -> closes t' c.
Proof. intros H t' [E|[]]. injection E as <-. exact H. Qed.
Lemma more_tok a t c : lit_only a -> closes t c -> forall t', In (Tok t') (a ++ [Tok t]) -> closes t' c.
Proof. intros L H t' I. apply in_app_or in I. destruct I as [I|I]; [destruct (L t' I) as [l ->]; exact Logic.I|eapply one_tok; eassumption]. Qed.
Lemma stops_delay rest pre d c n r x : r = skipn 1 x -> after 0 x rest -> lit_only pre -> stops rest (Ok (delay pre d c n r)) (Ok x).
Proof.
  intros E A L. unfold delay. destruct (repeats n); apply stops_lit; auto. apply lit_app; [exact L|apply lit_flush].
Qed.
Lemma stops_simple rest pre d : lit_only pre -> stops rest (Ok (simple_char pre rest d)) (Ok rest).
Proof. intros L. apply stops_delay; [reflexivity|apply after_refl|exact L]. Qed.

Lemma find_ch_ne c t k : find_ch c t = Some k -> at_ (skipn k t) 0 = c.
Proof.
  revert k. induction t as [|x t IH]; intros k; cbn [find_ch]; [discriminate|]. destruct (Z.eqb_spec x c).
  - intros H. injection H as <-. cbn. lia.
  - destruct (find_ch c t) as [j|]; [|discriminate]. cbn. intros H. injection H as <-. cbn [skipn]. apply IH. reflexivity.
Qed.

Ltac aft := solve [apply after_refl | rewrite ?skipn_add; eapply after_le; [|apply after_skipn]; lia].

Lemma stops_count pre rest d : lit_only pre -> stops rest (scan_count pre rest d) (count_stop rest).
Proof.
  intros L. unfold scan_count, count_stop. cbv zeta.
  assert (B : lit_only (pre ++ flush d ++ [Err MBadRepetition])) by (repeat apply lit_app; auto using lit_flush, lit_err).
  destruct (match find_ch 44 (skipn 1 rest) with Some k => Some k | None => find_ch 125 (skipn 1 rest) end) as [close|] eqn:EC.
  2:{ apply stops_lit; [rewrite skipn_add; reflexivity|aft|exact B]. }
  assert (NE : at_ (skipn close (skipn 1 rest)) 0 = 44 \/ at_ (skipn close (skipn 1 rest)) 0 = 125).
  { destruct (find_ch 44 (skipn 1 rest)) eqn:E1; [injection EC as <-; left; eapply find_ch_ne; exact E1|right; eapply find_ch_ne; exact EC]. }
  destruct (if (0 <? close)%nat then _ else _) as [mn| | ]; cbn [obind]; try (intros ? ? ? HH; discriminate HH).
  destruct (_ || _); [apply stops_lit; [rewrite skipn_add; reflexivity|aft|exact B]|].
  clear EC. destruct (Z.eqb_spec (at_ (skipn close (skipn 1 rest)) 0) 44).
  - destruct (find_ch 125 _) as [close2|] eqn:E2.
    + destruct (as_int 10 _) as [mx| | ]; cbn [obind]; try (intros ? ? ? HH; discriminate HH).
      destruct (_ || _); [apply stops_lit; [reflexivity|aft|exact B]|].
      apply stops_tok; [rewrite (skipn_add _ 1 close2); f_equal; lia|aft|exact L|].
      apply one_tok. cbn [closes]. apply find_ch_ne in E2. lia.
    + apply stops_lit; [reflexivity|aft|exact B].
  - apply stops_tok; [reflexivity|aft|exact L|]. apply one_tok. cbn [closes]. lia.
Qed.

Lemma skip_white_len t : (length (skip_white t) <= length t)%nat.
Proof. induction t as [|c t IH]; cbn [skip_white]; [lia|]. destruct (UCS4IsWhite c); cbn [length]; lia. Qed.
Lemma digits_len radix max t : forall l x, RxCompModel.digits radix max l t = Ok x -> (length (fst x) <= length t)%nat.
Proof.
  induction t as [|c t IH]; intros l x; cbn [RxCompModel.digits]; [intros H; injection H as <-; cbn; lia|].
  destruct (Digit c radix) as [dg| | ]; cbn [obind]; try discriminate. destruct (dg <? 0); [intros H; injection H as <-; cbn; lia|].
  cbv zeta. destruct (_ || _); [intros H; injection H as <-; cbn; lia|]. intros H. apply IH in H. cbn [length]. lia.
Qed.
Ltac sc := let H := fresh in intros H; apply (f_equal (fun o => match o with Ok r => ir_scanned r | _ => 0 end)) in H; cbv beta iota in H;
  unfold fail_at in H; cbn [ir_scanned] in H; rewrite <- H; clear H; cbn [length] in *; lia.
Lemma as_int_scanned radix t r : as_int radix t = Ok r -> 0 <= ir_scanned r.
Proof.
  unfold as_int. cbv zeta beta. pose proof (skip_white_len t) as L0.
  destruct (skip_white t) as [|c0 r0]; [sc|].
  assert (L1 : (length (if ((c0 =? 43) || (c0 =? 45))%Z then skip_white r0 else c0 :: r0) <= length t)%nat).
  { destruct (_ || _); [|exact L0]. pose proof (skip_white_len r0). cbn [length] in L0. lia. }
  revert L1. destruct (if (c0 =? 43) || (c0 =? 45) then skip_white r0 else c0 :: r0) as [|c r1]; intros L1; [sc|].
  destruct (Digit c radix) as [dg| | ]; cbn [obind]; try discriminate.
  destruct (dg <? 0); [sc|].
  destruct (RxCompModel.digits _ _ _ _) as [x| | ] eqn:E; cbn [obind]; try discriminate. apply digits_len in E.
  destruct (snd x) as [l|]; [|sc].
  destruct (_ && _); [discriminate|]. intros H.
  assert (EQ := f_equal (fun o => match o with Ok r => ir_scanned r | _ => 0 end) H). cbv beta iota in EQ. cbn [ir_scanned] in EQ. rewrite <- EQ.
  pose proof (skip_white_len (fst x)). lia.
Qed.

Lemma stops_code radix k n bad rest d : stops rest (scan_code radix k n bad rest d) (code_stop radix k n rest).
Proof.
  unfold scan_code, code_stop.
  destruct (as_int radix _) as [r| | ] eqn:EA; cbn [obind]; try (intros ? ? ? HH; discriminate HH).
  apply as_int_scanned in EA.
  destruct (_ || _) eqn:E; [apply stops_lit; [rewrite skipn_add; f_equal; lia|aft|apply lit_err]|]. cbv zeta.
  apply stops_delay; [rewrite skipn_add; f_equal; lia|aft|apply lit_nil].
Qed.

Lemma at_some rest k : at_ rest k <> 0 -> at_ rest k <> 0xFFFFFFFF -> skipn k rest <> [].
Proof.
  unfold at_. intros H1 H2 E. assert (L := f_equal (@length Z) E). rewrite skipn_length in L. cbn [length] in L.
  destruct (Nat.eqb_spec k (length rest)); [congruence|]. apply H2. apply nth_overflow. lia.
Qed.

Lemma at_len rest k : at_ rest k <> 0xFFFFFFFF -> (k <= length rest)%nat.
Proof.
  unfold at_. destruct (Nat.eqb_spec k (length rest)); [lia|]. intros H. destruct (Nat.leb_spec k (length rest)) as [L|L]; [exact L|].
  rewrite nth_overflow in H by lia. congruence.
Qed.
Lemma at_skip rest k : (k <= length rest)%nat -> at_ (skipn k rest) 0 = at_ rest k.
Proof.
  intros H. unfold at_. rewrite skipn_length. destruct (Nat.eqb_spec k (length rest)).
  - subst. rewrite Nat.sub_diag. reflexivity.
  - destruct (Nat.eqb_spec 0 (length rest - k)); [lia|].
    rewrite <- (firstn_skipn k rest) at 2. rewrite app_nth2; rewrite firstn_length_le by lia; [|lia]. f_equal. lia.
Qed.
Lemma stops_escape rest d : stops rest (scan_escape en rest d) (escape_stop en rest).
Proof.
  unfold scan_escape, escape_stop. cbv zeta. remember (at_ rest 1) as c eqn:Ec.
  assert (P : forall ch, stops rest (Ok (delay [] d ch (at_ rest 2) (skipn 2 rest))) (Ok (skipn 1 rest))).
  { intros ch. apply stops_delay; [rewrite skipn_add; reflexivity|aft|apply lit_nil]. }
  match goal with |- stops _ _ ?i => assert (O : (c < 48 \/ 55 < c) -> c <> 120 -> c <> 117 -> c <> 112 -> i = Ok (skipn 1 rest)) end.
  { intros H1 H2 H3 H4. replace ((48 <=? c) && (c <=? 55)) with false by lia.
    replace (c =? 120) with false by lia. replace (c =? 117) with false by lia. replace (c =? 112) with false by lia. reflexivity. }
  destruct (Z.eqb_spec c 98); [rewrite O by lia; apply P|].
  destruct (Z.eqb_spec c 101); [rewrite O by lia; apply P|].
  destruct (Z.eqb_spec c 102); [rewrite O by lia; apply P|].
  destruct (Z.eqb_spec c 110); [rewrite O by lia; apply P|].
  destruct (Z.eqb_spec c 116); [rewrite O by lia; apply P|].
  destruct (Z.eqb_spec c 114); [rewrite O by lia; apply P|].
  clear O. destruct (_ && (c <=? 55)) eqn:E8; cbn [andb].
  { destruct (enabled en OctalChar); [apply stops_code|].
    replace (c =? 120) with false by lia. replace (c =? 117) with false by lia. replace (c =? 112) with false by lia. apply P. }
  destruct (Z.eqb_spec c 120); cbn [andb].
  { destruct (enabled en HexChar); [apply stops_code|].
    replace (c =? 117) with false by lia. replace (c =? 112) with false by lia. apply P. }
  destruct (Z.eqb_spec c 117); cbn [andb].
  { destruct (enabled en UnicodeChar); [apply stops_code|]. replace (c =? 112) with false by lia. apply P. }
  destruct ((c =? 115) || _ || _) eqn:ES; cbn [andb].
  { replace (c =? 112) with false by lia. cbn [andb]. destruct (enabled en Shorthand); [|apply P].
    apply stops_tok; [rewrite skipn_add; reflexivity|aft|apply lit_nil|]. apply one_tok. cbn [closes].
    replace (at_ (skipn 1 rest) 0) with c; [lia|]. rewrite Ec. symmetry. apply at_skip. apply at_len; lia. }
  destruct (Z.eqb_spec c 112); cbn [andb]; [|apply P].
  destruct (enabled en PropertyChars); [|apply P].
  assert (B : stops rest (Ok (emit [] d [Err MBadPosix] (skipn 3 rest))) (Ok (skipn 2 rest))).
  { apply stops_lit; [rewrite skipn_add; reflexivity|aft|]. cbn [app]. apply lit_app; [apply lit_flush|apply lit_err]. }
  destruct (_ =? 123); [|exact B].
  destruct (find_ch 125 (skipn 3 rest)) as [[|k]|] eqn:E2; [exact B| |exact B].
  apply stops_tok; [rewrite (skipn_add _ 1 (S k)); f_equal; lia|aft|apply lit_nil|]. apply one_tok. cbn [closes].
  apply find_ch_ne in E2. lia.
Qed.

Lemma class_loop_stop f : forall r p q x, class_loop f r p = (Some q, x) -> at_ x 0 = 93.
Proof.
  induction f as [|f IH]; intros r p q x; cbn [class_loop]; [discriminate|].
  destruct (_ =? 0); [discriminate|]. destruct (Z.eqb_spec (at_ r 0) 93).
  { intros H. assert (x = r) by congruence. subst x. assumption. }
  repeat match goal with |- (if ?b then _ else _) = _ -> _ => destruct b; try discriminate end; apply IH.
Qed.
Lemma stops_class pre rest d : lit_only pre -> stops rest (Ok (scan_class pre rest d)) (Ok (class_stop rest)).
Proof.
  intros L. unfold scan_class, class_stop. cbv zeta.
  set (n := if at_ rest 1 =? 94 then 2%nat else 1%nat).
  set (lit := (at_ (skipn n rest) 0 =? 45) || (at_ (skipn n rest) 0 =? 93)).
  match goal with |- context [class_loop ?f ?r ?p] =>
    assert (A : after 0 (snd (class_loop f r p)) rest); [|destruct (class_loop f r p) as [o x] eqn:EL] end.
  { match goal with |- context [class_loop ?f ?r ?p] => pose proof (class_after f r p) as A end.
    destruct lit.
    - assert (T : after (n + 1) (skipn 1 (skipn n rest)) rest) by (rewrite skipn_add; apply after_skipn).
      eapply after_le; [|eapply after_trans; [exact A|exact T]]. lia.
    - eapply after_le; [|eapply after_trans; [exact A|apply after_skipn]]. lia. }
  cbn [fst snd] in *. destruct o as [q|].
  - apply stops_tok; [reflexivity|exact A|exact L|]. apply one_tok. cbn [closes]. eapply class_loop_stop; exact EL.
  - apply stops_lit; [reflexivity|exact A|]. repeat apply lit_app; auto using lit_flush, lit_err.
Qed.
Lemma stops_group pre rest d : at_ rest 0 = 40 -> lit_only pre -> stops rest (Ok (scan_group en rej pre rest d)) (Ok (group_stop en rej rest)).
Proof.
  intros NE L. unfold scan_group, group_stop. cbv zeta.
  destruct (negb (enabled _ _) || _) eqn:EE; [apply stops_tok; [reflexivity|aft|exact L|]; apply one_tok; left; exact NE|].
  pose proof (lit_supported Capture) as L1. destruct (supported en rej Capture) as [e1 s1]. cbn [fst snd] in *.
  pose proof (lit_supported NonCapture) as L2. pose proof (lit_supported NegLookahead) as L3.
  destruct (s1 && _).
  - destruct (find_ch 62 (skipn 3 rest)) as [[|k]|] eqn:E2.
    1,3: apply stops_lit; [reflexivity|aft|repeat apply lit_app; auto using lit_flush, lit_err].
    apply stops_tok; [rewrite (skipn_add _ 1 (S k)); f_equal; lia|aft|exact L|]. apply more_tok; [exact L1|]. cbn [closes].
    apply find_ch_ne in E2. exact E2.
  - destruct (supported en rej NonCapture) as [e2 s2]. cbn [fst] in *. destruct (s2 && _) eqn:E2.
    { apply stops_tok; [rewrite skipn_add; reflexivity|aft|exact L|]. rewrite app_assoc. apply more_tok; [apply lit_app; assumption|]. cbn [closes].
      rewrite at_skip; [lia|apply at_len; lia]. }
    destruct (supported en rej NegLookahead) as [e3 s3]. cbn [fst] in *. destruct (s3 && _) eqn:E3.
    { apply stops_tok; [rewrite skipn_add; reflexivity|aft|exact L|]. rewrite !app_assoc. apply more_tok; [repeat apply lit_app; assumption|]. cbn [closes].
      rewrite at_skip; [lia|apply at_len; lia]. }
    apply stops_lit; [rewrite skipn_add; reflexivity|aft|repeat apply lit_app; auto using lit_flush, lit_err].
Qed.

Lemma stops_round rest d : rest <> [] -> stops rest (scan_round en rej rest d) (round_stop en rej rest).
Proof.
  intros NE. unfold scan_round, round_stop. cbv zeta. remember (at_ rest 0) as c eqn:Ec.
  assert (F : forall f k i, (forall pre, lit_only pre -> stops rest (k pre) i) ->
     stops rest (let '(pre, ok) := supported en rej f in if ok then k pre else Ok (simple_char pre rest d)) (if snd (supported en rej f) then i else Ok rest)).
  { intros f k i H. pose proof (lit_supported f) as LS. destruct (supported en rej f) as [pre [|]]; cbn [fst snd] in *; [apply H, LS|apply stops_simple, LS]. }
  assert (F0 : forall f k, (forall pre, lit_only pre -> stops rest (k pre) (Ok rest)) ->
     stops rest (let '(pre, ok) := supported en rej f in if ok then k pre else Ok (simple_char pre rest d)) (Ok rest)).
  { intros f k H. specialize (F f k (Ok rest) H). destruct (snd (supported en rej f)); exact F. }
  assert (E : forall pre es, lit_only pre -> (forall t, In (Tok t) es -> closes t (at_ rest 0)) -> stops rest (Ok (emit pre d es (skipn 1 rest))) (Ok rest))
    by (intros; apply stops_tok; [reflexivity|aft|assumption|assumption]).
  assert (SM : stops rest (Ok (simple_char [] rest d)) (Ok rest)) by (apply stops_simple, lit_nil).
  match goal with |- stops _ _ ?i => assert (O : c <> 92 -> c <> 123 -> c <> 91 -> c <> 40 -> c <> 32 -> c <> 9 -> c <> 10 -> c <> 13 -> i = Ok rest) end.
  { intros H1 H2 H3 H4 H5 H6 H7 H8. replace (c =? 92) with false by lia. replace (c =? 123) with false by lia. replace (c =? 91) with false by lia.
    replace (c =? 40) with false by lia. replace ((c =? 32) || (c =? 9) || (c =? 10) || (c =? 13)) with false by lia. reflexivity. }
  destruct (Z.eqb_spec c 94); [rewrite O by lia; apply (F0 BOL (fun pre => Ok (emit pre d [Tok TBOL] (skipn 1 rest)))); intros; apply E; [assumption|apply one_tok; cbn [closes]; lia]|].
  destruct (Z.eqb_spec c 36); [rewrite O by lia; apply (F0 EOL (fun pre => Ok (emit pre d [Tok TEOL] (skipn 1 rest)))); intros; apply E; [assumption|apply one_tok; cbn [closes]; lia]|].
  destruct (Z.eqb_spec c 46); [rewrite O by lia; destruct (enabled en AnyIsQuest); [exact SM|apply E; [apply lit_nil|apply one_tok; cbn [closes]; lia]]|].
  destruct (Z.eqb_spec c 63); [rewrite O by lia; apply E; [apply lit_nil|apply one_tok; destruct (enabled en AnyIsQuest); cbn [closes]; lia]|].
  destruct (Z.eqb_spec c 42); [rewrite O by lia; apply (F0 ZeroOrMore (fun pre => Ok (emit pre d ((if enabled en ZeroOrMoreAny then [Tok TAny] else []) ++ [Tok (TRep 0 0)]) (skipn 1 rest)))); intros; apply E; [assumption|]|].
  { intros t I. apply in_app_or in I. destruct I as [I|I]; [destruct (enabled en ZeroOrMoreAny); [|contradiction]|];
      revert t I; apply one_tok; cbn [closes]; lia. }
  destruct (Z.eqb_spec c 43); [rewrite O by lia; apply (F0 OneOrMore (fun pre => Ok (emit pre d [Tok (TRep 1 0)] (skipn 1 rest)))); intros; apply E; [assumption|apply one_tok; cbn [closes]; lia]|].
  destruct (Z.eqb_spec c 123); cbn [andb].
  { clear O. replace (c =? 92) with false by lia. replace (c =? 91) with false by lia. replace (c =? 40) with false by lia.
    replace ((c =? 32) || (c =? 9) || (c =? 10) || (c =? 13)) with false by lia. cbn [andb].
    apply (F CountRepetition (fun pre => scan_count pre rest d)). intros; apply stops_count; assumption. }
  destruct (Z.eqb_spec c 92); [apply stops_escape|].
  destruct (Z.eqb_spec c 91); cbn [andb].
  { clear O. replace (c =? 40) with false by lia.
    replace ((c =? 32) || (c =? 9) || (c =? 10) || (c =? 13)) with false by lia. cbn [andb].
    apply (F CharClasses (fun pre => Ok (scan_class pre rest d))). intros; apply stops_class; assumption. }
  destruct (Z.eqb_spec c 124).
  { replace (c =? 40) with false by lia. replace ((c =? 32) || (c =? 9) || (c =? 10) || (c =? 13)) with false by lia. cbn [andb].
    apply (F0 Alternates (fun pre => Ok (emit pre d [Tok TAlt] (skipn 1 rest)))); intros; apply E; [assumption|apply one_tok; cbn [closes]; lia]. }
  destruct (Z.eqb_spec c 40); cbn [andb].
  { replace ((c =? 32) || (c =? 9) || (c =? 10) || (c =? 13)) with false by lia. cbn [andb].
    apply (F Group (fun pre => Ok (scan_group en rej pre rest d))). intros; apply stops_group; [lia|assumption]. }
  destruct (Z.eqb_spec c 41).
  { replace ((c =? 32) || (c =? 9) || (c =? 10) || (c =? 13)) with false by lia. cbn [andb].
    destruct (enabled en Group); [apply E; [apply lit_nil|apply one_tok; cbn [closes]; lia]|exact SM]. }
  clear O. destruct (_ || _); cbn [andb]; [|exact SM].
  destruct (enabled en ExtendedRE); cbn [andb]; [|exact SM].
  destruct (_ =? 35); apply stops_lit; try reflexivity; try apply lit_nil; [|aft].
  apply (after_le (1 + 0)); [lia|]. eapply after_trans; [apply comment_after|apply after_skipn].
Qed.
End Scan.
