(** Memory safety: with room left for the elements, in-range operations on
    reachable states never touch storage they should not, and the editing
    operations do not fail at all. *)
From Verif Require Import Base RefModel RefProofs LatchProofs ArrayModel ArraySpec ArrayProofs ArrayHeap ArrayOps ArrayState.
From Coq Require Import Permutation.
Ltac Zify.zify_post_hook ::= Z.div_mod_to_equations.

Section Safe.
Context {A : Type}.
Implicit Types (x : body A) (h : heap A) (hs : list slice) (L M : list A) (st : state A).

Definition room h (extra : Z) : Prop := forall b x, nth_error h b = Some (Some x) -> b_num x + extra <= 2^32 - 8.

Lemma unshare_num h s hs ex h' s' L : WF h (s :: hs) -> view h s = Some L -> unshare h s ex = Ok (h', s') ->
  (h' = h /\ s' = s) \/ (forall b x, s_body s' = Some b -> nth_error h' b = Some (Some x) -> b_num x = s_num s).
Proof.
  intros W V H. assert (W0 := W). destruct W as [WB WS]. inversion WS as [|? ? K WS']; subst.
  destruct (view_len h s L K V) as (LN & B32 & _).
  assert (CP : (do x <- new_body (elem_at h s) (s_num s) (u32 (s_num s + ex));
   let b := length h in
   do h1 <- addref (h ++ [Some x]) (Some b);
   do h2 <- release h1 (s_body s);
   Ok (h2, {| s_body := Some b; s_off := 0; s_num := s_num s |})) = Ok (h', s') ->
   forall b x, s_body s' = Some b -> nth_error h' b = Some (Some x) -> b_num x = s_num s).
  { clear H. intros H b z Eb Hb. apply obind_ok in H as (x & NB & H). cbv zeta in H.
    apply obind_ok in H as (h1 & AR & H). apply obind_ok in H as (h2 & RL & H). injection H as <- <-.
    rewrite LN in NB. cbn in Eb. injection Eb as <-.
    destruct (new_body_spec _ L _ _ (view_src h s L V K) ltac:(lia) NB) as (VX & R0 & S0).
    destruct (fresh_spec h (s :: hs) x L W0 VX ltac:(unfold stat; rewrite S0; exact R0)) as (h1' & E1 & F1 & (x' & NX & VX' & RX & SX) & NO).
    rewrite AR in E1. injection E1 as <-. cbv zeta in F1. destruct F1 as (W1 & SA & VW).
    set (s1 := {| s_body := Some (length h); s_off := 0; s_num := Z.of_nat (length L) |}) in *.
    assert (W2 : WF h1 (s :: s1 :: hs)) by (eapply WF_perm; [apply perm_swap|exact W1]).
    destruct (release_spec h1 s (s1 :: hs) W2) as (h2' & E2 & W3 & SA2). rewrite RL in E2. injection E2 as <-.
    inversion SA2 as [|? ? S1 S2]; subst. unfold same_on in S1. cbn [s1 s_body] in S1. destruct S1 as (y & y' & Y1 & Y2 & D1 & D2 & _).
    rewrite NX in Y1. injection Y1 as <-. rewrite Hb in Y2. injection Y2 as <-. rewrite D2. destruct VX' as (_ & VN & _). lia. }
  unfold unshare in H. destruct (s_body s) as [b|] eqn:E.
  - apply obind_ok in H as (x & G & H). destruct (Z.leb_spec (b_refs x) 1).
    + injection H as <- <-. left. auto.
    + right. exact (CP H).
  - right. exact (CP H).
Qed.

Lemma room_num h s L ex : slice_ok h s -> view h s = Some L -> room h ex -> 0 <= ex <= 2^32 - 8 -> s_num s + ex <= 2^32 - 8.
Proof.
  intros K V R E. unfold slice_ok in K. destruct (s_body s) as [b|]; [|lia].
  destruct K as (x & M & Hb & VM & O & N & B). specialize (R b x Hb). assert (b_num x = Z.of_nat (length M)) by apply VM. lia.
Qed.

Lemma unshare_room h s hs ex L k : WF h (s :: hs) -> view h s = Some L -> 0 <= ex <= k -> k <= 2^32 - 8 -> room h k ->
  exists h1 s1 b x, unshare h s ex = Ok (h1, s1) /\ s_body s1 = Some b /\ nth_error h1 b = Some (Some x) /\
    b_refs x = 1 /\ b_static x = false /\ b_num x + k <= 2^32 - 8 /\ WF h1 (s1 :: hs) /\ view h1 s1 = Some L /\ same_all h h1 hs /\ s_num s1 = s_num s.
Proof.
  intros W V E1 E2 R. assert (K := WF_head _ _ _ W). assert (RN := room_num h s L k K V R ltac:(lia)).
  destruct (unshare_ok h s hs ex L W V ltac:(lia) ltac:(lia)) as (h1 & s1 & U).
  destruct (unshare_spec h s hs ex h1 s1 L W V U) as (W1 & SA & V1 & (b & x & Eb & Hb & R1 & ST) & N1 & _).
  exists h1, s1, b, x. do 5 (split; [assumption|]). split; [|auto].
  destruct (unshare_num h s hs ex h1 s1 L W V U) as [[-> ->]|H].
  - exact (R b x Hb).
  - rewrite (H b x Eb Hb). exact RN.
Qed.

Lemma push_ok h s hs a L : WF h (s :: hs) -> view h s = Some L -> room h 1 -> exists r, push h s a = Ok r.
Proof.
  intros W V R. unfold push. destruct (unshare_room h s hs 1 L 1 W V ltac:(lia) ltac:(lia) R) as (h1 & s1 & b & x & U & E & Hb & R1 & ST & RM & W1 & V1 & _ & N1).
  rewrite U. cbn [obind]. rewrite E. unfold hget. rewrite Hb. cbn [obind].
  assert (K1 := WF_head _ _ _ W1). destruct (view_split h1 s1 L b K1 V1 E) as (y & M & Hy & VM & O & B & N & EL). rewrite Hb in Hy. injection Hy as <-.
  assert (SI : src_is (fun i => rdZ [a] i) [a]).
  { intros i Hi. cbn [length] in Hi. assert (i = 0) by lia. subst i. exists a. split; reflexivity. }
  assert (NM : b_num x = Z.of_nat (length M)) by apply VM.
  destruct (body_insert_ok x M (s_num s1) _ [a] VM ST ltac:(lia) SI ltac:(lia) ltac:(cbn; lia)) as [x' E']. cbn [length] in E'.
  change (Z.of_nat 1) with 1 in E'. rewrite E'. cbn [obind]. eauto.
Qed.

Lemma insert_ok h s hs pos w L LW : WF h (s :: hs) -> In w hs -> view h s = Some L -> view h w = Some LW ->
  0 <= pos <= Z.of_nat (length L) -> Z.of_nat (length LW) <= 2^32 - 8 -> room h (Z.of_nat (length LW)) -> exists r, insert h s pos w false = Ok r.
Proof.
  intros W Hw V VW P B32 R. unfold insert. destruct (_ && _) in |- *; [eauto|]. destruct (_ && _) in |- *; [eauto|].
  assert (KT := WF_tail_ok _ _ _ W). rewrite Forall_forall in KT. assert (KW := KT w Hw).
  destruct (view_len h w LW KW VW) as (WN & _).
  rewrite WN.
  destruct (unshare_room h s hs (Z.of_nat (length LW)) L (Z.of_nat (length LW)) W V ltac:(lia) B32 R) as (h1 & s1 & b & x & U & E & Hb & R1 & ST & RM & W1 & V1 & SA & N1).
  rewrite U. cbn [obind]. rewrite E. unfold hget. rewrite Hb. cbn [obind].
  assert (K1 := WF_head _ _ _ W1). destruct (view_split h1 s1 L b K1 V1 E) as (y & M & Hy & VM & O & B & N & EL). rewrite Hb in Hy. injection Hy as <-.
  destruct (view_len h1 s1 L K1 V1) as (LN1 & _).
  assert (VW1 : view h1 w = Some LW). { unfold same_all in SA. rewrite Forall_forall in SA. rewrite (same_view _ _ _ (SA w Hw)). exact VW. }
  assert (KW1 : slice_ok h1 w). { assert (KT1 := WF_tail_ok _ _ _ W1). rewrite Forall_forall in KT1. exact (KT1 w Hw). }
  assert (NM : b_num x = Z.of_nat (length M)) by apply VM.
  destruct (body_insert_ok x M pos _ LW VM ST ltac:(lia) (view_src _ _ _ VW1 KW1) ltac:(lia) ltac:(lia)) as [x' E'].
  rewrite E'. cbn [obind]. eauto.
Qed.

Lemma set_ok h s hs i a L : WF h (s :: hs) -> view h s = Some L -> room h 0 -> 0 <= i < Z.of_nat (length L) -> exists r, set h s i a = Ok r.
Proof.
  intros W V R Hi. assert (K := WF_head _ _ _ W). destruct (view_len h s L K V) as (LN & LB & LO). unfold set, cassert.
  destruct (Z.leb_spec 0 i); [|lia]. destruct (Z.ltb_spec i (s_num s)); [|lia].
  destruct (s_body s) eqn:Es; [|unfold slice_ok in K; rewrite Es in K; lia]. cbn [andb].
  destruct (unshare_room h s hs 0 L 0 W V ltac:(lia) ltac:(lia) R) as (h1 & s1 & b & x & U & E & Hb & R1 & ST & RM & W1 & V1 & _ & N1).
  rewrite U. cbn [obind]. rewrite E. unfold hget. rewrite Hb. cbn [obind].
  assert (K1 := WF_head _ _ _ W1). destruct (view_split h1 s1 L b K1 V1 E) as (y & M & Hy & VM & O & B & N & EL). rewrite Hb in Hy. injection Hy as <-.
  assert (LM := agree_len _ _ (proj1 VM)).
  unfold cell_wr. destruct (Z.leb_spec 0 (s_off s1 + i)); [|lia]. destruct (Z.ltb_spec (s_off s1 + i) (Z.of_nat (length (b_data x)))); [|lia].
  cbn. eauto.
Qed.

Lemma remove_ok h s hs at_ len L len' : WF h (s :: hs) -> view h s = Some L -> room h 0 ->
  0 <= at_ <= Z.of_nat (length L) ->
  (len = -1 /\ len' = Z.of_nat (length L) - at_ /\ Z.of_nat (length L) < 2^31) \/ (0 <= len <= Z.of_nat (length L) - at_ /\ len' = len) ->
  exists r, remove h s at_ len = Ok r.
Proof.
  intros W V R AT LEN. assert (K := WF_head _ _ _ W). destruct (view_len h s L K V) as (LN & LB & LO).
  unfold remove.
  assert (EL : (if len =? -1 then s32 (s_num s - at_) else len) = len').
  { destruct LEN as [(-> & -> & L31)|[? ->]]; [|destruct (Z.eqb_spec len (-1)); [lia|reflexivity]]. simpl. rewrite LN. apply s32_small. lia. }
  rewrite EL. clear EL. assert (L0 : 0 <= len' <= Z.of_nat (length L) - at_) by lia. clear LEN.
  assert (U : u32 (s_num s - len') = s_num s - len') by (unfold u32; apply Z.mod_small; lia). rewrite !U.
  unfold cassert. destruct (Z.geb_spec (s_num s - len') at_); [|lia].
  destruct (Z.eqb_spec at_ (s_num s)); cbn [orb]; [eauto|]. destruct (Z.eqb_spec len' 0) as [|Nl]; [eauto|].
  destruct (Z.eqb_spec (u32 (at_ + len')) (s_num s)); [eauto|]. destruct (Z.eqb_spec at_ 0) as [|Na]; [eauto|].
  destruct (unshare_room h s hs 0 L 0 W V ltac:(lia) ltac:(lia) R) as (h1 & s1 & b & x & UN & E & Hb & R1 & ST & RM & W1 & V1 & _ & N1).
  rewrite UN. cbn [obind]. rewrite E. unfold hget. rewrite Hb. cbn [obind].
  assert (K1 := WF_head _ _ _ W1). destruct (view_split h1 s1 L b K1 V1 E) as (y & M & Hy & VM & O & B & N & EL). rewrite Hb in Hy. injection Hy as <-.
  assert (NM : b_num x = Z.of_nat (length M)) by apply VM.
  destruct (body_remove_ok x M at_ len' VM ST ltac:(lia) ltac:(lia) ltac:(lia) ltac:(lia)) as [x' E'].
  rewrite E'. cbn [obind]. eauto.
Qed.

Lemma plus_ok h s hs a L : WF h hs -> slice_ok h s -> view h s = Some L -> room h 1 -> exists r, plus h s a = Ok r.
Proof.
  intros W K V R. destruct (view_len h s L K V) as (LN & LB & _). assert (RN := room_num h s L 1 K V R ltac:(lia)).
  unfold plus.
  assert (U : u32 (s_num s + 1) = s_num s + 1) by (unfold u32; apply Z.mod_small; lia). rewrite U, LN.
  destruct (new_body_ok (elem_at h s) L (Z.of_nat (length L) + 1) (view_src h s L V K) ltac:(lia) ltac:(lia)) as [x NB].
  rewrite NB. cbn [obind].
  destruct (new_body_spec _ L _ _ (view_src h s L V K) ltac:(lia) NB) as (VX & R0 & S0).
  destruct (fresh_spec h hs x L W VX ltac:(unfold stat; rewrite S0; exact R0)) as (h1 & E1 & F1 & (x' & NX & VX' & RX & SX) & NO).
  cbv zeta in F1. destruct F1 as (W1 & SA & VW). rewrite E1. cbn [obind]. eapply push_ok; [exact W1|exact VW|].
  intros b y Hb. destruct (Nat.lt_ge_cases b (length h)).
  - rewrite NO in Hb by assumption. exact (R b y Hb).
  - destruct (Nat.eq_dec b (length h)) as [->|]; [rewrite NX in Hb; injection Hb as <-; destruct VX' as (_ & VN & _); lia|].
    exfalso. assert (X : (length h1 <= length h + 1)%nat).
    { unfold addref, hget in E1. rewrite nth_error_app2, Nat.sub_diag in E1 by lia. cbn in E1. injection E1 as <-.
      unfold hput. rewrite upd_length, app_length. cbn. lia. }
    apply nth_lt in Hb. lia.
Qed.

Lemma slice_op_safe h s hs at_ len : WF h hs -> slice_ok h s -> 0 <= at_ -> slice_op h s at_ len <> UB.
Proof.
  intros W K AT. unfold slice_op, cassert. destruct (_ >=? _); [|discriminate]. destruct (_ || _) eqn:E; [discriminate|].
  apply orb_false_iff in E as [E _]. destruct (Z.geb_spec at_ (s_num s)); [discriminate|].
  unfold mk_slice. destruct (addref_spec h s hs W K) as (h1 & AR & W1 & _ & SO). rewrite AR. cbn [obind].
  unfold same_on in SO. destruct (s_body s) as [b|] eqn:Es; [|unfold slice_ok in K; rewrite Es in K; lia].
  destruct SO as (x & x' & _ & Hx' & _). unfold hget. rewrite Hx'. cbn [obind]. unfold cassert.
  destruct (_ <? _); [|discriminate]. destruct (_ <? _); discriminate.
Qed.

Lemma drop_ok h s hs n L : WF h hs -> slice_ok h s -> view h s = Some L -> room h 0 -> 0 <= n < 2^31 -> drop h s n <> UB.
Proof.
  intros W K V R N. destruct (view_len h s L K V) as (LN & LB & _). unfold drop, cassert.
  destruct (Z.geb_spec (s_num s) n); [|discriminate].
  destruct (copy_spec h s hs L W K V) as ([h1 s1] & C1 & (W1 & SA1 & V1)). rewrite C1. cbn [obind fst snd] in *.
  rewrite s32_small by lia.
  assert (R1 : room h1 0).
  { intros b x Hb. unfold copy in C1. unfold addref in C1. destruct (s_body s) as [c|]; cbn [obind] in C1.
    - apply obind_ok in C1 as (h2 & E2 & C1). apply obind_ok in E2 as (y & G & E2). injection E2 as <-. injection C1 as <- <-.
      apply hget_ok in G. rewrite (nth_hput _ _ _ _ _ G) in Hb. destruct (Nat.eqb_spec b c); [injection Hb as <-; cbn; exact (R c y G)|exact (R b x Hb)].
    - injection C1 as <- <-. exact (R b x Hb). }
  destruct (remove_ok h1 s1 hs 0 n L n W1 V1 R1 ltac:(lia) ltac:(right; lia)) as ([h2 s2] & RM). rewrite RM. cbn [obind].
  destruct (remove_spec h1 s1 hs 0 n (h2, s2) L n W1 V1 RM ltac:(lia) ltac:(right; lia)) as (L' & (W2 & SA2 & V2) & _ & P).
  cbn [fst snd] in *.
  destruct (copy_spec h2 s2 (s2 :: hs) L' W2 (WF_head _ _ _ W2) V2) as ([h3 s3] & C3 & (W3 & SA3 & V3)).
  rewrite C3. cbn [obind fst snd] in *.
  assert (W3' : WF h3 (s2 :: s3 :: hs)) by (eapply WF_perm; [apply perm_swap|exact W3]).
  destruct (release_spec h3 s2 (s3 :: hs) W3') as (h4 & E4 & _). rewrite E4. discriminate.
Qed.

(** ** One step never touches foreign memory *)
Lemma step_safe st o : Inv st -> op_ok st o -> fits st o -> step st o <> UB.
Proof.
  intros I K [R F]. assert (W := I). unfold Inv in W.
  assert (R0 : room (hp st) 0). { intros b x Hb. specialize (R b x Hb). assert (0 <= added st o) by (destruct o as [| | | | | | | | | | | |? ? w0| | | | | ]; cbn; try lia; destruct (contents st w0); lia). lia. }
  assert (ASG : forall d r, r <> UB -> (forall p, r = Ok p -> exists L, post (hp st) (vars st) p L) -> assign st d r <> UB).
  { intros d r NU P. destruct (nth_error (vars st) d) as [old|] eqn:E; [|unfold assign; rewrite E; discriminate].
    destruct r as [p| |]; [|unfold assign; rewrite E; discriminate|congruence].
    destruct (P p eq_refl) as [L PL]. destruct (assign_spec st d old p L I E PL) as (st2 & E2 & _). rewrite E2. discriminate. }
  assert (STO : forall v r, r <> UB -> store st v r <> UB).
  { intros v r NU. destruct r as [[h' s']| |]; cbn; congruence. }
  assert (SLC : forall d s L a0 len, slice_ok (hp st) s -> view (hp st) s = Some L -> 0 <= a0 -> assign st d (slice_op (hp st) s a0 len) <> UB).
  { intros d s L a0 len KS V A0. apply ASG; [exact (slice_op_safe _ s _ a0 len W KS A0)|]. intros p E.
    eexists. eapply slice_op_spec; [exact W|exact KS|exact V| |exact E]. exact A0. }
  destruct o as [d l al|d l|d|d v|d v a0 len|d v n|d v n|d v n|d v a|d v n|v i a|v a|v pos w|v a0 len|v a0|v|v|v]; cbn [step].
  - destruct K as [K1 K2]. destruct F as [F1 F2]. unfold is_index in *. destruct (make_ok (hp st) _ l al W F1 ltac:(lia)) as [r E]. apply ASG; [congruence|].
    intros p E2. exists l. eapply make_spec; [exact W| |exact E2]. lia.
  - destruct (make_static_ok (hp st) l) as [r E]. apply ASG; [congruence|]. intros p E2. exists l. eapply make_static_spec; [exact W|apply K|exact E2].
  - apply ASG; [discriminate|]. intros p E. injection E as <-. exists []. apply null_spec. exact W.
  - destruct (nth_error (vars st) v) as [s|] eqn:Ev; [|discriminate]. destruct (Inv_view st v s I Ev) as (KS & L & V & C).
    destruct (copy_spec (hp st) s (vars st) L W KS V) as (r & E2 & P). apply ASG; [congruence|]. intros p E. exists L. congruence.
  - destruct (nth_error (vars st) v) as [s|] eqn:Ev; [|discriminate]. destruct (Inv_view st v s I Ev) as (KS & L & V & C).
    destruct K as [[K1 _] _]. eapply SLC; eassumption.
  - destruct (nth_error (vars st) v) as [s|] eqn:Ev; [|discriminate]. destruct (Inv_view st v s I Ev) as (KS & L & V & C).
    eapply SLC; [eassumption..|lia].
  - destruct (nth_error (vars st) v) as [s|] eqn:Ev; [|discriminate]. destruct (Inv_view st v s I Ev) as (KS & L & V & C).
    pose proof (u32_range (s_num s - n)). eapply SLC; [eassumption..|lia].
  - destruct (nth_error (vars st) v) as [s|] eqn:Ev; [|discriminate]. destruct (Inv_view st v s I Ev) as (KS & L & V & C).
    eapply SLC; [eassumption..|lia].
  - destruct (nth_error (vars st) v) as [s|] eqn:Ev; [|discriminate]. destruct (Inv_view st v s I Ev) as (KS & L & V & C).
    destruct (plus_ok _ s (vars st) a L W KS V R) as [r E]. apply ASG; [congruence|]. intros p E2. exists (L ++ [a]). eapply plus_spec; eassumption.
  - destruct (nth_error (vars st) v) as [s|] eqn:Ev; [|discriminate]. destruct (Inv_view st v s I Ev) as (KS & L & V & C).
    cbn in K. apply ASG; [exact (drop_ok _ s (vars st) n L W KS V R0 K)|]. intros p E2. eexists. eapply drop_spec; eassumption.
  - destruct (nth_error (vars st) v) as [s|] eqn:Ev; [|discriminate]. destruct (Inv_view st v s I Ev) as (KS & L & V & C).
    destruct (store_spec st v s (fun _ => True) Ev I) as (hs & WS & _ & _). apply STO.
    destruct (view_len _ s L KS V) as (LN & _).
    destruct (Z.leb_spec 0 i); destruct (Z.ltb_spec i (s_num s)).
    + destruct (set_ok _ s hs i a L WS V R0 ltac:(lia)) as [r E]. congruence.
    + unfold set, cassert. destruct (Z.ltb_spec i (s_num s)); [lia|]. rewrite andb_false_r. discriminate.
    + unfold set, cassert. destruct (Z.leb_spec 0 i); [lia|]. discriminate.
    + unfold set, cassert. destruct (Z.leb_spec 0 i); [lia|]. discriminate.
  - destruct (nth_error (vars st) v) as [s|] eqn:Ev; [|discriminate]. destruct (Inv_view st v s I Ev) as (KS & L & V & C).
    destruct (store_spec st v s (fun _ => True) Ev I) as (hs & WS & _ & _). apply STO.
    destruct (push_ok _ s hs a L WS V R) as [r E]. congruence.
  - destruct (nth_error (vars st) v) as [s|] eqn:Ev; [|discriminate].
    destruct (nth_error (vars st) w) as [t|] eqn:Ew; [|discriminate].
    destruct (Inv_view st v s I Ev) as (KS & L & V & C). destruct (Inv_view st w t I Ew) as (KT & LT & VT & CT).
    destruct K as (NE & P0 & PB). specialize (PB L C).
    destruct (store_spec st v s (fun _ => True) Ev I) as (hs & WS & IN & _). apply STO.
    destruct (Nat.eqb_spec v w); [contradiction|]. cbn in R. rewrite CT in R.
    destruct (view_len _ t LT KT VT) as (TN & TB & _).
    assert (TT : Z.of_nat (length LT) <= 2^32 - 8). { assert (X := room_num _ t LT 0 KT VT R0 ltac:(lia)). lia. }
    destruct (insert_ok _ s hs pos t L LT WS (IN w t ltac:(congruence) Ew) V VT ltac:(lia) TT R) as [r E]. congruence.
  - destruct (nth_error (vars st) v) as [s|] eqn:Ev; [|discriminate]. destruct (Inv_view st v s I Ev) as (KS & L & V & C).
    destruct (store_spec st v s (fun _ => True) Ev I) as (hs & WS & _ & _). apply STO.
    destruct K as [K1 K2]. specialize (K2 L C).
    destruct (remove_ok _ s hs a0 len L (if len =? -1 then Z.of_nat (length L) - a0 else len) WS V R0 ltac:(lia)
      ltac:(destruct (Z.eqb_spec len (-1)); lia)) as [r E]. congruence.
  - destruct (nth_error (vars st) v) as [s|] eqn:Ev; [|discriminate]. destruct (Inv_view st v s I Ev) as (KS & L & V & C).
    destruct (store_spec st v s (fun _ => True) Ev I) as (hs & WS & _ & _). cbn in K. destruct (view_len _ s L KS V) as (LN & _).
    unfold delete_at. rewrite s32_small by lia. destruct (nth_error L (Z.to_nat a0)) as [e|] eqn:En.
    + rewrite (elem_ok _ s a0 L e KS V ltac:(lia) En). cbn [obind]. apply nth_lt in En.
      destruct (remove_ok _ s hs a0 1 L 1 WS V R0 ltac:(lia) ltac:(right; lia)) as [r E]. rewrite E. cbn [obind]. apply STO. discriminate.
    + apply nth_error_None in En. unfold elem, cassert. destruct (Z.leb_spec 0 a0); [|lia]. destruct (Z.ltb_spec a0 (s_num s)); [lia|]. discriminate.
  - destruct (nth_error (vars st) v) as [s|] eqn:Ev; [|discriminate]. destruct (Inv_view st v s I Ev) as (KS & L & V & C).
    destruct (store_spec st v s (fun _ => True) Ev I) as (hs & WS & _ & _). destruct (view_len _ s L KS V) as (LN & _).
    unfold shift, cassert. destruct (Z.gtb_spec (s_num s) 0); [|discriminate].
    unfold delete_at. rewrite s32_small by lia. destruct (nth_some_lt L 0 ltac:(lia)) as [e En].
    rewrite (elem_ok _ s 0 L e KS V ltac:(lia) En). cbn [obind].
    destruct (remove_ok _ s hs 0 1 L 1 WS V R0 ltac:(lia) ltac:(right; lia)) as [r E]. rewrite E. cbn [obind]. apply STO. discriminate.
  - destruct (nth_error (vars st) v) as [s|] eqn:Ev; [|discriminate]. destruct (Inv_view st v s I Ev) as (KS & L & V & C).
    destruct (view_len _ s L KS V) as (LN & _).
    unfold pull, cassert. destruct (Z.gtb_spec (s_num s) 0); [|discriminate].
    destruct (nth_some_lt L (Z.to_nat (s_num s - 1)) ltac:(lia)) as [e En].
    rewrite (elem_ok _ s (s_num s - 1) L e KS V ltac:(lia) En). cbn [obind]. apply STO. discriminate.
  - destruct (nth_error (vars st) v) as [s|] eqn:Ev; [|discriminate]. apply STO. discriminate.
Qed.

(** Edits in range always succeed. *)
Lemma step_ok st o : Inv st -> op_ok st o -> fits st o -> in_range st o -> exists st', step st o = Ok st'.
Proof.
  intros I K F G. assert (NU := step_safe st o I K F).
  destruct (step st o) as [st'| |] eqn:E; [eauto| |congruence]. exfalso. destruct F as [R F].
  assert (W := I). unfold Inv in W.
  assert (R0 : room (hp st) 0). { intros b x Hb. specialize (R b x Hb). assert (0 <= added st o) by (destruct o as [| | | | | | | | | | | |? ? w0| | | | | ]; cbn; try lia; destruct (contents st w0); lia). lia. }
  assert (ASG : forall d p L, post (hp st) (vars st) p L -> assign st d (Ok p) <> Abort).
  { intros d p L PL. destruct (nth_error (vars st) d) as [old|] eqn:Ed; [|unfold assign; rewrite Ed; discriminate].
    destruct (assign_spec st d old p L I Ed PL) as (st2 & E2 & _). rewrite E2. discriminate. }
  destruct o as [d l al|d l|d|d v|d v a0 len|d v n|d v n|d v n|d v a|d v n|v i a|v a|v pos w|v a0 len|v a0|v|v|v]; cbn [step] in E; cbn in G; try contradiction.
  - destruct K as [K1 K2]. destruct F as [F1 F2]. unfold is_index in *. destruct (make_ok (hp st) _ l al W F1 ltac:(lia)) as [r Er]. rewrite Er in E.
    eapply ASG; [|exact E]. eapply make_spec; [exact W| |exact Er]. lia.
  - destruct (make_static_ok (hp st) l) as [r Er]. rewrite Er in E. eapply ASG; [|exact E]. eapply make_static_spec; [exact W|apply K|exact Er].
  - eapply ASG; [|exact E]. apply null_spec. exact W.
  - destruct (nth_error (vars st) v) as [s|] eqn:Ev; [|discriminate]. destruct (Inv_view st v s I Ev) as (KS & L & V & C).
    destruct (copy_spec (hp st) s (vars st) L W KS V) as (r & E2 & P). rewrite E2 in E. eapply ASG; [exact P|exact E].
  - destruct (nth_error (vars st) v) as [s|] eqn:Ev; [|discriminate]. destruct (Inv_view st v s I Ev) as (KS & L & V & C).
    destruct (plus_ok _ s (vars st) a L W KS V R) as [r Er]. rewrite Er in E. eapply ASG; [|exact E]. eapply plus_spec; eassumption.
  - destruct (nth_error (vars st) v) as [s|] eqn:Ev; [|discriminate]. destruct (Inv_view st v s I Ev) as (KS & L & V & C).
    specialize (G L C). cbn in K. destruct (view_len _ s L KS V) as (LN & _).
    assert (ND : drop (hp st) s n <> Abort).
    { unfold drop, cassert. destruct (Z.geb_spec (s_num s) n); [|lia].
      destruct (copy_spec (hp st) s (vars st) L W KS V) as ([h1 s1] & C1 & (W1 & SA1 & V1)). rewrite C1. cbn [obind fst snd] in *.
      rewrite s32_small by lia.
      assert (R1 : room h1 0).
      { intros b x Hb. unfold copy in C1. unfold addref in C1. destruct (s_body s) as [c|]; cbn [obind] in C1.
        - apply obind_ok in C1 as (h2 & E2 & C1). apply obind_ok in E2 as (y & Gy & E2). injection E2 as <-. injection C1 as <- <-.
          apply hget_ok in Gy. rewrite (nth_hput _ _ _ _ _ Gy) in Hb. destruct (Nat.eqb_spec b c); [injection Hb as <-; cbn; exact (R0 c y Gy)|exact (R0 b x Hb)].
        - injection C1 as <- <-. exact (R0 b x Hb). }
      destruct (remove_ok h1 s1 _ 0 n L n W1 V1 R1 ltac:(lia) ltac:(right; lia)) as ([h2 s2] & RM). rewrite RM. cbn [obind].
      destruct (remove_spec h1 s1 _ 0 n (h2, s2) L n W1 V1 RM ltac:(lia) ltac:(right; lia)) as (L' & (W2 & SA2 & V2) & _ & P).
      cbn [fst snd] in *.
      destruct (copy_spec h2 s2 (s2 :: vars st) L' W2 (WF_head _ _ _ W2) V2) as ([h3 s3] & C3 & (W3 & SA3 & V3)).
      rewrite C3. cbn [obind fst snd] in *.
      assert (W3' : WF h3 (s2 :: s3 :: vars st)) by (eapply WF_perm; [apply perm_swap|exact W3]).
      destruct (release_spec h3 s2 (s3 :: vars st) W3') as (h4 & E4 & _). rewrite E4. discriminate. }
    destruct (drop (hp st) s n) as [r| |] eqn:Er; [|congruence|].
    + eapply ASG; [|exact E]. eapply drop_spec; eassumption.
    + exact (drop_ok _ s (vars st) n L W KS V R0 K Er).
  - destruct (nth_error (vars st) v) as [s|] eqn:Ev; [|discriminate]. destruct (Inv_view st v s I Ev) as (KS & L & V & C).
    destruct (store_spec st v s (fun _ => True) Ev I) as (hs & WS & _ & _). specialize (G L C).
    destruct (set_ok _ s hs i a L WS V R0 ltac:(lia)) as [[h' s'] Er]. rewrite Er in E. discriminate.
  - destruct (nth_error (vars st) v) as [s|] eqn:Ev; [|discriminate]. destruct (Inv_view st v s I Ev) as (KS & L & V & C).
    destruct (store_spec st v s (fun _ => True) Ev I) as (hs & WS & _ & _).
    destruct (push_ok _ s hs a L WS V R) as [[h' s'] Er]. rewrite Er in E. discriminate.
  - destruct (nth_error (vars st) v) as [s|] eqn:Ev; [|discriminate].
    destruct (nth_error (vars st) w) as [t|] eqn:Ew; [|discriminate].
    destruct (Inv_view st v s I Ev) as (KS & L & V & C). destruct (Inv_view st w t I Ew) as (KT & LT & VT & CT).
    destruct K as (NE & P0 & PB). specialize (PB L C).
    destruct (store_spec st v s (fun _ => True) Ev I) as (hs & WS & IN & _).
    destruct (Nat.eqb_spec v w); [contradiction|]. cbn in R. rewrite CT in R.
    destruct (view_len _ t LT KT VT) as (TN & TB & _).
    assert (TT : Z.of_nat (length LT) <= 2^32 - 8). { assert (X := room_num _ t LT 0 KT VT R0 ltac:(lia)). lia. }
    destruct (insert_ok _ s hs pos t L LT WS (IN w t ltac:(congruence) Ew) V VT ltac:(lia) TT R) as [[h' s'] Er]. rewrite Er in E. discriminate.
  - destruct (nth_error (vars st) v) as [s|] eqn:Ev; [|discriminate]. destruct (Inv_view st v s I Ev) as (KS & L & V & C).
    destruct (store_spec st v s (fun _ => True) Ev I) as (hs & WS & _ & _).
    destruct K as [K1 K2]. specialize (K2 L C).
    destruct (remove_ok _ s hs a0 len L (if len =? -1 then Z.of_nat (length L) - a0 else len) WS V R0 ltac:(lia)
      ltac:(destruct (Z.eqb_spec len (-1)); lia)) as [[h' s'] Er]. rewrite Er in E. discriminate.
  - destruct (nth_error (vars st) v) as [s|] eqn:Ev; [|discriminate]. destruct (Inv_view st v s I Ev) as (KS & L & V & C).
    destruct (store_spec st v s (fun _ => True) Ev I) as (hs & WS & _ & _). cbn in K. destruct (view_len _ s L KS V) as (LN & _).
    specialize (G L C). unfold delete_at in E. rewrite s32_small in E by lia. destruct (nth_some_lt L (Z.to_nat a0) ltac:(lia)) as [e En].
    rewrite (elem_ok _ s a0 L e KS V ltac:(lia) En) in E. cbn [obind] in E.
    destruct (remove_ok _ s hs a0 1 L 1 WS V R0 ltac:(lia) ltac:(right; lia)) as [[h' s'] Er]. rewrite Er in E. discriminate.
  - destruct (nth_error (vars st) v) as [s|] eqn:Ev; [|discriminate]. destruct (Inv_view st v s I Ev) as (KS & L & V & C).
    destruct (store_spec st v s (fun _ => True) Ev I) as (hs & WS & _ & _). destruct (view_len _ s L KS V) as (LN & _).
    specialize (G L C). assert (0 < Z.of_nat (length L)) by (destruct L; [congruence|cbn; lia]).
    unfold shift, cassert in E. destruct (Z.gtb_spec (s_num s) 0); [|lia].
    unfold delete_at in E. rewrite s32_small in E by lia. destruct (nth_some_lt L 0 ltac:(lia)) as [e En].
    rewrite (elem_ok _ s 0 L e KS V ltac:(lia) En) in E. cbn [obind] in E.
    destruct (remove_ok _ s hs 0 1 L 1 WS V R0 ltac:(lia) ltac:(right; lia)) as [[h' s'] Er]. rewrite Er in E. discriminate.
  - destruct (nth_error (vars st) v) as [s|] eqn:Ev; [|discriminate]. destruct (Inv_view st v s I Ev) as (KS & L & V & C).
    destruct (view_len _ s L KS V) as (LN & _). specialize (G L C). assert (0 < Z.of_nat (length L)) by (destruct L; [congruence|cbn; lia]).
    unfold pull, cassert in E. destruct (Z.gtb_spec (s_num s) 0); [|lia].
    destruct (nth_some_lt L (Z.to_nat (s_num s - 1)) ltac:(lia)) as [e En].
    rewrite (elem_ok _ s (s_num s - 1) L e KS V ltac:(lia) En) in E. discriminate.
  - destruct (nth_error (vars st) v) as [s|] eqn:Ev; [|discriminate]. discriminate.
Qed.
End Safe.
