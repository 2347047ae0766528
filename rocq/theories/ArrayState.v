(** Programs over array variables. *)
From Verif Require Import Base RefModel RefProofs LatchProofs ArrayModel ArraySpec ArrayProofs ArrayHeap ArrayOps.
From Coq Require Import Permutation.
Ltac Zify.zify_post_hook ::= Z.div_mod_to_equations.

Section St.
Context {A : Type}.
Implicit Types (h : heap A) (L : list A) (st : state A).

Definition Inv st : Prop := WF (hp st) (vars st).

Lemma init_inv n : Inv (init n : state A).
Proof.
  split.
  - intros b x Hb. cbn in Hb. destruct b; discriminate.
  - cbn. apply Forall_forall. intros s Hs. apply repeat_spec in Hs. subst. split; reflexivity.
Qed.

Lemma split_at {B} (l : list B) v s : nth_error l v = Some s -> exists l1 l2, l = l1 ++ s :: l2 /\ length l1 = v.
Proof. apply nth_error_split. Qed.
Lemma upd_split {B} (l1 l2 : list B) s t : upd (l1 ++ s :: l2) (length l1) t = l1 ++ t :: l2.
Proof. induction l1 as [|a l1 IH]; cbn; [reflexivity|]. rewrite IH. reflexivity. Qed.
Lemma perm_mid {B} (l1 l2 : list B) s : Permutation (l1 ++ s :: l2) (s :: l1 ++ l2).
Proof. symmetry. apply Permutation_middle. Qed.

Lemma nth_mid_ne {B} (l1 l2 : list B) s t w : w <> length l1 -> nth_error (l1 ++ t :: l2) w = nth_error (l1 ++ s :: l2) w.
Proof.
  intros H. destruct (Nat.lt_ge_cases w (length l1)); [rewrite !nth_error_app1 by assumption; reflexivity|].
  rewrite !nth_error_app2 by assumption. destruct (w - length l1)%nat eqn:E; [lia|reflexivity].
Qed.

(** The result of an operation on a state: invariant, new contents of the
    target, other variables unchanged. *)
Definition result st st' (d : nat) L : Prop :=
  Inv st' /\ length (vars st') = length (vars st) /\ contents st' d = Some L /\ (forall w, w <> d -> contents st' w = contents st w) /\
  (forall w t, w <> d -> nth_error (vars st) w = Some t -> nth_error (vars st') w = Some t /\ same_on (hp st) (hp st') t).

Lemma store_spec st v s (F : list slice -> Prop) :
  nth_error (vars st) v = Some s -> Inv st ->
  exists hs, WF (hp st) (s :: hs) /\ (forall w t, w <> v -> nth_error (vars st) w = Some t -> In t hs) /\
    (forall r L st', post (hp st) hs r L -> store st v (Ok r) = Ok st' -> result st st' v L).
Proof.
  intros E I. destruct (split_at _ _ _ E) as (l1 & l2 & EL & EV). exists (l1 ++ l2).
  split; [eapply WF_perm; [|exact I]; rewrite EL; apply perm_mid|]. split.
  - intros w t Hw Ht. rewrite EL in Ht. rewrite in_app_iff. destruct (Nat.lt_ge_cases w (length l1)).
    + left. rewrite nth_error_app1 in Ht by assumption. eapply nth_error_In; exact Ht.
    + right. rewrite nth_error_app2 in Ht by assumption. destruct (w - length l1)%nat eqn:K; [lia|]. eapply nth_error_In; exact Ht.
  - intros [h' s'] L st' (P1 & P2 & P3) H. cbn in H. injection H as <-. cbn [fst snd] in *.
    rewrite EL, <- EV, upd_split.
    assert (FR : forall w t, w <> length l1 -> nth_error (l1 ++ s :: l2) w = Some t -> In t (l1 ++ l2)).
    { intros w t Hw Et. rewrite in_app_iff. destruct (Nat.lt_ge_cases w (length l1)).
      - left. rewrite nth_error_app1 in Et by assumption. eapply nth_error_In; exact Et.
      - right. rewrite nth_error_app2 in Et by assumption. destruct (w - length l1)%nat eqn:K; [lia|]. eapply nth_error_In; exact Et. }
    unfold same_all in P2. rewrite Forall_forall in P2.
    split; [|split; [|split; [|split]]].
    + unfold Inv. cbn [hp vars]. eapply WF_perm; [|exact P1]. symmetry. apply perm_mid.
    + cbn [vars]. rewrite EL, !app_length. reflexivity.
    + unfold contents. cbn [hp vars]. rewrite nth_error_app2, Nat.sub_diag by lia. exact P3.
    + intros w Hw. unfold contents. cbn [hp vars]. rewrite (nth_mid_ne l1 l2 s s' w Hw). rewrite EL.
      destruct (nth_error (l1 ++ s :: l2) w) as [t|] eqn:Et; [|reflexivity]. apply same_view. apply P2. exact (FR w t Hw Et).
    + intros w t Hw Ht. cbn [hp vars]. rewrite EL in Ht. rewrite (nth_mid_ne l1 l2 s s' w Hw). split; [exact Ht|]. apply P2. exact (FR w t Hw Ht).
Qed.

Lemma assign_spec st d old r L : Inv st -> nth_error (vars st) d = Some old -> post (hp st) (vars st) r L ->
  exists st', assign st d (Ok r) = Ok st' /\ result st st' d L.
Proof.
  intros I E (P1 & P2 & P3). destruct r as [h tmp]. cbn [fst snd] in *. unfold assign. rewrite E. cbn [obind].
  destruct (split_at _ _ _ E) as (l1 & l2 & EL & EV).
  destruct (addref_spec h tmp (tmp :: vars st) P1 (WF_head _ _ _ P1)) as (h1 & E1 & W1 & SA1 & SO1). rewrite E1. cbn [obind].
  assert (W1' : WF h1 (old :: tmp :: tmp :: l1 ++ l2)).
  { eapply WF_perm; [|exact W1]. rewrite EL. rewrite (perm_mid l1 l2 old).
    change (old :: tmp :: tmp :: l1 ++ l2) with ((old :: nil) ++ tmp :: tmp :: l1 ++ l2).
    etransitivity; [|apply Permutation_middle]. constructor. etransitivity; [|apply Permutation_middle]. reflexivity. }
  destruct (release_spec h1 old _ W1') as (h2 & E2 & W2 & SA2). rewrite E2. cbn [obind].
  destruct (release_spec h2 tmp _ W2) as (h3 & E3 & W3 & SA3). rewrite E3. cbn [obind].
  eexists. split; [reflexivity|].
  inversion SA2 as [|? ? Q1 SA2']; subst. inversion SA2' as [|? ? _ SA2'']; subst.
  inversion SA3 as [|? ? Q3 SA3']; subst. inversion SA1 as [|? ? Q0 SA1']; subst.
  rewrite EL, upd_split.
  assert (FR : forall w t, w <> length l1 -> nth_error (l1 ++ old :: l2) w = Some t -> same_on (hp st) h3 t).
  { intros w t Hw Et. assert (IN : In t (l1 ++ l2)).
    { rewrite in_app_iff. destruct (Nat.lt_ge_cases w (length l1)).
      - left. rewrite nth_error_app1 in Et by assumption. eapply nth_error_In; exact Et.
      - right. rewrite nth_error_app2 in Et by assumption. destruct (w - length l1)%nat eqn:K; [lia|]. eapply nth_error_In; exact Et. }
    assert (IV : In t (vars st)) by (rewrite EL; rewrite in_app_iff in *; cbn; tauto).
    unfold same_all in *. rewrite Forall_forall in *.
    exact (same_trans _ _ _ _ (P2 t IV) (same_trans _ _ _ _ (SA1' t IV) (same_trans _ _ _ _ (SA2'' t IN) (SA3' t IN)))). }
  split; [|split; [|split; [|split]]].
  - unfold Inv. cbn [hp vars]. eapply WF_perm; [|exact W3]. symmetry. apply perm_mid.
  - cbn [vars]. rewrite EL, !app_length. reflexivity.
  - unfold contents. cbn [hp vars]. rewrite nth_error_app2, Nat.sub_diag by lia. cbn [nth_error].
    rewrite (same_view _ _ _ Q3), (same_view _ _ _ Q1), (same_view _ _ _ SO1). exact P3.
  - intros w Hw. unfold contents. cbn [hp vars]. rewrite (nth_mid_ne l1 l2 old tmp w Hw). rewrite EL.
    destruct (nth_error (l1 ++ old :: l2) w) as [t|] eqn:Et; [|reflexivity]. apply same_view. exact (FR w t Hw Et).
  - intros w t Hw Ht. cbn [hp vars]. rewrite EL in Ht. rewrite (nth_mid_ne l1 l2 old tmp w Hw). split; [exact Ht|exact (FR w t Hw Ht)].
Qed.

Lemma assign_inv st d r st' : Inv st -> assign st d r = Ok st' -> nth_error (vars st) d <> None ->
  (forall p, r = Ok p -> exists L, post (hp st) (vars st) p L) ->
  exists p L, r = Ok p /\ post (hp st) (vars st) p L /\ result st st' d L.
Proof.
  intros I H ND P. destruct (nth_error (vars st) d) as [old|] eqn:E; [|congruence].
  assert (H0 := H). unfold assign in H. rewrite E in H. apply obind_ok in H as (p & Er & _).
  destruct (P p Er) as [L PL]. subst r. destruct (assign_spec st d old p L I E PL) as (st2 & E2 & R).
  rewrite H0 in E2. injection E2 as <-. eauto.
Qed.

Lemma Inv_view st v s : Inv st -> nth_error (vars st) v = Some s -> slice_ok (hp st) s /\ exists L, view (hp st) s = Some L /\ contents st v = Some L.
Proof.
  intros [_ W] E. rewrite Forall_forall in W. assert (K := W s (nth_error_In _ _ E)). split; [exact K|].
  destruct (view_ok _ _ K) as (L & V & _). exists L. split; [exact V|]. unfold contents. rewrite E. exact V.
Qed.

(** d = v + a *)
Lemma plus_spec h s hs a r L : WF h hs -> slice_ok h s -> view h s = Some L -> plus h s a = Ok r -> post h hs r (L ++ [a]).
Proof.
  intros W K V H. destruct (view_len h s L K V) as (LN & LB & _). unfold plus in H. rewrite LN in H.
  apply obind_ok in H as (x & NB & H). apply obind_ok in H as (h1 & AR & H).
  destruct (new_body_spec _ L _ _ (view_src h s L V K) ltac:(lia) NB) as (VX & R0 & S0).
  destruct (fresh_spec h hs x L W VX ltac:(unfold stat; rewrite S0; exact R0)) as (h1' & E1 & F1 & (x' & NX & VX' & RX & SX) & NO).
  rewrite AR in E1. injection E1 as <-. cbv zeta in F1. destruct F1 as (W1 & SA & VW).
  destruct (push_spec h1 _ hs a r L W1 VW H) as (L' & (P1 & P2 & P3) & _ & P5).
  rewrite <- (P5 ltac:(intros ? ? _ _ _; reflexivity)).
  split; [exact P1|]. split; [eapply same_all_trans; eassumption|exact P3].
Qed.

(** d = v.drop(n) *)
Lemma drop_spec h s hs n r L : WF h hs -> slice_ok h s -> view h s = Some L -> 0 <= n < 2^31 -> drop h s n = Ok r ->
  post h hs r (skipn (Z.to_nat n) L).
Proof.
  intros W K V N0 H. destruct (view_len h s L K V) as (LN & LB & _). unfold drop, cassert in H.
  destruct (Z.geb_spec (s_num s) n); [|discriminate].
  destruct (copy_spec h s hs L W K V) as ([h1 s1] & C1 & (W1 & SA1 & V1)). rewrite C1 in H. cbn [obind fst snd] in *.
  apply obind_ok in H as ([h2 s2] & RM & H). cbn beta iota in H.
  rewrite s32_small in RM by lia.
  destruct (remove_spec h1 s1 hs 0 n (h2, s2) L n W1 V1 RM ltac:(lia) ltac:(right; lia)) as (L' & (W2 & SA2 & V2) & _ & P).
  cbn [fst snd] in *.
  assert (EL : L' = skipn (Z.to_nat n) L) by (rewrite P by tauto; reflexivity).
  destruct (copy_spec h2 s2 (s2 :: hs) L' W2 (WF_head _ _ _ W2) V2) as ([h3 s3] & C3 & (W3 & SA3 & V3)).
  rewrite C3 in H. cbn [obind fst snd] in *.
  assert (W3' : WF h3 (s2 :: s3 :: hs)) by (eapply WF_perm; [apply perm_swap|exact W3]).
  destruct (release_spec h3 s2 (s3 :: hs) W3') as (h4 & E4 & W4 & SA4). rewrite E4 in H. cbn [obind] in H. injection H as <-.
  inversion SA3 as [|? ? Q1 SA3']; subst. inversion SA4 as [|? ? Q2 SA4']; subst.
  split; [exact W4|]. split; [|cbn [fst snd]; rewrite (same_view _ _ _ Q2); exact V3].
  cbn [fst]. eapply same_all_trans; [exact SA1|]. eapply same_all_trans; [exact SA2|]. eapply same_all_trans; eassumption.
Qed.

(** ** One step *)
Definition dirty st (o : op A) : Prop := positional o = true -> unshared st (target o) -> at_start st (target o).

Lemma clean_of st v s : nth_error (vars st) v = Some s -> (unshared st v -> at_start st v) -> clean (hp st) s.
Proof.
  intros E H b x Eb Hb R. destruct H as (t & Et & Ot).
  - exists s, b, x. auto.
  - congruence.
Qed.

Lemma result_same st d L : Inv st -> contents st d = Some L -> result st st d L.
Proof.
  intros I C. split; [exact I|]. split; [reflexivity|]. split; [exact C|]. split; [reflexivity|]. intros w t _ Ht. split; [exact Ht|].
  destruct I as [_ W]. rewrite Forall_forall in W. exact (slice_same _ _ (W t (nth_error_In _ _ Ht))).
Qed.

Lemma slice_expected L at_ len : 0 <= at_ -> -1 <= len ->
  (if at_ >=? Z.of_nat (length L) then [] else l_slice L (Z.to_nat at_) (Z.to_nat (slice_len L at_ len))) =
  (let rest := skipn (Z.to_nat at_) L in if len =? -1 then rest else firstn (Z.to_nat len) rest).
Proof.
  intros H1 H2. cbv zeta. destruct (Z.geb_spec at_ (Z.of_nat (length L))).
  - rewrite skipn_all2 by lia. rewrite firstn_nil. destruct (len =? -1); reflexivity.
  - unfold slice_len, l_slice. destruct (Z.eqb_spec len (-1)); cbn [orb].
    + apply firstn_all2. rewrite skipn_length. lia.
    + destruct (Z.gtb_spec len (Z.of_nat (length L) - at_)); [|reflexivity].
      rewrite !firstn_all2 by (rewrite skipn_length; lia). reflexivity.
Qed.

Lemma slice_op_len h s at_ len r : slice_op h s at_ len = Ok r -> -1 <= len.
Proof. unfold slice_op, cassert. destruct (Z.geb_spec len (-1)); [lia|discriminate]. Qed.

Ltac noop := first
  [ left; unfold contents; cbn [target]; match goal with E : nth_error _ _ = None |- _ => rewrite E end; reflexivity
  | right; cbn [expected]; unfold contents; match goal with E : nth_error _ _ = None |- _ => rewrite E end; reflexivity
  | right; cbn [expected]; unfold contents; match goal with E : nth_error _ ?w = None |- _ => rewrite E end;
    match goal with |- match ?x with _ => _ end = _ => destruct x; reflexivity end ].

Lemma step_spec st o st' : Inv st -> op_ok st o -> step st o = Ok st' ->
  (st' = st /\ (contents st (target o) = None \/ expected st o = None)) \/ exists L, result st st' (target o) L /\ (dirty st o -> expected st o = Some L).
Proof.
  intros I K H.
  assert (ASG : forall d r, assign st d r = Ok st' -> d = target o ->
     (forall p, r = Ok p -> exists L, post (hp st) (vars st) p L /\ (expected st o = Some L)) ->
     (st' = st /\ (contents st (target o) = None \/ expected st o = None)) \/ exists L, result st st' (target o) L /\ (dirty st o -> expected st o = Some L)).
  { intros d r HA -> P. destruct (nth_error (vars st) (target o)) as [old|] eqn:E.
    - assert (HA0 := HA). unfold assign in HA. rewrite E in HA. apply obind_ok in HA as (p & Er & _).
      destruct (P p Er) as (L & PL & EX). subst r. destruct (assign_spec st _ old p L I E PL) as (st2 & E2 & R).
      rewrite HA0 in E2. injection E2 as <-. right. exists L. auto.
    - unfold assign in HA. rewrite E in HA. injection HA as <-. left. split; [reflexivity|]. left. unfold contents. rewrite E. reflexivity. }
  assert (W := I). unfold Inv in W.
  destruct o as [d l al|d l|d|d v|d v a0 len|d v n|d v n|d v n|d v a|d v n|v i a|v a|v pos w|v a0 len|v a0|v|v|v]; cbn [step] in H.
  - eapply ASG; [exact H|reflexivity|]. intros p E. exists l. split; [|reflexivity]. eapply make_spec; [exact W|apply K|exact E].
  - eapply ASG; [exact H|reflexivity|]. intros p E. exists l. split; [|reflexivity]. eapply make_static_spec; [exact W|apply K|exact E].
  - eapply ASG; [exact H|reflexivity|]. intros p E. injection E as <-. exists []. split; [|reflexivity]. apply null_spec. exact W.
  - destruct (nth_error (vars st) v) as [s|] eqn:Ev; [|injection H as <-; left; split; [reflexivity|noop]].
    destruct (Inv_view st v s I Ev) as (KS & L & V & C).
    eapply ASG; [exact H|reflexivity|]. intros p E. exists L. split; [|exact C].
    destruct (copy_spec (hp st) s (vars st) L W KS V) as (r & E2 & P). rewrite E in E2. injection E2 as <-. exact P.
  - destruct (nth_error (vars st) v) as [s|] eqn:Ev; [|injection H as <-; left; split; [reflexivity|noop]].
    destruct (Inv_view st v s I Ev) as (KS & L & V & C). destruct K as [K1 K2]. unfold is_index in K1.
    eapply ASG; [exact H|reflexivity|]. intros p E. eexists. split; [eapply slice_op_spec; [exact W|exact KS|exact V| |exact E]; lia|].
    cbn [expected]. rewrite C. f_equal. symmetry. apply slice_expected; [lia|eapply slice_op_len; exact E].
  - destruct (nth_error (vars st) v) as [s|] eqn:Ev; [|injection H as <-; left; split; [reflexivity|noop]].
    destruct (Inv_view st v s I Ev) as (KS & L & V & C). cbn in K. unfold head in H.
    rewrite s32_small in H by lia.
    eapply ASG; [exact H|reflexivity|]. intros p E. eexists. split; [eapply slice_op_spec; [exact W|exact KS|exact V| |exact E]; lia|].
    cbn [expected]. rewrite C. f_equal. rewrite slice_expected by lia. destruct (Z.eqb_spec n (-1)); [lia|]. reflexivity.
  - destruct (nth_error (vars st) v) as [s|] eqn:Ev; [|injection H as <-; left; split; [reflexivity|noop]].
    destruct (Inv_view st v s I Ev) as (KS & L & V & C). cbn in K. unfold tail in H.
    destruct (view_len _ s L KS V) as (LN & LB & _).
    rewrite s32_small in H by lia. pose proof (u32_range (s_num s - n)) as UR.
    eapply ASG; [exact H|reflexivity|]. intros p E. eexists. split; [eapply slice_op_spec; [exact W|exact KS|exact V| |exact E]; lia|].
    cbn [expected]. rewrite C. f_equal. destruct (Z.leb_spec n (Z.of_nat (length L))).
    + assert (U : u32 (s_num s - n) = s_num s - n) by (unfold u32; apply Z.mod_small; lia). rewrite U.
      rewrite slice_expected by lia. destruct (Z.eqb_spec n (-1)); [lia|]. cbv zeta.
      replace (Z.to_nat (s_num s - n)) with (length L - Z.to_nat n)%nat by lia.
      symmetry. apply firstn_all2. rewrite skipn_length. lia.
    + assert (U : u32 (s_num s - n) = s_num s - n + 2^32).
      { unfold u32. replace (s_num s - n) with (s_num s - n + 2^32 + (-1) * 2^32) by lia. rewrite Z.mod_add by lia. rewrite Z.mod_small; lia. }
      rewrite U. destruct (Z.geb_spec (s_num s - n + 2^32) (Z.of_nat (length L))); [reflexivity|lia].
  - destruct (nth_error (vars st) v) as [s|] eqn:Ev; [|injection H as <-; left; split; [reflexivity|noop]].
    destruct (Inv_view st v s I Ev) as (KS & L & V & C). destruct K as [K1 K2]. specialize (K2 L C). unfold shorter in H.
    destruct (view_len _ s L KS V) as (LN & LB & _). rewrite s32_small in H by lia.
    eapply ASG; [exact H|reflexivity|]. intros p E. eexists. split; [eapply slice_op_spec; [exact W|exact KS|exact V| |exact E]; lia|].
    cbn [expected]. rewrite C. f_equal. rewrite slice_expected by lia. destruct (Z.eqb_spec (s_num s - n) (-1)); [lia|].
    cbn [Z.to_nat skipn]. f_equal. lia.
  - destruct (nth_error (vars st) v) as [s|] eqn:Ev; [|injection H as <-; left; split; [reflexivity|noop]].
    destruct (Inv_view st v s I Ev) as (KS & L & V & C).
    eapply ASG; [exact H|reflexivity|]. intros p E. exists (L ++ [a]). split; [eapply plus_spec; eassumption|]. cbn [expected]. rewrite C. reflexivity.
  - destruct (nth_error (vars st) v) as [s|] eqn:Ev; [|injection H as <-; left; split; [reflexivity|noop]].
    destruct (Inv_view st v s I Ev) as (KS & L & V & C). cbn in K.
    eapply ASG; [exact H|reflexivity|]. intros p E. eexists. split; [eapply drop_spec; [exact W|exact KS|exact V|exact K|exact E]|].
    cbn [expected]. rewrite C. reflexivity.
  - destruct (nth_error (vars st) v) as [s|] eqn:Ev; [|injection H as <-; left; split; [reflexivity|noop]].
    destruct (Inv_view st v s I Ev) as (KS & L & V & C). destruct (store_spec st v s (fun _ => True) Ev I) as (hs & WS & _ & ST).
    unfold store in H. apply obind_ok in H as (r & E & H). right. destruct (set_spec _ s hs i a r L WS V E) as [_ P].
    eexists. split; [exact (ST r _ st' P ltac:(cbn [store obind]; exact H))|]. intros _. cbn [expected]. rewrite C. reflexivity.
  - destruct (nth_error (vars st) v) as [s|] eqn:Ev; [|injection H as <-; left; split; [reflexivity|noop]].
    destruct (Inv_view st v s I Ev) as (KS & L & V & C). destruct (store_spec st v s (fun _ => True) Ev I) as (hs & WS & _ & ST).
    unfold store in H. apply obind_ok in H as (r & E & H). right. destruct (push_spec _ s hs a r L WS V E) as (L' & P & _ & Q).
    exists L'. split; [exact (ST r _ st' P ltac:(cbn [store obind]; exact H))|]. intros D. cbn [expected target] in *. rewrite C.
    rewrite Q; [reflexivity|]. exact (clean_of st v s Ev (D eq_refl)).
  - destruct (nth_error (vars st) v) as [s|] eqn:Ev; [|injection H as <-; left; split; [reflexivity|noop]].
    destruct (nth_error (vars st) w) as [t|] eqn:Ew; [|injection H as <-; left; split; [reflexivity|noop]].
    destruct (Inv_view st v s I Ev) as (KS & L & V & C). destruct (Inv_view st w t I Ew) as (KT & LT & VT & CT).
    destruct K as (NE & P0 & PB). specialize (PB L C).
    destruct (store_spec st v s (fun _ => True) Ev I) as (hs & WS & IN & ST).
    unfold store in H. apply obind_ok in H as (r & E & H). right.
    destruct (Nat.eqb_spec v w); [contradiction|].
    destruct (insert_spec _ s hs pos t r L LT WS (IN w t ltac:(congruence) Ew) V VT ltac:(lia) E) as (L' & P & _ & Q).
    exists L'. split; [exact (ST r _ st' P ltac:(cbn [store obind]; exact H))|]. intros D. cbn [expected target] in *. rewrite C, CT.
    rewrite Q; [reflexivity|]. exact (clean_of st v s Ev (D eq_refl)).
  - destruct (nth_error (vars st) v) as [s|] eqn:Ev; [|injection H as <-; left; split; [reflexivity|noop]].
    destruct (Inv_view st v s I Ev) as (KS & L & V & C). destruct (store_spec st v s (fun _ => True) Ev I) as (hs & WS & _ & ST).
    destruct K as [K1 K2]. specialize (K2 L C).
    unfold store in H. apply obind_ok in H as (r & E & H). right.
    destruct (remove_spec _ s hs a0 len r L (if len =? -1 then Z.of_nat (length L) - a0 else len) WS V E ltac:(lia)
      ltac:(destruct (Z.eqb_spec len (-1)); lia)) as (L' & P & _ & Q).
    exists L'. split; [exact (ST r _ st' P ltac:(cbn [store obind]; exact H))|]. intros D. cbn [expected target] in *. rewrite C.
    rewrite Q by (left; exact (clean_of st v s Ev (D eq_refl))). f_equal.
    destruct (len =? -1); [|reflexivity]. unfold l_remove. rewrite (skipn_all2 L) by lia. rewrite app_nil_r. reflexivity.
  - destruct (nth_error (vars st) v) as [s|] eqn:Ev; [|injection H as <-; left; split; [reflexivity|noop]].
    destruct (Inv_view st v s I Ev) as (KS & L & V & C). destruct (store_spec st v s (fun _ => True) Ev I) as (hs & WS & _ & ST).
    cbn in K. apply obind_ok in H as ([r e] & E & H). right. unfold delete_at in E. apply obind_ok in E as (e' & EE & E).
    apply obind_ok in E as (r' & E & EQ). injection EQ as <- <-. rewrite s32_small in EE by lia.
    destruct (elem_spec _ s _ _ L KS V EE) as [_ NE]. apply nth_lt in NE.
    destruct (remove_spec _ s hs a0 1 r' L 1 WS V E ltac:(lia) ltac:(right; lia)) as (L' & P & _ & Q).
    exists L'. split; [exact (ST r' _ st' P H)|]. intros D. cbn [expected target] in *. rewrite C.
    rewrite Q by (left; exact (clean_of st v s Ev (D eq_refl))). reflexivity.
  - destruct (nth_error (vars st) v) as [s|] eqn:Ev; [|injection H as <-; left; split; [reflexivity|noop]].
    destruct (Inv_view st v s I Ev) as (KS & L & V & C). destruct (store_spec st v s (fun _ => True) Ev I) as (hs & WS & _ & ST).
    apply obind_ok in H as ([r e] & E & H). right. unfold shift, cassert in E. destruct (_ >? _) in E; [|discriminate].
    unfold delete_at in E. apply obind_ok in E as (e' & EE & E).
    apply obind_ok in E as (r' & E & EQ). injection EQ as <- <-. rewrite s32_small in EE by lia.
    destruct (elem_spec _ s _ _ L KS V EE) as [_ NE]. apply nth_lt in NE.
    destruct (remove_spec _ s hs 0 1 r' L 1 WS V E ltac:(lia) ltac:(right; lia)) as (L' & P & _ & Q).
    exists L'. split; [exact (ST r' _ st' P H)|]. intros D. cbn [expected target] in *. rewrite C.
    rewrite Q by tauto. destruct L; reflexivity.
  - destruct (nth_error (vars st) v) as [s|] eqn:Ev; [|injection H as <-; left; split; [reflexivity|noop]].
    destruct (Inv_view st v s I Ev) as (KS & L & V & C). destruct (store_spec st v s (fun _ => True) Ev I) as (hs & WS & _ & ST).
    apply obind_ok in H as ([r e] & E & H). right. destruct (pull_spec _ s hs r e L WS V E) as (L' & P & Q).
    exists L'. split; [exact (ST r _ st' P H)|]. intros D. cbn [expected target] in *. rewrite C. subst L. rewrite removelast_last. reflexivity.
  - destruct (nth_error (vars st) v) as [s|] eqn:Ev; [|injection H as <-; left; split; [reflexivity|noop]].
    destruct (Inv_view st v s I Ev) as (KS & L & V & C). destruct (store_spec st v s (fun _ => True) Ev I) as (hs & WS & _ & ST).
    unfold store in H. apply obind_ok in H as (r & E & H). right.
    exists []. split; [exact (ST r _ st' (clear_spec _ s hs r L WS V E) ltac:(cbn [store obind]; exact H))|]. intros _. cbn [expected]. rewrite C. reflexivity.
Qed.

Lemma run_inv os : forall st st', Inv st -> hist_ok st os -> run st os = Ok st' -> Inv st' /\ length (vars st') = length (vars st).
Proof.
  induction os as [|o os IH]; intros st st' I K H.
  - injection H as <-. auto.
  - cbn [run] in H. apply obind_ok in H as (s1 & E & H). cbn [hist_ok] in K. destruct K as [K1 K2]. rewrite E in K2.
    destruct (step_spec st o s1 I K1 E) as [[-> _]|(L & (I1 & LL & _) & _)]; [eapply IH; eassumption|].
    destruct (IH s1 st' I1 K2 H) as [I2 L2]. split; [exact I2|congruence].
Qed.
End St.
