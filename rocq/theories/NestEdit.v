(** Nested arrays: what editing does to the storage. *)
From Verif Require Import Base RefModel RefProofs NestModel NestSpec NestProofs.

(** Body [b] is [x], with one reference from outside; [R] are all others. *)
Definition Mine (h : heap) (R : list nat) (b : nat) (x : body) : Prop :=
  Inv h (b :: R) /\ live h b x /\ b_refs x = 1%nat.

Lemma mine_alone h R b x : Mine h R b x -> ~ In b R /\ cnt b (all_kids h) = 0%nat.
Proof.
  intros (I & L & E). destruct (alone h _ b x I L E) as [A1 A2]; [left; reflexivity|]. split; [|exact A2].
  intros H. apply cnt_in in H. rewrite cnt_cons in A1. destruct (Nat.eq_dec b b); [lia|contradiction].
Qed.
Lemma mine_cell h R b x e c : Mine h R b x -> In e (b_cells x) -> In c (owned e) -> c <> b /\ exists y, live h c y.
Proof.
  intros M He Hc. destruct (mine_alone _ _ _ _ M) as [_ Z]. destruct M as (I & L & _).
  assert (K : In c (kids x)) by (eapply owned_kids; eauto). split; [|eapply inv_kid; eauto].
  intros ->. pose proof (cnt_in _ _ (kids_in _ _ _ _ L K)). lia.
Qed.
Lemma mine_root h R b x c : Mine h R b x -> In c R -> c <> b /\ exists y, live h c y.
Proof.
  intros M Hc. destruct (mine_alone _ _ _ _ M) as [Z _]. destruct M as (I & _ & _). split; [congruence|].
  apply (inv_root h _ c I). right. exact Hc.
Qed.
Lemma mine_perm h R R' b x : (forall c, cnt c R = cnt c R') -> Mine h R b x -> Mine h R' b x.
Proof. intros H (I & L & E). split; [|auto]. revert I. apply inv_perm. intros c. rewrite !cnt_cons, H. reflexivity. Qed.

Lemma drop_mine h todo R b x : Mine h (todo ++ R) b x -> exists h', drop h todo = Ok h' /\ Mine h' R b x /\ stays h h'.
Proof.
  intros M. pose proof (mine_alone _ _ _ _ M) as [A1 A2]. destruct M as (I & L & E).
  destruct (drop_ok h todo (b :: R)) as (h' & E1 & I' & S).
  { revert I. apply inv_perm. intros c. rewrite cnt_cons, !cnt_app, cnt_cons. lia. }
  exists h'. split; [exact E1|]. split; [|exact S].
  destruct (stays_live h h' _ b x I' S (or_introl eq_refl) L) as (x' & L' & N & C).
  assert (Z : cnt b (all_kids h') = 0%nat).
  { destruct (cnt b (all_kids h')) eqn:Q; [reflexivity|]. assert (J : In b (all_kids h')) by (apply in_cnt; lia).
    unfold all_kids in J. apply in_flat_map in J. destruct J as ([p|] & HP & HK); [|contradiction]. cbn [okids] in HK.
    apply In_nth_error in HP. destruct HP as (q & Lq). destruct (S q p Lq) as (p0 & L0 & _ & C0).
    assert (K0 : In b (kids p0)) by (unfold kids in *; rewrite <- C0; exact HK).
    pose proof (cnt_in _ _ (kids_in _ _ _ _ L0 K0)). lia. }
  assert (RX : b_refs x' = 1%nat).
  { destruct I' as [I' _]. specialize (I' b). unfold live in L'. rewrite L' in I'. rewrite Z, cnt_cons in I'.
    destruct (Nat.eq_dec b b); [|contradiction]. assert (cnt b R = 0%nat); [|lia].
    destruct (cnt b R) eqn:Q; [reflexivity|]. exfalso. apply A1. apply in_or_app. right. apply in_cnt. lia. }
  assert (x' = x). { destruct x, x'. cbn in *. congruence. } subst x'. split; [exact I'|]. split; assumption.
Qed.
Lemma copies_mine h bs R b x : Mine h R b x -> (forall c, In c bs -> c <> b /\ exists y, live h c y) ->
  exists h', copies h bs = Ok h' /\ Mine h' (bs ++ R) b x /\ stays h h'.
Proof.
  intros (I & L & E) HB. destruct (copies_ok bs h (b :: R) I) as (h' & E1 & I' & S & K & _ & _).
  { intros c Hc. apply HB, Hc. }
  exists h'. split; [exact E1|]. split; [|exact S]. split; [|split; [|exact E]].
  - revert I'. apply inv_perm. intros c. rewrite cnt_cons, !cnt_app, cnt_cons. lia.
  - apply K; [|exact L]. intros H. destruct (HB b H) as [N _]. congruence.
Qed.

Lemma nth_upd_any {A} (l : list A) i j a : (i < length l)%nat -> nth_error (upd l i a) j = if Nat.eqb j i then Some a else nth_error l j.
Proof.
  intros H. destruct (Nat.eqb_spec j i) as [->|N]; [|apply nth_upd_ne; congruence].
  destruct (nth_error l i) eqn:Q; [eapply nth_upd_eq; eauto|]. apply nth_error_None in Q. lia.
Qed.
Lemma upd_upd {A} (l : list A) i a b : upd (upd l i a) i b = upd l i b.
Proof. revert i. induction l as [|c l IH]; intros [|i]; cbn; try reflexivity. f_equal. apply IH. Qed.
Lemma cnt_cells_upd l i old e c : nth_error l i = Some old ->
  (cnt c (flat_map owned (upd l i e)) + cnt c (owned old) = cnt c (flat_map owned l) + cnt c (owned e))%nat.
Proof.
  revert i. induction l as [|y l IH]; intros [|i] H; cbn in H; try discriminate.
  - injection H as ->. cbn [upd flat_map]. rewrite !cnt_app. lia.
  - cbn [upd flat_map]. rewrite !cnt_app. specialize (IH i H). lia.
Qed.

(** Storing into a cell: the reference that was there is outside now. *)
Lemma store_mine h R R' b x i old e : Mine h R b x -> nth_error (b_cells x) i = Some old ->
  (forall c, (cnt c (owned e) + cnt c R' = cnt c (owned old) + cnt c R)%nat) ->
  exists h', store h b i e = Ok h' /\ Mine h' R' b (mkbody 1 (b_num x) (upd (b_cells x) i e)) /\ frame b h h'.
Proof.
  intros M N E. pose proof (mine_alone _ _ _ _ M) as [A1 A2]. destruct M as (I & L & RX). unfold store. rewrite (get_live _ _ _ L). cbn [obind].
  assert (LT : (i < length (b_cells x))%nat) by (apply nth_error_Some; congruence).
  rewrite (proj2 (Nat.ltb_lt _ _) LT). eexists. split; [reflexivity|]. rewrite RX.
  destruct (poke_ok h (b :: R) (b :: R') b x (mkbody 1 (b_num x) (upd (b_cells x) i e)) I L RX) as (I' & F & L' & _); try (left; reflexivity); try reflexivity.
  - cbn [b_num b_cells]. rewrite upd_length. destruct I as (_ & _ & SZ). exact (SZ b x L).
  - intros c. unfold kids. cbn [b_cells]. pose proof (cnt_cells_upd _ _ _ e c N). specialize (E c). rewrite !cnt_cons. lia.
  - split; [split; [exact I'|split; [exact L'|reflexivity]]|exact F].
Qed.

(** *** Assigning to a cell *)
Lemma assign_cell_ok h R b x i e : Mine h R b x -> (i < length (b_cells x))%nat -> (forall c, In c (owned e) -> c <> b /\ exists y, live h c y) ->
  exists h', assign_cell h b i e = Ok h' /\ Mine h' R b (mkbody 1 (b_num x) (upd (b_cells x) i e)) /\ frame b h h'.
Proof.
  intros M LT HE. unfold assign_cell, copy.
  destruct (copies_mine h (owned e) R b x M HE) as (h1 & E1 & M1 & S1). rewrite E1. cbn [obind].
  destruct (nth_error (b_cells x) i) as [old|] eqn:N; [|apply nth_error_None in N; lia].
  unfold load. rewrite (get_live h1 b x) by apply M1. cbn [obind]. rewrite N. cbn [obind].
  destruct (store_mine h1 _ (owned old ++ owned e ++ R) b x i old Nil M1 N) as (h2 & E2 & M2 & F2).
  { intros c. cbn [owned]. rewrite cnt_nil, !cnt_app. lia. }
  rewrite E2. cbn [obind]. destruct (drop_mine _ _ _ _ _ M2) as (h3 & E3 & M3 & S3). rewrite E3. cbn [obind].
  destruct (copies_mine h3 (owned e) _ b _ M3) as (h4 & E4 & M4 & S4).
  { intros c Hc. apply (mine_root _ _ _ _ c M3). apply in_or_app. left. exact Hc. }
  rewrite E4. cbn [obind].
  destruct (store_mine h4 _ (owned e ++ R) b _ i Nil e M4) as (h5 & E5 & M5 & F5).
  { cbn [b_cells]. rewrite nth_upd_any, Nat.eqb_refl by lia. reflexivity. }
  { intros c. cbn [owned]. rewrite cnt_nil, !cnt_app. lia. }
  rewrite E5. cbn [obind]. cbn [b_num b_cells] in M5. rewrite upd_upd in M5.
  destruct (drop_mine _ _ _ _ _ M5) as (h6 & E6 & M6 & S6). exists h6. split; [exact E6|]. split; [exact M6|].
  eapply frame_trans; [apply stays_frame, S1|]. eapply frame_trans; [exact F2|]. eapply frame_trans; [apply stays_frame, S3|].
  eapply frame_trans; [apply stays_frame, S4|]. eapply frame_trans; [exact F5|]. apply stays_frame, S6.
Qed.

(** What frames keep: elements that are cells of [b] or belong to [R]. *)
Lemma mine_denote h h' R b x f e t : Mine h' R b x -> frame b h h' -> (In e (b_cells x) \/ incl (owned e) R) ->
  denote f h e = Some t -> denote f h' e = Some t.
Proof.
  intros M F H. apply (denote_frame b h h' (b :: R)); [apply M|exact F|apply (mine_alone _ _ _ _ M)|].
  intros c Hc. destruct H as [H|H]; [eapply mine_cell; eauto|apply (mine_root _ _ _ _ c M), H, Hc].
Qed.

(** Bodies that stay while [b] changes: [R] and what is in the cells of [R]. *)
Definition safe (h : heap) (R : list nat) (c : nat) : Prop := In c R \/ exists q p, In q R /\ live h q p /\ In c (kids p).
Lemma safe_live h R b x c : Mine h R b x -> safe h R c -> c <> b /\ exists y, live h c y.
Proof.
  intros M [H|(q & p & Hq & L & K)]; [eapply mine_root; eauto|]. destruct (mine_alone _ _ _ _ M) as [_ Z]. destruct M as (I & _ & _).
  split; [|eapply inv_kid; eauto]. intros ->. pose proof (cnt_in _ _ (kids_in _ _ _ _ L K)). lia.
Qed.
Lemma safe_frame h h' R b x c : Mine h' R b x -> frame b h h' -> safe h R c -> safe h' R c.
Proof.
  intros M F [H|(q & p & Hq & L & K)]; [left; exact H|]. right. destruct (mine_root _ _ _ _ q M Hq) as (N & p' & L').
  destruct (F q p' N L') as (p0 & L0 & _ & C). rewrite (live_det _ _ _ _ L L0) in K. exists q, p'. split; [exact Hq|]. split; [exact L'|].
  unfold kids in *. rewrite C. exact K.
Qed.

(** *** The loops *)
Lemma move_up_ok k : forall h R b x pos n, Mine h R b x -> (pos + k + n <= length (b_cells x))%nat ->
  exists h' l, move_up k h b pos n = Ok h' /\ Mine h' R b (mkbody 1 (b_num x) l) /\ frame b h h' /\ length l = length (b_cells x) /\
    forall j, nth_error l j = if ((pos + n <=? j) && (j <? pos + n + k))%nat then nth_error (b_cells x) (j - n) else nth_error (b_cells x) j.
Proof.
  induction k as [|k IH]; intros h R b x pos n M LT; cbn [move_up].
  - exists h, (b_cells x). split; [reflexivity|]. split; [destruct M as (I & L & E); destruct x; cbn in *; subst; split; auto|]. split; [apply frame_refl|]. split; [reflexivity|].
    intros j. destruct (Nat.leb_spec (pos + n) j), (Nat.ltb_spec j (pos + n + 0)); cbn; try reflexivity. lia.
  - unfold load. rewrite (get_live h b x) by apply M. cbn [obind].
    destruct (nth_error (b_cells x) (pos + k)) as [e|] eqn:N; [|apply nth_error_None in N; lia]. cbn [obind].
    destruct (assign_cell_ok h R b x (pos + k + n) e M ltac:(lia)) as (h1 & E1 & M1 & F1).
    { intros c Hc. eapply mine_cell; eauto. eapply nth_error_In; eauto. }
    rewrite E1. cbn [obind]. destruct (IH h1 R b _ pos n M1) as (h2 & l & E2 & M2 & F2 & LL & NL); [cbn [b_cells]; rewrite upd_length; lia|].
    exists h2, l. split; [exact E2|]. split; [exact M2|]. split; [eapply frame_trans; eauto|]. cbn [b_cells] in *. rewrite upd_length in LL. split; [exact LL|].
    intros j. rewrite NL, !nth_upd_any by lia.
    destruct (Nat.leb_spec (pos + n) j), (Nat.ltb_spec j (pos + n + k)), (Nat.ltb_spec j (pos + n + S k)); cbn [andb]; try lia.
    + destruct (Nat.eqb_spec (j - n) (pos + k + n)); [lia|reflexivity].
    + destruct (Nat.eqb_spec j (pos + k + n)); [|lia]. replace (j - n)%nat with (pos + k)%nat by lia. congruence.
    + destruct (Nat.eqb_spec j (pos + k + n)); [lia|reflexivity].
    + destruct (Nat.eqb_spec j (pos + k + n)); [lia|reflexivity].
Qed.

Lemma fill_ok es : forall h R b x pos, Mine h R b x -> (pos + length es <= length (b_cells x))%nat -> (forall e c, In e es -> In c (owned e) -> safe h R c) ->
  exists h' l, fill h b pos es = Ok h' /\ Mine h' R b (mkbody 1 (b_num x) l) /\ frame b h h' /\ length l = length (b_cells x) /\
    forall j, nth_error l j = if ((pos <=? j) && (j <? pos + length es))%nat then nth_error es (j - pos) else nth_error (b_cells x) j.
Proof.
  induction es as [|e es IH]; intros h R b x pos M LT HE; cbn [fill].
  - exists h, (b_cells x). split; [reflexivity|]. split; [destruct M as (I & L & E); destruct x; cbn in *; subst; split; auto|]. split; [apply frame_refl|]. split; [reflexivity|].
    intros j. cbn [length]. destruct (Nat.leb_spec pos j), (Nat.ltb_spec j (pos + 0)); cbn; try reflexivity. lia.
  - cbn [length] in LT.
    destruct (assign_cell_ok h R b x pos e M ltac:(lia)) as (h1 & E1 & M1 & F1).
    { intros c Hc. apply (safe_live _ _ _ _ c M). eapply HE; [left; reflexivity|exact Hc]. }
    rewrite E1. cbn [obind]. destruct (IH h1 R b _ (S pos) M1) as (h2 & l & E2 & M2 & F2 & LL & NL).
    { cbn [b_cells]. rewrite upd_length. lia. }
    { intros e' c A B. apply (safe_frame h h1 R b _ c M1 F1). eapply HE; [right; exact A|exact B]. }
    exists h2, l. split; [exact E2|]. split; [exact M2|]. split; [eapply frame_trans; eauto|]. cbn [b_cells] in *. rewrite upd_length in LL. split; [exact LL|].
    intros j. rewrite NL, !nth_upd_any by lia. cbn [length].
    destruct (Nat.leb_spec (S pos) j), (Nat.ltb_spec j (S pos + length es)), (Nat.leb_spec pos j), (Nat.ltb_spec j (pos + S (length es))); cbn [andb]; try lia.
    + replace (j - pos)%nat with (S (j - S pos))%nat by lia. reflexivity.
    + destruct (Nat.eqb_spec j pos); [lia|reflexivity].
    + destruct (Nat.eqb_spec j pos); [|lia]. subst. rewrite Nat.sub_diag. reflexivity.
    + destruct (Nat.eqb_spec j pos); [lia|reflexivity].
Qed.

Lemma move_down_ok k : forall h R b x i n, Mine h R b x -> (i + k + n <= length (b_cells x))%nat ->
  exists h' l, move_down k h b i n = Ok h' /\ Mine h' R b (mkbody 1 (b_num x) l) /\ frame b h h' /\ length l = length (b_cells x) /\
    forall j, nth_error l j = if ((i <=? j) && (j <? i + k))%nat then nth_error (b_cells x) (j + n) else nth_error (b_cells x) j.
Proof.
  induction k as [|k IH]; intros h R b x i n M LT; cbn [move_down].
  - exists h, (b_cells x). split; [reflexivity|]. split; [destruct M as (I & L & E); destruct x; cbn in *; subst; split; auto|]. split; [apply frame_refl|]. split; [reflexivity|].
    intros j. destruct (Nat.leb_spec i j), (Nat.ltb_spec j (i + 0)); cbn; try reflexivity. lia.
  - unfold load. rewrite (get_live h b x) by apply M. cbn [obind].
    destruct (nth_error (b_cells x) (i + n)) as [e|] eqn:N; [|apply nth_error_None in N; lia]. cbn [obind].
    destruct (assign_cell_ok h R b x i e M ltac:(lia)) as (h1 & E1 & M1 & F1).
    { intros c Hc. eapply mine_cell; eauto. eapply nth_error_In; eauto. }
    rewrite E1. cbn [obind]. destruct (IH h1 R b _ (S i) n M1) as (h2 & l & E2 & M2 & F2 & LL & NL); [cbn [b_cells]; rewrite upd_length; lia|].
    exists h2, l. split; [exact E2|]. split; [exact M2|]. split; [eapply frame_trans; eauto|]. cbn [b_cells] in *. rewrite upd_length in LL. split; [exact LL|].
    intros j. rewrite NL, !nth_upd_any by lia.
    destruct (Nat.leb_spec (S i) j), (Nat.ltb_spec j (S i + k)), (Nat.leb_spec i j), (Nat.ltb_spec j (i + S k)); cbn [andb]; try lia.
    + destruct (Nat.eqb_spec (j + n) i); [lia|reflexivity].
    + destruct (Nat.eqb_spec j i); [lia|reflexivity].
    + destruct (Nat.eqb_spec j i); [|lia]. subst. congruence.
    + destruct (Nat.eqb_spec j i); [lia|reflexivity].
Qed.

(** *** Storage *)
Lemma round8_ge n : (n <= round8 n)%nat.
Proof. unfold round8. destruct n as [|m]; [lia|]. pose proof (Nat.div_mod m 8 ltac:(lia)). pose proof (Nat.mod_upper_bound m 8 ltac:(lia)). lia. Qed.
Lemma padded_kids n l : flat_map owned (padded n l) = flat_map owned l.
Proof.
  unfold padded. rewrite flat_map_app. assert (Z : forall k, flat_map owned (repeat Nil k) = []) by (induction k; cbn; auto).
  rewrite Z, app_nil_r. reflexivity.
Qed.
Lemma padded_length n l : (length l <= length (padded n l))%nat /\ (n <= length (padded n l))%nat.
Proof. unfold padded. rewrite app_length, repeat_length. lia. Qed.
Lemma padded_firstn n l k : (k <= length l)%nat -> firstn k (padded n l) = firstn k l.
Proof. intros H. unfold padded. rewrite firstn_app. replace (k - length l)%nat with 0%nat by lia. cbn. apply app_nil_r. Qed.

Lemma resize_ok h R b x m : Mine h R b x -> (b_num x <= m)%nat ->
  exists h' l, resize h b m = Ok h' /\ Mine h' R b (mkbody 1 (b_num x) l) /\ frame b h h' /\ (m <= length l)%nat /\
    firstn (b_num x) l = firstn (b_num x) (b_cells x).
Proof.
  intros M LE. unfold resize. rewrite (get_live h b x) by apply M. cbn [obind].
  assert (SZ : (b_num x <= length (b_cells x))%nat) by (destruct M as ((_ & _ & S) & L & _); exact (S b x L)).
  destruct (Nat.leb_spec m (length (b_cells x))) as [G|G].
  - exists h, (b_cells x). split; [reflexivity|]. split; [destruct M as (I & L & E); destruct x; cbn in *; subst; split; auto|]. split; [apply frame_refl|]. auto.
  - set (l := firstn (b_num x) (b_cells x)).
    destruct (copies_mine h (flat_map owned l) R b x M) as (h1 & E1 & M1 & S1).
    { intros c Hc. apply in_flat_map in Hc. destruct Hc as (e & He & Hc). eapply mine_cell; eauto.
      unfold l in He. rewrite <- (firstn_skipn (b_num x) (b_cells x)). apply in_or_app. left. exact He. }
    rewrite E1. cbn [obind]. rewrite (get_live h1 b x) by apply M1. cbn [obind].
    set (x2 := mkbody (b_refs x) (b_num x) (padded (grow (length (b_cells x)) m) l)).
    assert (LL : length l = b_num x) by (unfold l; apply firstn_length_le; exact SZ).
    destruct M1 as (I1 & L1 & RX1).
    destruct (poke_ok h1 _ (b :: kids x ++ R) b x x2 I1 L1 RX1) as (I2 & F2 & L2 & _); try (left; reflexivity).
    { exact RX1. }
    { cbn [x2 b_num b_cells]. pose proof (padded_length (grow (length (b_cells x)) m) l). lia. }
    { intros c. unfold kids at 1. cbn [x2 b_cells]. rewrite padded_kids, !cnt_cons, !cnt_app. lia. }
    assert (M2 : Mine (set_body h1 b x2) (kids x ++ R) b x2) by (split; [exact I2|split; [exact L2|exact RX1]]).
    destruct (drop_mine _ _ _ _ _ M2) as (h3 & E3 & M3 & S3).
    exists h3, (padded (grow (length (b_cells x)) m) l). split; [exact E3|]. split; [|split; [|split]].
    + unfold x2 in M3. rewrite RX1 in M3. exact M3.
    + eapply frame_trans; [apply stays_frame, S1|]. eapply frame_trans; [exact F2|]. apply stays_frame, S3.
    + pose proof (proj2 (padded_length (grow (length (b_cells x)) m) l)). pose proof (round8_ge m). unfold grow in *. lia.
    + rewrite padded_firstn by lia. unfold l. rewrite firstn_firstn, Nat.min_id. reflexivity.
Qed.

Lemma set_num_ok h R b x n : Mine h R b x -> (n <= length (b_cells x))%nat ->
  exists h', set_num h b n = Ok h' /\ Mine h' R b (mkbody 1 n (b_cells x)) /\ frame b h h'.
Proof.
  intros (I & L & RX) LE. unfold set_num. rewrite (get_live _ _ _ L). cbn [obind]. eexists. split; [reflexivity|]. rewrite RX.
  destruct (poke_ok h _ (b :: R) b x (mkbody 1 n (b_cells x)) I L RX) as (I' & F & L' & _); try (left; reflexivity); try reflexivity; try exact LE.
  split; [split; [exact I'|split; [exact L'|reflexivity]]|exact F].
Qed.

Lemma new_body_ok h R alloc l : Inv h (flat_map owned l ++ R) ->
  Mine (fst (new_body h alloc l)) R (snd (new_body h alloc l)) (mkbody 1 (length l) (padded (round8 alloc) l)) /\
  frame (snd (new_body h alloc l)) h (fst (new_body h alloc l)) /\
  (forall c y, live h c y -> live (fst (new_body h alloc l)) c y).
Proof.
  intros I0. cbn [new_body fst snd]. set (x := mkbody 1 (length l) (padded (round8 alloc) l)).
  assert (KX : kids x = flat_map owned l) by (unfold kids; cbn [x b_cells]; apply padded_kids).
  assert (NEW : forall k, In k (kids x) -> (k < length h)%nat).
  { intros k Hk. rewrite KX in Hk. destruct (inv_root h _ k I0) as (y & L). { apply in_or_app. left. exact Hk. } exact (live_lt _ _ _ L). }
  assert (LN : live (h ++ [Some x]) (length h) x) by (unfold live; rewrite nth_error_app2, Nat.sub_diag by lia; reflexivity).
  assert (OLD : forall c y, live h c y -> live (h ++ [Some x]) c y).
  { intros c y Lc. unfold live in *. rewrite nth_error_app1; [exact Lc|]. apply nth_error_Some. congruence. }
  assert (INV : forall c y, live (h ++ [Some x]) c y -> (c = length h /\ y = x) \/ (c <> length h /\ live h c y)).
  { intros c y Lc. unfold live in Lc. destruct (Nat.lt_ge_cases c (length h)) as [Hc|Hc].
    - rewrite nth_error_app1 in Lc by lia. right. split; [lia|exact Lc].
    - rewrite nth_error_app2 in Lc by lia. left. destruct (c - length h)%nat as [|[|?]] eqn:EC; cbn in Lc; try discriminate. split; [lia|congruence]. }
  destruct I0 as (I & (rk & DN) & SZ). split; [|split].
  - split; [|split; [exact LN|reflexivity]]. split; [|split].
    + intros c. unfold all_kids. rewrite flat_map_app, cnt_app. cbn [flat_map okids]. rewrite app_nil_r, cnt_cons, KX.
      specialize (I c). rewrite cnt_app in I. unfold all_kids in *. destruct (Nat.eq_dec (length h) c) as [<-|N].
      * unfold live in LN. rewrite LN. assert (X : nth_error h (length h) = None) by (apply nth_error_None; lia). rewrite X in I. cbn [x b_refs]. lia.
      * destruct (Nat.lt_ge_cases c (length h)) as [Hc|Hc].
        -- rewrite nth_error_app1 by lia. destruct (nth_error h c) as [[y|]|]; lia.
        -- assert (X : nth_error h c = None) by (apply nth_error_None; lia). rewrite X in I.
           rewrite (proj2 (nth_error_None (h ++ [Some x]) c)) by (rewrite app_length; cbn; lia). lia.
    + set (m := list_max (map rk (kids x))). exists (fun c => if Nat.eqb c (length h) then S m else rk c). intros c y k Lc Hk. apply INV in Lc.
      destruct Lc as [[-> ->]|[N Lc]].
      * rewrite Nat.eqb_refl. pose proof (NEW k Hk). destruct (Nat.eqb_spec k (length h)); [lia|].
        assert (rk k <= m)%nat; [|lia]. assert (G := proj1 (list_max_le (map rk (kids x)) m) (Nat.le_refl _)). rewrite Forall_forall in G.
        apply G. apply in_map. exact Hk.
      * destruct (Nat.eqb_spec c (length h)); [contradiction|]. destruct (Nat.eqb_spec k (length h)) as [->|Nk]; [|exact (DN c y k Lc Hk)].
        exfalso. specialize (I (length h)). rewrite (proj2 (nth_error_None h (length h))) in I by lia.
        pose proof (cnt_in _ _ (kids_in _ _ _ _ Lc Hk)). lia.
    + intros c y Lc. apply INV in Lc. destruct Lc as [[-> ->]|[N Lc]]; [|exact (SZ c y Lc)]. cbn [x b_num b_cells]. apply padded_length.
  - intros c y N Lc. apply INV in Lc. destruct Lc as [[-> _]|[_ Lc]]; [contradiction|]. exists y. auto.
  - exact OLD.
Qed.

Lemma nth_firstn {A} (l : list A) n i : nth_error (firstn n l) i = if (i <? n)%nat then nth_error l i else None.
Proof.
  revert l i. induction n as [|n IH]; intros l i; [destruct i; reflexivity|]. destruct l as [|a l].
  - cbn [firstn]. destruct i; cbn [nth_error]; destruct (Nat.ltb _ (S n)); reflexivity.
  - destruct i as [|i]; [reflexivity|]. cbn [firstn nth_error]. rewrite IH. reflexivity.
Qed.
Lemma nth_skipn {A} (l : list A) n i : nth_error (skipn n l) i = nth_error l (n + i).
Proof. revert l. induction n as [|n IH]; intros [|a l]; cbn; try reflexivity; [destruct i; reflexivity|]. apply IH. Qed.
Lemma nth_ext_eq {A} (l l' : list A) : (forall i, nth_error l i = nth_error l' i) -> l = l'.
Proof.
  revert l'. induction l as [|a l IH]; intros [|a' l'] H; [reflexivity|specialize (H 0%nat); discriminate|specialize (H 0%nat); discriminate|].
  f_equal; [specialize (H 0%nat); cbn in H; congruence|]. apply IH. intros i. exact (H (S i)).
Qed.
Lemma nth_app {A} (l l' : list A) i : nth_error (l ++ l') i = if (i <? length l)%nat then nth_error l i else nth_error l' (i - length l).
Proof. destruct (Nat.ltb_spec i (length l)); [apply nth_error_app1|apply nth_error_app2]; lia. Qed.
Lemma nth_none {A} (l : list A) i : (length l <= i)%nat -> nth_error l i = None.
Proof. apply nth_error_None. Qed.

(** *** Inserting into and removing from the storage; [n] is the length of an
    array that starts it. *)
Lemma body_insert_ok h R b x pos n es : Mine h R b x -> (pos <= n)%nat -> (n <= b_num x)%nat -> (forall e c, In e es -> In c (owned e) -> safe h R c) ->
  exists h' l, body_insert h b pos es = Ok h' /\ Mine h' R b (mkbody 1 (b_num x + length es) l) /\ frame b h h' /\
    (b_num x + length es <= length l)%nat /\ firstn (n + length es) l = firstn pos (b_cells x) ++ es ++ skipn pos (firstn n (b_cells x)).
Proof.
  intros M LP LN HE. unfold body_insert. rewrite (get_live h b x) by apply M. cbn [obind]. destruct M as (I & L & RX). rewrite RX. cbn [Nat.leb cassert].
  assert (SZ : (b_num x <= length (b_cells x))%nat) by (destruct I as (_ & _ & S); exact (S b x L)).
  assert (G : forall l, (forall j, (j < n + length es)%nat -> nth_error l j = nth_error (firstn pos (b_cells x) ++ es ++ skipn pos (firstn n (b_cells x))) j) ->
    firstn (n + length es) l = firstn pos (b_cells x) ++ es ++ skipn pos (firstn n (b_cells x))).
  { intros l H. apply nth_ext_eq. intros j. rewrite nth_firstn. destruct (Nat.ltb_spec j (n + length es)); [apply H; lia|].
    symmetry. apply nth_none. rewrite !app_length, skipn_length, !firstn_length. lia. }
  destruct es as [|e0 es0] eqn:EE.
  - exists h, (b_cells x). split; [reflexivity|]. cbn [length]. split; [destruct x; cbn in *; subst; rewrite Nat.add_0_r; split; auto|].
    split; [apply frame_refl|]. split; [lia|]. apply G. intros j Hj. cbn [length] in Hj. cbn [app].
    rewrite nth_app, nth_firstn, nth_skipn, nth_firstn, firstn_length, Nat.min_l by lia.
    destruct (Nat.ltb_spec j pos); [reflexivity|]. replace (pos + (j - pos))%nat with j by lia. destruct (Nat.ltb_spec j n); [reflexivity|lia].
  - rewrite <- EE in *. assert (M : Mine h R b x) by (split; auto).
    rewrite (proj2 (Nat.leb_le pos (b_num x))) by lia. cbn [cassert].
    destruct (resize_ok h R b x (b_num x + length es) M ltac:(lia)) as (h1 & l1 & E1 & M1 & F1 & LL1 & V1). rewrite E1. cbn [obind].
    destruct (move_up_ok (b_num x - pos) h1 R b _ pos (length es) M1) as (h2 & l2 & E2 & M2 & F2 & LL2 & N2); [cbn [b_cells]; lia|].
    rewrite E2. cbn [obind]. destruct (fill_ok es h2 R b _ pos M2) as (h3 & l3 & E3 & M3 & F3 & LL3 & N3); [cbn [b_cells] in *; lia| |].
    { intros e c A B. apply (safe_frame h1 h2 R b _ c M2 F2), (safe_frame h h1 R b _ c M1 F1). eapply HE; eauto. }
    rewrite E3. cbn [obind]. cbn [b_cells b_num] in *.
    destruct (set_num_ok h3 R b _ (b_num x + length es) M3) as (h4 & E4 & M4 & F4); [cbn [b_cells]; lia|].
    exists h4, l3. split; [exact E4|]. split; [exact M4|]. split.
    { eapply frame_trans; [exact F1|]. eapply frame_trans; [exact F2|]. eapply frame_trans; [exact F3|exact F4]. }
    split; [lia|]. apply G. intros j Hj.
    assert (V : forall i, (i < b_num x)%nat -> nth_error l1 i = nth_error (b_cells x) i).
    { intros i Hi. pose proof (f_equal (fun l => nth_error l i) V1) as Q. cbn beta in Q. rewrite !nth_firstn in Q. rewrite (proj2 (Nat.ltb_lt i (b_num x)) Hi) in Q. exact Q. }
    rewrite N3, N2, !nth_app, nth_firstn, nth_skipn, nth_firstn, firstn_length, Nat.min_l by lia.
    destruct (Nat.ltb_spec j pos), (Nat.leb_spec pos j), (Nat.ltb_spec j (pos + length es)); cbn [andb]; try lia.
    + destruct (Nat.leb_spec (pos + length es) j); cbn [andb]; [lia|]. apply V. lia.
    + destruct (Nat.ltb_spec (j - pos) (length es)); [reflexivity|lia].
    + destruct (Nat.leb_spec (pos + length es) j); cbn [andb]; [|lia]. destruct (Nat.ltb_spec j (pos + length es + (b_num x - pos))); [|lia].
      destruct (Nat.ltb_spec (j - pos) (length es)); [lia|]. rewrite V by lia. replace (pos + (j - pos - length es))%nat with (j - length es)%nat by lia.
      destruct (Nat.ltb_spec (j - length es) n); [reflexivity|lia].
Qed.

Lemma body_remove_ok h R b x pos k n : Mine h R b x -> (pos + k <= n)%nat -> (pos < n)%nat -> (n <= b_num x)%nat ->
  exists h' l, body_remove h b pos k = Ok h' /\ Mine h' R b (mkbody 1 (b_num x - k) l) /\ frame b h h' /\
    (b_num x - k <= length l)%nat /\ firstn (n - k) l = firstn pos (b_cells x) ++ skipn (pos + k) (firstn n (b_cells x)).
Proof.
  intros M LP LT LN. unfold body_remove. rewrite (get_live h b x) by apply M. cbn [obind].
  assert (RX : b_refs x = 1%nat) by apply M. rewrite RX, (proj2 (Nat.ltb_lt pos (b_num x))) by lia. cbn [Nat.leb andb cassert].
  assert (SZ : (b_num x <= length (b_cells x))%nat) by (destruct M as ((_ & _ & S) & L & _); exact (S b x L)).
  destruct (move_down_ok (b_num x - k - pos) h R b x pos k M ltac:(lia)) as (h1 & l & E1 & M1 & F1 & LL & NL). rewrite E1. cbn [obind].
  destruct (set_num_ok h1 R b _ (b_num x - k) M1) as (h2 & E2 & M2 & F2); [cbn [b_cells]; lia|]. cbn [b_cells] in *.
  exists h2, l. split; [exact E2|]. split; [exact M2|]. split; [eapply frame_trans; eauto|]. split; [lia|].
  apply nth_ext_eq. intros j. rewrite nth_firstn, NL, nth_app, nth_firstn, nth_skipn, nth_firstn, firstn_length, Nat.min_l by lia.
  destruct (Nat.ltb_spec j (n - k)), (Nat.ltb_spec j pos), (Nat.leb_spec pos j); cbn [andb]; try lia; try reflexivity.
  - destruct (Nat.ltb_spec j (pos + (b_num x - k - pos))); [|lia]. replace (pos + k + (j - pos))%nat with (j + k)%nat by lia.
    destruct (Nat.ltb_spec (j + k) n); [reflexivity|lia].
  - destruct (Nat.ltb_spec (pos + k + (j - pos)) n); [lia|reflexivity].
Qed.

(** *** Unshare *)
Lemma elements_view h s l : elements h s = Some l -> view h s = Ok l /\ length l = s_len s.
Proof.
  unfold elements, view, get. destruct (s_body s) as [b|].
  - destruct (nth_error h b) as [[x|]|]; try discriminate. destruct (Nat.leb_spec (s_off s + s_len s) (b_num x)); cbn [andb]; [|discriminate].
    destruct (Nat.leb_spec (b_num x) (length (b_cells x))); [|discriminate]. intros E. injection E as <-. split; [reflexivity|].
    rewrite firstn_length, skipn_length. lia.
  - destruct (Nat.eqb_spec (s_len s) 0); [|discriminate]. intros E. injection E as <-. auto.
Qed.
Lemma elements_live h s b x : s_body s = Some b -> live h b x -> (s_off s + s_len s <= b_num x)%nat -> (b_num x <= length (b_cells x))%nat ->
  elements h s = Some (firstn (s_len s) (skipn (s_off s) (b_cells x))).
Proof.
  intros B L H1 H2. unfold elements, live in *. rewrite B, L, (proj2 (Nat.leb_le _ _) H1), (proj2 (Nat.leb_le _ _) H2). reflexivity.
Qed.
Lemma elements_body h s b l : s_body s = Some b -> elements h s = Some l -> exists x, live h b x /\ (s_off s + s_len s <= b_num x)%nat /\
  (b_num x <= length (b_cells x))%nat /\ l = firstn (s_len s) (skipn (s_off s) (b_cells x)).
Proof.
  unfold elements, live. intros B. rewrite B. destruct (nth_error h b) as [[x|]|]; try discriminate. destruct (Nat.leb_spec (s_off s + s_len s) (b_num x)); cbn [andb]; [|discriminate].
  destruct (Nat.leb_spec (b_num x) (length (b_cells x))); [|discriminate]. intros E. injection E as <-. exists x. auto.
Qed.

(** An array that starts its storage when it is alone on it. *)
Definition good_start (h : heap) (s : slice) : Prop := forall b x, s_body s = Some b -> live h b x -> b_refs x = 1%nat -> s_off s = 0%nat.

Lemma unshare_ok h R s l extra : Inv h (owned (Arr s) ++ R) -> elements h s = Some l ->
  exists h' b x s', unshare h s extra = Ok (h', b, s') /\ Mine h' R b x /\ frame b h h' /\ s_body s' = Some b /\ s_len s' = s_len s /\
    elements h' s' = Some l /\ (good_start h s -> s_off s' = 0%nat).
Proof.
  intros I EL. destruct (elements_view _ _ _ EL) as [V LL]. unfold unshare. destruct (s_body s) as [b|] eqn:B.
  - destruct (elements_body _ _ _ _ B EL) as (x & L & H1 & H2 & EQ). rewrite (get_live _ _ _ L). cbn [obind].
    rewrite (owned_arr _ _ B) in I. destruct (Nat.leb_spec (b_refs x) 1) as [G|G].
    + assert (RX : b_refs x = 1%nat) by (destruct I as [I _]; specialize (I b); unfold live in L; rewrite L in I; lia).
      exists h, b, x, s. split; [reflexivity|]. split; [split; [exact I|auto]|]. split; [apply frame_refl|]. split; [exact B|]. split; [reflexivity|].
      split; [exact EL|]. intros GS. exact (GS b x B L RX).
    + rewrite V. cbn [obind].
      destruct (copies_ok (flat_map owned l) h _ I) as (h1 & E1 & I1 & S1 & _ & K1 & _).
      { intros c Hc. apply in_flat_map in Hc. destruct Hc as (e & He & Hc). eapply inv_kid; [exact I|exact L|]. eapply owned_kids; [|exact Hc].
        eapply elements_in; eauto. }
      rewrite E1. cbn [obind].
      destruct (new_body_ok h1 ([b] ++ R) (s_len s + extra) l I1) as (M2 & F2 & _). destruct (new_body h1 (s_len s + extra) l) as [h2 b'] eqn:NB. cbn [fst snd] in *.
      destruct (drop_mine h2 [b] R b' _ M2) as (h3 & E3 & M3 & S3). rewrite E3. cbn [obind].
      eexists h3, b', _, _. split; [reflexivity|]. split; [exact M3|]. cbn [s_body s_len s_off]. split; [|split; [reflexivity|split; [reflexivity|split; [|reflexivity]]]].
      * eapply frame_trans; [apply stays_frame, S1|]. eapply frame_trans; [exact F2|]. apply stays_frame, S3.
      * rewrite (elements_live h3 _ b' (mkbody 1 (length l) (padded (round8 (s_len s + extra)) l))); cbn [s_body s_off s_len b_num b_cells]; try reflexivity; try apply M3; [|lia|apply padded_length].
        rewrite skipn_O, padded_firstn by lia. rewrite <- LL, firstn_all. reflexivity.
  - assert (LN : s_len s = 0%nat). { unfold elements in EL. rewrite B in EL. destruct (Nat.eqb_spec (s_len s) 0); [assumption|discriminate]. }
    assert (l = []) by (destruct l; [reflexivity|cbn in LL; lia]). subst l. rewrite (owned_null _ B) in I.
    destruct (new_body_ok h R extra [] I) as (M2 & F2 & _). destruct (new_body h extra []) as [h2 b'] eqn:NB. cbn [fst snd] in *.
    eexists h2, b', _, _. split; [reflexivity|]. split; [exact M2|]. cbn [s_body s_len s_off]. split; [exact F2|]. split; [reflexivity|]. split; [reflexivity|]. split; [|reflexivity].
    rewrite (elements_live h2 _ b' (mkbody 1 0 (padded (round8 extra) []))); cbn [s_body s_off s_len b_num b_cells]; try reflexivity; try apply M2; rewrite ?LN; [reflexivity|cbn; lia|lia].
Qed.
