From Verif Require Import Base RefModel RefProofs LatchModel.

Definition busy (p : lpc) : bool := match p with LHoldChk | LHoldUnl => true | _ => false end.

Definition LInv (s : lstate) : Prop :=
  length (linside s) = length (lpcs s) /\ length (lresult s) = length (lpcs s) /\
  (forall t, inside s t -> lowner s = Some t /\ exists p, nth_error (lpcs s) t = Some p /\ busy p = false) /\
  (forall t p, nth_error (lpcs s) t = Some p -> busy p = true -> lowner s = Some t) /\
  (forall t, lowner s = Some t -> inside s t \/ exists p, nth_error (lpcs s) t = Some p /\ busy p = true).

Lemma linit_inv nt : LInv (linit nt).
Proof.
  unfold LInv, linit, inside; simpl. rewrite !repeat_length. repeat split; auto.
  - apply nth_error_In, repeat_spec in H. discriminate.
  - apply nth_error_In, repeat_spec in H. discriminate.
  - intros t p H. apply nth_error_In, repeat_spec in H. subst. discriminate.
  - discriminate.
Qed.

Lemma upd_bool_inv (l : list bool) t b u : nth_error (upd l t b) u = Some true ->
  (u = t /\ b = true) \/ (u <> t /\ nth_error l u = Some true).
Proof. intros H. apply nth_upd_inv in H as [(-> & E & _)|H]; auto. Qed.

(** A state change by thread t: new owner, new pc, new inside flag. *)
Lemma LInv_intro s t q o p b r :
  LInv s -> nth_error (lpcs s) t = Some q ->
  length r = length (lpcs s) ->
  (forall u, u <> t -> (lowner s = Some u <-> o = Some u)) ->
  (o = Some t <-> b = true \/ busy p = true) -> (b = true -> busy p = false) ->
  LInv {| lowner := o; lpcs := upd (lpcs s) t p; linside := upd (linside s) t b; lresult := r |}.
Proof.
  intros (L1 & L2 & I1 & I2 & I3) Hq Lr O1 O2 BP.
  assert (Ht : (t < length (lpcs s))%nat) by (apply nth_error_Some; congruence).
  assert (NB : nth_error (upd (linside s) t b) t = Some b).
  { destruct (nth_error (linside s) t) eqn:E; [eapply nth_upd_eq; exact E|apply nth_error_None in E; lia]. }
  assert (NP : nth_error (upd (lpcs s) t p) t = Some p) by (eapply nth_upd_eq; exact Hq).
  unfold LInv, inside; simpl. rewrite !upd_length. split; [exact L1|]. split; [exact Lr|]. split; [|split].
  - intros u Hu. apply upd_bool_inv in Hu as [[-> ->]|[N Hu]].
    + split; [apply O2; auto|]. exists p. auto.
    + destruct (I1 u Hu) as [A (p' & B & C)]. split; [apply O1; auto|]. exists p'. rewrite nth_upd_ne by auto. auto.
  - intros u p' Hu Bp. apply nth_upd_inv in Hu as [(-> & -> & _)|(N & Hu)].
    + apply O2; auto.
    + apply O1; [exact N|]. exact (I2 u p' Hu Bp).
  - intros u Hu. destruct (Nat.eq_dec u t) as [->|N].
    + apply O2 in Hu as [-> |Hb]; [left; exact NB|right; exists p; auto].
    + apply O1 in Hu; [|exact N]. destruct (I3 u Hu) as [A|(p' & A & B)].
      * left. rewrite nth_upd_ne by auto. exact A.
      * right. exists p'. rewrite nth_upd_ne by auto. auto.
Qed.

Lemma upd_same {A} (l : list A) i x : nth_error l i = Some x -> upd l i x = l.
Proof. revert i. induction l as [|a l IH]; intros [|i] H; simpl in *; try discriminate; [congruence|]. rewrite IH; auto. Qed.

Lemma inside_flag s t q : LInv s -> nth_error (lpcs s) t = Some q -> exists b, nth_error (linside s) t = Some b.
Proof.
  intros (L1 & _) H. destruct (nth_error (linside s) t) eqn:E; [eauto|]. apply nth_error_None in E.
  assert (t < length (lpcs s))%nat by (apply nth_error_Some; congruence). lia.
Qed.

(** Same, when the inside flag does not change. *)
Lemma LInv_lset s t q o p b r :
  LInv s -> nth_error (lpcs s) t = Some q -> nth_error (linside s) t = Some b ->
  length r = length (lpcs s) ->
  (forall u, u <> t -> (lowner s = Some u <-> o = Some u)) ->
  (o = Some t <-> b = true \/ busy p = true) -> (b = true -> busy p = false) ->
  LInv {| lowner := o; lpcs := upd (lpcs s) t p; linside := linside s; lresult := r |}.
Proof.
  intros I Hq Hb Lr O1 O2 BP. rewrite <- (upd_same _ _ _ Hb).
  eapply LInv_intro; eassumption.
Qed.

Lemma owner_iff s t q b : LInv s -> nth_error (lpcs s) t = Some q -> nth_error (linside s) t = Some b ->
  (lowner s = Some t <-> b = true \/ busy q = true).
Proof.
  intros (_ & _ & I1 & I2 & I3) Hq Hb. split.
  - intros H. destruct (I3 t H) as [A|(p & A & B)]; [left; unfold inside in A; congruence|right; congruence].
  - intros [-> |H]; [apply (I1 t Hb)|exact (I2 t q Hq H)].
Qed.

Lemma lstep_inv debug s e s' : LInv s -> lstep debug s e = Ok s' -> LInv s'.
Proof.
  intros I H. assert (I0 := I). destruct I0 as (L1 & L2 & I1 & I2 & I3).
  destruct e as [t|t|t|t|t]; cbn [lstep] in H; destruct (nth_error (lpcs s) t) as [q|] eqn:Hq;
    try (inversion H; subst; exact I).
  all: destruct (inside_flag s t q I Hq) as [b Hb]; assert (OI := owner_iff s t q b I Hq Hb).
  - destruct q; inversion H; subst; try exact I. eapply LInv_lset; try eassumption; try tauto; auto.
  - destruct q; inversion H; subst; try exact I. destruct (lowner s) as [u|] eqn:Eo; inversion H; subst.
    + unfold lres.
      assert (X : LInv {| lowner := lowner s; lpcs := upd (lpcs s) t LIdle; linside := linside s; lresult := upd (lresult s) t (Some false) |}).
      { eapply LInv_lset; try eassumption; rewrite ?upd_length; try tauto; auto. rewrite Eo. exact OI. }
      rewrite (upd_same _ _ _ Hq) in X. exact X.
    + unfold lres, lins, lset; simpl. eapply LInv_intro; try eassumption; rewrite ?upd_length; auto.
      * intros v Nv. rewrite Eo. split; intros X; [discriminate|congruence].
      * tauto.
  - destruct q; inversion H; subst; try exact I. eapply LInv_lset; try eassumption; try tauto; auto.
  - destruct q; inversion H; subst; try exact I. eapply LInv_lset; try eassumption; try tauto; auto.
    + destruct debug; exact OI.
    + destruct debug; auto.
  - destruct q; try (inversion H; subst; exact I).
    + unfold mlock in H. destruct (lowner s) as [u|] eqn:Eo.
      * destruct (Nat.eqb_spec u t) as [->|N]; [|inversion H; subst; exact I].
        destruct debug; [discriminate|]. inversion H; subst. unfold lins, lset; simpl.
        eapply LInv_intro; try eassumption; auto; rewrite ?Eo; try tauto; auto.
      * inversion H; subst. unfold lins, lset; simpl. eapply LInv_intro; try eassumption; auto; [|tauto].
        intros v Nv. rewrite Eo. split; intros X; congruence.
    + unfold mlock in H. destruct (lowner s) as [u|] eqn:Eo.
      * destruct (Nat.eqb_spec u t) as [->|N]; [|inversion H; subst; exact I].
        inversion H; subst. unfold lres, lset; simpl.
        eapply LInv_lset; try eassumption; rewrite ?upd_length; auto; rewrite ?Eo; try tauto; auto.
      * inversion H; subst. unfold lset.
        assert (b = false) by (destruct b; [pose proof (proj2 OI (or_introl eq_refl)); discriminate|reflexivity]). subst b.
        eapply LInv_lset; try eassumption; auto.
        -- intros v Nv. rewrite Eo. split; intros X; congruence.
        -- destruct debug; simpl; tauto.
        -- discriminate.
    + assert (Eo := I2 t _ Hq eq_refl). unfold mlock in H. rewrite Eo, Nat.eqb_refl in H. inversion H; subst.
      unfold lset. eapply LInv_lset; try eassumption; auto; rewrite ?Eo; try (simpl; tauto).
      intros ->. destruct (I1 t Hb) as [_ (p & A & B)]. rewrite Hq in A. injection A as <-. discriminate.
    + assert (Eo := I2 t _ Hq eq_refl). unfold munlock in H. rewrite Eo, Nat.eqb_refl in H. inversion H; subst.
      assert (b = false).
      { destruct b; [|reflexivity]. destruct (I1 t Hb) as [_ (p & A & B)]. rewrite Hq in A. injection A as <-. discriminate. }
      subst b. unfold lset, lres; simpl. eapply LInv_lset; try eassumption; rewrite ?upd_length; auto.
      * intros v Nv. rewrite Eo. split; intros X; congruence.
      * simpl. split; [discriminate|]. intros [X|X]; discriminate.
    + unfold mlock in H. destruct (lowner s) as [u|] eqn:Eo; [|discriminate].
      destruct (Nat.eqb_spec u t) as [->|N]; [|inversion H; subst; exact I].
      inversion H; subst. unfold lset. eapply LInv_lset; try eassumption; auto; rewrite ?Eo; try tauto; auto.
    + inversion H; subst. unfold lins, lset, munlock; simpl. eapply LInv_intro; try eassumption; auto.
      * intros v Nv. destruct (lowner s) as [u|]; [|tauto]. destruct (Nat.eqb_spec u t); [subst|tauto]. split; congruence.
      * split; [|intros [X|X]; discriminate]. destruct (lowner s) as [u|] eqn:Eo; [|discriminate].
        destruct (Nat.eqb_spec u t); [discriminate|congruence].
Qed.

Lemma lrun_inv debug es : forall s s', LInv s -> lrun debug s es = Ok s' -> LInv s'.
Proof.
  induction es as [|e es IH]; intros s s' I H; [inversion H; subst; exact I|].
  cbn [lrun] in H. apply obind_ok in H as (s1 & E & H). eapply IH; [|exact H]. eapply lstep_inv; eassumption.
Qed.

Lemma inside_unique s t u : LInv s -> inside s t -> inside s u -> t = u.
Proof. intros (_ & _ & I1 & _) A B. apply I1 in A as [A _]. apply I1 in B as [B _]. congruence. Qed.

(** Discipline *)
Definition DInv (s : lstate) : Prop :=
  forall t p, nth_error (lpcs s) t = Some p ->
    match p with LEnter => ~ inside s t | LLeaveChk | LLeaveUnl => inside s t | _ => True end.

Lemma dstep_ok debug s e : LInv s -> DInv s -> disciplined s e -> exists s', lstep debug s e = Ok s' /\ DInv s'.
Proof.
  intros I D P. assert (I0 := I). destruct I0 as (L1 & L2 & I1 & I2 & I3).
  assert (K : forall t p o r, (match p with LEnter => ~ inside s t | LLeaveChk | LLeaveUnl => inside s t | _ => True end) ->
     DInv {| lowner := o; lpcs := upd (lpcs s) t p; linside := linside s; lresult := r |}).
  { intros t p o r Hp u q Hu. simpl in Hu. apply nth_upd_inv in Hu as [(-> & -> & _)|(_ & Hu)]; [exact Hp|exact (D u q Hu)]. }
  assert (K2 : forall t b o r, DInv {| lowner := o; lpcs := upd (lpcs s) t LIdle; linside := upd (linside s) t b; lresult := r |}).
  { intros t b o r u q Hu. simpl in Hu. apply nth_upd_inv in Hu as [(-> & -> & _)|(N & Hu)]; [exact Logic.I|].
    specialize (D u q Hu). unfold inside in *. simpl. rewrite nth_upd_ne by auto. exact D. }
  destruct e as [t|t|t|t|t]; cbn [lstep]; destruct (nth_error (lpcs s) t) as [q|] eqn:Hq; try (eexists; split; [reflexivity|exact D]).
  - destruct q; eexists; (split; [reflexivity|]); try exact D. apply K. exact P.
  - destruct q; try (eexists; split; [reflexivity|exact D]).
    destruct (lowner s) as [u|]; eexists; (split; [reflexivity|]).
    + intros v p Hv. exact (D v p Hv).
    + apply K2.
  - destruct q; eexists; (split; [reflexivity|]); try exact D. apply K. exact Logic.I.
  - destruct q; eexists; (split; [reflexivity|]); try exact D. apply K. destruct debug; exact P.
  - assert (Dq := D t q Hq). destruct q; try (eexists; split; [reflexivity|exact D]).
    + unfold mlock. destruct (lowner s) as [u|] eqn:Eo; [|eexists; split; [reflexivity|apply K2]].
      destruct (Nat.eqb_spec u t) as [->|N]; [|eexists; split; [reflexivity|exact D]].
      exfalso. destruct (I3 t eq_refl) as [A|(p & A & B)]; [exact (Dq A)|]. rewrite Hq in A. injection A as <-. discriminate.
    + unfold mlock. destruct (lowner s) as [u|] eqn:Eo.
      * destruct (Nat.eqb_spec u t) as [->|N]; eexists; (split; [reflexivity|]); [|exact D]. apply K. exact Logic.I.
      * eexists; split; [reflexivity|]. apply K. destruct debug; exact Logic.I.
    + assert (Eo := I2 t _ Hq eq_refl). unfold mlock. rewrite Eo, Nat.eqb_refl. eexists; split; [reflexivity|]. apply K; exact Logic.I.
    + eexists; split; [reflexivity|]. apply K; exact Logic.I.
    + destruct (I1 t Dq) as [Eo _]. unfold mlock. rewrite Eo, Nat.eqb_refl. eexists; split; [reflexivity|]. apply K; exact Dq.
    + eexists; split; [reflexivity|]. apply K2.
Qed.

Lemma dsched_ok debug es : forall s, LInv s -> DInv s -> dsched debug s es -> exists s', lrun debug s es = Ok s'.
Proof.
  induction es as [|e es IH]; intros s I D P; [eexists; reflexivity|].
  destruct P as [P1 P2]. destruct (dstep_ok debug s e I D P1) as (s1 & E & D1). cbn [lrun]. rewrite E in *. cbn [obind].
  apply IH; [eapply lstep_inv; eassumption|exact D1|exact P2].
Qed.

Lemma linit_dinv nt : DInv (linit nt).
Proof. intros t p H. apply nth_error_In, repeat_spec in H. subst. exact Logic.I. Qed.

Lemma lrun_app debug a b s : lrun debug s (a ++ b) = obind (lrun debug s a) (fun s' => lrun debug s' b).
Proof. revert s; induction a as [|e a IH]; intros s; [reflexivity|]. cbn [app lrun]. destruct (lstep debug s e); cbn [obind]; auto. Qed.

Lemma flag_len (s : lstate) t q : LInv s -> nth_error (lpcs s) t = Some q ->
  (t < length (linside s))%nat /\ (t < length (lresult s))%nat /\ (t < length (lpcs s))%nat.
Proof. intros (L1 & L2 & _) H. assert (t < length (lpcs s))%nat by (apply nth_error_Some; congruence). lia. Qed.

Lemma nth_upd_lt {A} (l : list A) i x : (i < length l)%nat -> nth_error (upd l i x) i = Some x.
Proof. intros H. destruct (nth_error l i) eqn:E; [eapply nth_upd_eq; exact E|apply nth_error_None in E; lia]. Qed.

Lemma leave_admits debug s t u : LInv s -> inside s t ->
  nth_error (lpcs s) t = Some LIdle -> nth_error (lpcs s) u = Some LEnter -> t <> u ->
  exists s', lrun debug s [LCallLeave t; LStep t; LStep t; LStep u] = Ok s' /\ inside s' u /\ ~ inside s' t /\
             nth_error (lpcs s') u = Some LIdle.
Proof.
  intros I Ht Hp Hu N. destruct (proj1 (proj2 (proj2 I)) t Ht) as [Eo _].
  destruct (flag_len s t _ I Hp) as (A1 & A2 & A3). destruct (flag_len s u _ I Hu) as (B1 & B2 & B3).
  assert (E : lrun debug s [LCallLeave t; LStep t; LStep t; LStep u] =
    Ok {| lowner := Some u;
          lpcs := upd (upd (upd (if debug then upd (lpcs s) t LLeaveChk else (lpcs s)) t LLeaveUnl) t LIdle) u LIdle;
          linside := upd (upd (linside s) t false) u true; lresult := lresult s |}).
  { assert (P1 : forall x, nth_error (upd (lpcs s) t x) t = Some x) by (intros; apply nth_upd_lt; lia).
    assert (P2 : forall x y, nth_error (upd (upd (lpcs s) t x) t y) t = Some y) by (intros; apply nth_upd_lt; rewrite upd_length; lia).
    cbn [lrun lstep]. rewrite Hp. destruct debug; cbn [obind].
    - cbn [lset lpcs]. rewrite P1. unfold mlock. cbn [lset lowner]. rewrite Eo, Nat.eqb_refl. cbn [obind lset lpcs].
      rewrite P2. unfold munlock. cbn [lset lowner]. rewrite Nat.eqb_refl. cbn [obind lins lset lpcs lowner].
      rewrite !nth_upd_ne by auto. rewrite Hu. reflexivity.
    - cbn [lset lpcs]. rewrite P1. unfold munlock. cbn [lset lowner]. rewrite Eo, Nat.eqb_refl.
      cbn [obind lins lset lpcs lowner]. rewrite P2.
      cbn [obind lpcs lins lset]. rewrite !nth_upd_ne by auto. rewrite Hu. reflexivity. }
  rewrite E. eexists. split; [reflexivity|]. unfold inside; simpl. split; [|split].
  - apply nth_upd_lt. rewrite upd_length. lia.
  - rewrite nth_upd_ne by auto. rewrite nth_upd_lt by lia. discriminate.
  - apply nth_upd_lt. rewrite !upd_length. destruct debug; rewrite ?upd_length; lia.
Qed.

Lemma probe_spec debug s t s' : LInv s -> nth_error (lpcs s) t = Some LIdle ->
  lstep debug s (LCallProbe t) = Ok s' ->
  (nth_error (lresult s') t = Some (Some true) /\ inside s' t /\ (forall u, ~ inside s u)) \/
  (nth_error (lresult s') t = Some (Some false) /\ linside s' = linside s /\ lowner s' = lowner s /\ lowner s <> None).
Proof.
  intros I Hp H. destruct (flag_len s t _ I Hp) as (A1 & A2 & A3). cbn [lstep] in H. rewrite Hp in H.
  destruct (lowner s) as [u|] eqn:Eo; injection H as <-.
  - right. simpl. rewrite nth_upd_lt by lia. repeat split; auto; congruence.
  - left. unfold inside; simpl. rewrite !nth_upd_lt by lia. repeat split; auto.
    intros u Hu. destruct I as (_ & _ & I1 & _). apply I1 in Hu as [Hu _]. congruence.
Qed.

Lemma holding_spec debug s t : LInv s -> nth_error (lpcs s) t = Some LIdle ->
  (lowner s = None \/ lowner s = Some t) ->
  exists s', lrun debug s [LCallHolding t; LStep t; LStep t; LStep t] = Ok s' /\
    linside s' = linside s /\ lowner s' = lowner s /\ nth_error (lpcs s') t = Some LIdle /\
    exists b, nth_error (lresult s') t = Some (Some b) /\ (b = true <-> inside s t).
Proof.
  intros I Hp Ho. destruct (flag_len s t _ I Hp) as (A1 & A2 & A3). destruct (inside_flag s t _ I Hp) as [b Hb].
  assert (OI := owner_iff s t _ b I Hp Hb). simpl in OI.
  assert (P1 : forall x, nth_error (upd (lpcs s) t x) t = Some x) by (intros; apply nth_upd_lt; lia).
  assert (P2 : forall x y, nth_error (upd (upd (lpcs s) t x) t y) t = Some y) by (intros; apply nth_upd_lt; rewrite upd_length; lia).
  assert (P3 : forall x y z, nth_error (upd (upd (upd (lpcs s) t x) t y) t z) t = Some z) by (intros; apply nth_upd_lt; rewrite !upd_length; lia).
  assert (P4 : forall x y z w, nth_error (upd (upd (upd (upd (lpcs s) t x) t y) t z) t w) t = Some w) by (intros; apply nth_upd_lt; rewrite !upd_length; lia).
  assert (Q1 : forall x, nth_error (upd (lresult s) t x) t = Some x) by (intros; apply nth_upd_lt; lia).
  cbn [lrun lstep]. rewrite Hp. cbn [obind lset lpcs]. rewrite P1. unfold mlock at 1. cbn [lowner lset].
  destruct Ho as [Ho|Ho]; rewrite Ho.
  - assert (b = false) by (destruct b; [rewrite Ho in OI; pose proof (proj2 OI (or_introl eq_refl)); discriminate|reflexivity]). subst b.
    destruct debug; cbn [obind lset lpcs]; rewrite P2.
    + unfold mlock. cbn [lset lowner]. rewrite Nat.eqb_refl. cbn [obind lset lpcs]. rewrite P3. unfold munlock. cbn [lset lowner].
      rewrite Nat.eqb_refl. cbn [obind]. eexists. split; [reflexivity|]. simpl. rewrite P4, Q1. repeat split; auto.
      exists false. split; [reflexivity|]. unfold inside. rewrite Hb. split; congruence.
    + unfold munlock. cbn [lset lowner]. rewrite Nat.eqb_refl. cbn [obind lres lpcs lset]. rewrite P3. cbn [obind].
      eexists. split; [reflexivity|]. simpl. rewrite P3, Q1. repeat split; auto.
      exists false. split; [reflexivity|]. unfold inside. rewrite Hb. split; congruence.
  - assert (b = true) by (rewrite Ho in OI; destruct (proj1 OI eq_refl) as [X|X]; [exact X|discriminate]). subst b.
    rewrite Nat.eqb_refl. cbn [obind lres lset lpcs]. rewrite P2. cbn [obind lpcs lres lset]. rewrite P2. cbn [obind].
    eexists. split; [reflexivity|]. simpl. rewrite P2, Q1. repeat split; auto.
    exists true. split; [reflexivity|]. unfold inside. rewrite Hb. split; auto.
Qed.
