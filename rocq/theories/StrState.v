(** String programs: exact counts and isolation for every step that does not crash. *)
From Verif Require Import Base RefModel RefProofs UTF8Model ArrayModel ArraySpec ArrayProofs ArrayState StrModel StrSpec StrHeap.
From Coq Require Import Permutation.

Definition RCS (st : sstate) : Prop := RC (sh st) (null_val :: sv st).

(** Variable [u] shows the same bytes through the same window. *)
Definition same_win (st st' : sstate) (u : nat) : Prop :=
  forall s, nth_error (sv st) u = Some s -> exists s', nth_error (sv st') u = Some s' /\
    v_body s' = v_body s /\ v_off s' = v_off s /\ v_len s' = v_len s /\ obits (sh st') (v_body s) = obits (sh st) (v_body s).

Lemma body_chars_bits x y : bits (sb_arr x) = bits (sb_arr y) -> body_chars x = body_chars y.
Proof. unfold bits, body_chars. intros H. injection H as H1 H2 _ _. rewrite H1, H2. reflexivity. Qed.

Lemma val_text_bits h h' s s' : v_body s' = v_body s -> v_off s' = v_off s -> v_len s' = v_len s ->
  obits h' (v_body s) = obits h (v_body s) -> val_text h' s' = val_text h s.
Proof.
  intros E1 E2 E3 OB. unfold val_text. rewrite E1, E2, E3. unfold obits, arr in OB.
  destruct (nth_error h' (v_body s)) as [[x|]|]; destruct (nth_error h (v_body s)) as [[y|]|]; cbn in OB; try discriminate; try reflexivity.
  injection OB as E4 E5 E6 E7. rewrite (body_chars_bits x y); [reflexivity|]. unfold bits. congruence.
Qed.

Lemma same_win_text st st' u : (u < length (sv st))%nat -> same_win st st' u -> text st' u = text st u.
Proof.
  intros L W. destruct (nth_some_lt (sv st) u L) as [s Hs]. destruct (W s Hs) as (s' & Hs' & E1 & E2 & E3 & OB).
  unfold text. rewrite Hs, Hs'. apply val_text_bits; assumption.
Qed.

Lemma in_vars (st : sstate) v s : nth_error (sv st) v = Some s -> In s (null_val :: sv st).
Proof. intros H. right. eapply nth_error_In; exact H. Qed.

Definition good_step (st st' : sstate) (d : nat) : Prop :=
  RCS st' /\ length (sv st') = length (sv st) /\ forall u, u <> d -> same_win st st' u.

Lemma good_refl st d : RCS st -> good_step st st d.
Proof. intros R. split; [exact R|]. split; [reflexivity|]. intros u _ s Hs. exists s. auto. Qed.

(** The other variables, when [d] is taken out. *)
Lemma take st d old : nth_error (sv st) d = Some old -> RCS st ->
  exists hs, RC (sh st) (old :: hs) /\ incl hs (null_val :: sv st) /\
    (forall u s, u <> d -> nth_error (sv st) u = Some s -> In s hs) /\ In null_val hs /\
    (forall t, Permutation (t :: hs) (null_val :: upd (sv st) d t)).
Proof.
  intros E R. destruct (split_at _ _ _ E) as (l1 & l2 & EL & LL). exists (null_val :: l1 ++ l2). unfold RCS in R. rewrite EL in *.
  assert (P : forall t : sval, Permutation (t :: null_val :: l1 ++ l2) (null_val :: l1 ++ t :: l2)).
  { intros t. eapply perm_trans; [apply perm_swap|]. apply perm_skip. apply Permutation_middle. }
  split; [eapply RC_perm; [symmetry; apply P|exact R]|]. split.
  { intros t [<-|Ht]; [left; reflexivity|]. right. apply in_app_iff in Ht. apply in_app_iff. destruct Ht; [left|right; right]; assumption. }
  split; [|split; [left; reflexivity|intros t; rewrite <- LL, upd_split; apply P]].
  intros u s Hu Hs. right. destruct (Nat.lt_ge_cases u (length l1)).
  - rewrite nth_error_app1 in Hs by assumption. apply in_app_iff. left. eapply nth_error_In; exact Hs.
  - rewrite nth_error_app2 in Hs by assumption. destruct (u - length l1)%nat eqn:K; [lia|]. apply in_app_iff. right. eapply nth_error_In; exact Hs.
Qed.

Lemma sstore_good st v r st' s : nth_error (sv st) v = Some s -> RCS st -> sstore st v r = Ok st' ->
  (forall hs h' s', RC (sh st) (s :: hs) -> incl hs (null_val :: sv st) -> In null_val hs -> r = Ok (h', s') -> RC h' (s' :: hs) /\ keep (sh st) h' hs) ->
  good_step st st' v.
Proof.
  intros E R H F. unfold sstore in H. apply obind_ok in H as ([h' s'] & HR & H). injection H as <-. cbn [fst snd].
  destruct (take st v s E R) as (hs & R1 & I1 & O1 & NI & P1). destruct (F hs h' s' R1 I1 NI HR) as [R2 K2].
  split; [unfold RCS; cbn [sh sv]; eapply RC_perm; [apply P1|exact R2]|]. cbn [sh sv]. split; [apply upd_length|].
  intros u Hu t Ht. cbn [sh sv]. exists t. rewrite nth_upd_ne by congruence. split; [exact Ht|]. repeat split; try reflexivity.
  unfold keep in K2. rewrite Forall_forall in K2. apply K2. eapply O1; eassumption.
Qed.

Lemma sassign_good st d r st' : RCS st -> sassign st d r = Ok st' ->
  (forall h' t, r = Ok (h', t) -> RC h' (t :: null_val :: sv st) /\ keep (sh st) h' (null_val :: sv st)) ->
  good_step st st' d.
Proof.
  intros R H F. unfold sassign in H. destruct (nth_error (sv st) d) as [old|] eqn:E; [|injection H as <-; apply good_refl; exact R].
  apply obind_ok in H as ([h t] & HR & H). destruct (F h t HR) as [R1 K1].
  apply obind_ok in H as (h1 & A & H). apply obind_ok in H as (h2 & B & H). apply obind_ok in H as (h3 & C & H). injection H as <-.
  destruct (addref_rc h (v_body t) h1 _ t R1 A eq_refl) as (R2 & K2 & L2 & _).
  destruct (take st d old E R) as (hs & _ & I1 & O1 & _ & P1).
  assert (PO : Permutation (null_val :: sv st) (old :: hs)).
  { rewrite (P1 old). assert (U : upd (sv st) d old = sv st) by (clear -E; revert d E; induction (sv st) as [|a l IH]; intros [|d] E; cbn in *; try discriminate; [congruence|f_equal; auto]). rewrite U. reflexivity. }
  assert (R2' : RC h1 (old :: t :: t :: hs)).
  { eapply RC_perm; [|exact R2]. eapply perm_trans; [apply perm_skip, perm_skip, PO|]. eapply perm_trans; [apply perm_skip, perm_swap|]. apply perm_swap. }
  destruct (release_rc h1 old h2 _ R2' B) as (R3 & K3 & L3).
  destruct (release_rc h2 t h3 _ R3 C) as (R4 & K4 & L4).
  split; [unfold RCS; cbn [sh sv]; eapply RC_perm; [apply P1|exact R4]|]. cbn [sh sv]. split; [apply upd_length|].
  intros u Hu s Hs. cbn [sh sv]. exists s. rewrite nth_upd_ne by congruence. split; [exact Hs|]. repeat split; try reflexivity.
  assert (IH := O1 u s Hu Hs). assert (I2 := in_vars st u s Hs). unfold keep in *. rewrite Forall_forall in *.
  rewrite (K4 s (or_intror IH)), (K3 s (or_intror (or_intror IH))), (K2 s (or_intror I2)). apply K1. exact I2.
Qed.

Lemma sstep_good st o st' : RCS st -> sstep st o = Ok st' -> good_step st st' (starget o).
Proof.
  intros R H. assert (NZ : (0 < length (sh st))%nat) by (exact (Nat.le_lt_trans _ _ _ (Nat.le_0_l _) (RC_lt _ _ null_val R (or_introl eq_refl)))).
  destruct o; cbn [sstep starget] in H |- *.
  - eapply sassign_good; [exact R|exact H|]. intros h' t E. exact (make_lit_rc _ _ _ _ _ _ R E).
  - eapply sassign_good; [exact R|exact H|]. intros h' t E. destruct (make_rc _ _ _ _ _ _ _ R E) as (A & B & _). auto.
  - eapply sassign_good; [exact R|exact H|]. intros h' t E. exact (make_char_rc _ _ _ _ _ R E).
  - destruct (nth_error (sv st) v) as [s|] eqn:EV; [|injection H as <-; apply good_refl; exact R].
    destruct (nth_error (sv st) d) as [old|] eqn:ED; [|injection H as <-; apply good_refl; exact R].
    eapply sstore_good; [exact ED|exact R|exact H|]. intros hs h' s' R1 _ _ E. destruct (assign_rc _ _ _ _ _ _ R1 E) as (A & B & _). auto.
  - destruct (nth_error (sv st) v) as [s|] eqn:EV; [|injection H as <-; apply good_refl; exact R].
    eapply sassign_good; [exact R|exact H|]. intros h' t E. destruct (copy_val_rc _ _ _ _ _ R E) as (A & B & _). auto.
  - destruct (nth_error (sv st) v) as [s|] eqn:EV; [|injection H as <-; apply good_refl; exact R].
    eapply sassign_good; [exact R|exact H|]. intros h' t E. exact (substr_rc _ _ _ _ _ _ _ R E).
  - destruct (nth_error (sv st) v) as [s|] eqn:EV; [|injection H as <-; apply good_refl; exact R].
    destruct (nth_error (sv st) w) as [t|] eqn:EW; [|injection H as <-; apply good_refl; exact R].
    eapply sassign_good; [exact R|exact H|]. intros h' t' E. destruct (plus_rc _ _ _ _ _ _ R (in_vars _ _ _ EW) E) as (A & B & _). auto.
  - destruct (nth_error (sv st) v) as [s|] eqn:EV; [|injection H as <-; apply good_refl; exact R].
    eapply sassign_good; [exact R|exact H|]. intros h' t' E. exact (plus_char_rc _ _ _ _ _ _ R NZ (in_vars _ _ _ EV) E).
  - destruct (nth_error (sv st) v) as [s|] eqn:EV; [|injection H as <-; apply good_refl; exact R].
    destruct (nth_error (sv st) d) as [old|] eqn:ED; [|injection H as <-; apply good_refl; exact R].
    apply obind_ok in H as ([[h1 s1] res] & T & H). destruct (times_rc _ _ _ _ _ _ _ R T) as (R1 & K1 & E1 & E2 & E3).
    destruct (take st v s EV R) as (hs & RV & I1 & O1 & NI & P1).
    set (st1 := {| sh := h1; sv := upd (sv st) v s1 |}) in *.
    (* the state between, with the new bookmark *)
    assert (PV : Permutation (null_val :: sv st) (s :: hs)).
    { rewrite (P1 s). assert (U : upd (sv st) v s = sv st) by (clear -EV; revert v EV; induction (sv st) as [|a l IH]; intros [|d] E; cbn in *; try discriminate; [congruence|f_equal; auto]). rewrite U. reflexivity. }
    assert (R1' : RC h1 (s1 :: res :: hs)).
    { eapply RC_body; [exact E1|]. eapply RC_perm; [|exact R1]. eapply perm_trans; [apply perm_skip, PV|apply perm_swap]. }
    assert (R1'' : RC h1 (res :: null_val :: sv st1)).
    { eapply RC_perm; [|exact R1']. eapply perm_trans; [apply perm_swap|]. apply perm_skip. apply P1. }
    assert (G : good_step st1 st' d \/ False).
    { left. unfold sassign in H. destruct (nth_error (sv st1) d) as [old1|] eqn:ED1.
      2:{ apply nth_error_None in ED1. cbn [st1 sv] in ED1. rewrite upd_length in ED1. apply nth_lt in ED. lia. }
      cbn [obind] in H. apply obind_ok in H as (h2 & A & H). apply obind_ok in H as (h3 & B & H). apply obind_ok in H as (h4 & C & H). injection H as <-.
      destruct (addref_rc h1 (v_body res) h2 _ res R1'' A eq_refl) as (R2 & K2 & L2 & _).
      destruct (split_at _ _ _ ED1) as (l1 & l2 & EL & LL).
      assert (R2' : RC h2 (old1 :: res :: res :: null_val :: l1 ++ l2)).
      { eapply RC_perm; [|exact R2]. rewrite EL.
        eapply perm_trans; [apply perm_skip, perm_skip, perm_skip, perm_mid|].
        eapply perm_trans; [apply perm_skip, perm_skip, perm_swap|]. eapply perm_trans; [apply perm_skip, perm_swap|]. apply perm_swap. }
      destruct (release_rc h2 old1 h3 _ R2' B) as (R3 & K3 & L3). destruct (release_rc h3 res h4 _ R3 C) as (R4 & K4 & L4).
      split; [|split].
      - unfold RCS. cbn [sh sv]. change (upd (upd (sv st) v s1) d res) with (upd (sv st1) d res). rewrite EL, <- LL, upd_split.
        eapply RC_perm; [|exact R4]. eapply perm_trans; [apply perm_swap|]. apply perm_skip. apply Permutation_middle.
      - cbn [sh sv st1]. apply upd_length.
      - intros u Hu t Ht. exists t. cbn [sh sv]. change (upd (upd (sv st) v s1) d res) with (upd (sv st1) d res). rewrite nth_upd_ne by congruence. split; [exact Ht|]. repeat split; try reflexivity.
        assert (IT : In t (l1 ++ l2)).
        { rewrite EL in Ht. destruct (Nat.lt_ge_cases u (length l1)).
          - rewrite nth_error_app1 in Ht by assumption. apply in_app_iff. left. eapply nth_error_In; exact Ht.
          - rewrite nth_error_app2 in Ht by assumption. destruct (u - length l1)%nat eqn:K; [lia|]. apply in_app_iff. right. eapply nth_error_In; exact Ht. }
        assert (IT2 : In t (sv st1)) by (eapply nth_error_In; exact Ht).
        unfold keep in *. rewrite Forall_forall in *.
        rewrite (K4 t) by (right; right; exact IT). rewrite (K3 t) by (right; right; right; exact IT).
        apply K2. right. right. exact IT2. }
    destruct G as [(G1 & G2 & G3)|[]]. split; [exact G1|]. split; [rewrite G2; cbn [st1 sv]; apply upd_length|].
    intros u Hu t Ht. destruct (Nat.eq_dec u v) as [->|NV].
    + rewrite EV in Ht. injection Ht as <-. destruct (G3 v Hu s1) as (s2 & Hs2 & F1 & F2 & F3 & OB).
      { cbn [st1 sv]. eapply nth_upd_eq. exact EV. }
      exists s2. split; [exact Hs2|]. split; [congruence|]. split; [congruence|]. split; [congruence|].
      rewrite <- E1. rewrite OB. cbn [st1 sh]. unfold keep in K1. rewrite Forall_forall in K1. rewrite E1. apply K1. eapply in_vars; exact EV.
    + destruct (G3 u Hu t) as (s2 & Hs2 & F1 & F2 & F3 & OB).
      { cbn [st1 sv]. rewrite nth_upd_ne by congruence. exact Ht. }
      exists s2. split; [exact Hs2|]. split; [exact F1|]. split; [exact F2|]. split; [exact F3|]. rewrite OB. cbn [st1 sh].
      unfold keep in K1. rewrite Forall_forall in K1. apply K1. eapply in_vars; exact Ht.
  - destruct (nth_error (sv st) v) as [s|] eqn:EV; [|injection H as <-; apply good_refl; exact R].
    eapply sassign_good; [exact R|exact H|]. intros h' t E. exact (as_case_rc _ _ _ _ _ _ R E).
  - destruct (nth_error (sv st) v) as [s|] eqn:EV; [|injection H as <-; apply good_refl; exact R].
    eapply sassign_good; [exact R|exact H|]. intros h' t E. exact (as_json_rc _ _ _ _ _ R E).
  - destruct (nth_error (sv st) v) as [s|] eqn:EV; [|injection H as <-; apply good_refl; exact R].
    destruct (nth_error (sv st) w) as [t|] eqn:EW; [|injection H as <-; apply good_refl; exact R].
    eapply sstore_good; [exact EV|exact R|exact H|]. intros hs h' s' R1 _ _ E. destruct (insert_rc _ _ _ _ _ _ _ _ R1 E) as (A & B & _). auto.
  - destruct (nth_error (sv st) v) as [s|] eqn:EV; [|injection H as <-; apply good_refl; exact R].
    destruct (nth_error (sv st) w) as [t|] eqn:EW; [|injection H as <-; apply good_refl; exact R].
    eapply sstore_good; [exact EV|exact R|exact H|]. intros hs h' s' R1 _ _ E. destruct (add_eq_rc _ _ _ _ _ _ _ R1 E) as (A & B & _). auto.
  - destruct (nth_error (sv st) v) as [s|] eqn:EV; [|injection H as <-; apply good_refl; exact R].
    eapply sstore_good; [exact EV|exact R|exact H|]. intros hs h' s' R1 _ _ E. exact (add_eq_char_rc _ _ _ _ _ _ R1 E).
  - destruct (nth_error (sv st) v) as [s|] eqn:EV; [|injection H as <-; apply good_refl; exact R].
    eapply sstore_good; [exact EV|exact R|exact H|]. intros hs h' s' R1 _ _ E. exact (to_case_rc _ _ _ _ _ _ R1 E).
  - destruct (nth_error (sv st) v) as [s|] eqn:EV; [|injection H as <-; apply good_refl; exact R].
    eapply sstore_good; [exact EV|exact R|exact H|]. intros hs h' s' R1 _ _ E. exact (to_json_rc _ _ _ _ _ R1 E).
  - destruct (nth_error (sv st) v) as [s|] eqn:EV; [|injection H as <-; apply good_refl; exact R].
    eapply sstore_good; [exact EV|exact R|exact H|]. intros hs h' s' R1 _ _ E.
    apply obind_ok in E as ([[h2 s2] p] & E & E2). injection E2 as <- <-. exact (as_utf8_rc _ _ _ _ _ _ R1 E).
  - destruct (nth_error (sv st) v) as [s|] eqn:EV; [|injection H as <-; apply good_refl; exact R].
    apply obind_ok in H as (r & E & H). injection H as <-. apply sv_index_sim in E.
    split; [exact (hsim_RC _ _ _ E R)|]. split; [reflexivity|]. intros u _ t Ht. exists t. cbn [sh sv]. repeat split; try assumption.
    unfold obits. destruct E as [_ E]. rewrite E. reflexivity.
Qed.

Lemma cnt_repeat n : cnt 0 (repeat null_val n) = n.
Proof. induction n as [|n IH]; [reflexivity|]. cbn [repeat]. rewrite cnt_cons, IH. reflexivity. Qed.
Lemma sinit_rc n : RCS (sinit n).
Proof.
  split.
  - intros b a H. unfold arr, sinit in H. remember (2 + Z.of_nat n) as k eqn:Ek. cbn [sh] in H. destruct b as [|b]; [|destruct b; discriminate]. cbn [nth_error] in H. injection H as <-.
    cbn [sinit sv]. rewrite cnt_cons, cnt_repeat. unfold stat, with_refs, set_refs. cbn [v_body null_val Nat.eqb static_sbody sb_arr b_static b_refs]. lia.
  - constructor; [cbn; eauto|]. rewrite Forall_forall. intros s Hs. apply repeat_spec in Hs. subst. cbn. eauto.
Qed.

Lemma srun_rc os : forall st st', RCS st -> srun st os = Ok st' -> RCS st' /\ length (sv st') = length (sv st).
Proof.
  induction os as [|o os IH]; intros st st' R H; cbn [srun] in H.
  - injection H as <-. auto.
  - apply obind_ok in H as (st1 & E & H). destruct (sstep_good _ _ _ R E) as (R1 & L1 & _). destruct (IH _ _ R1 H) as [R2 L2]. split; [exact R2|lia].
Qed.
