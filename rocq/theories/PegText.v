(** Lemmas for the Pegexp proofs: "for all large enough step counts", pattern
    positions, the spellings of characters, and the source. *)
From Verif Require Import Base UTF8Model UTF8Spec UTF8Proofs PegModel PegSpec.
Ltac Zify.zify_post_hook ::= Z.div_mod_to_equations.

(** ** Large enough step counts *)

Definition evt {A} (g : nat -> res A) (a : A) : Prop :=
  exists f0, forall f, (f0 <= f)%nat -> g f = Done a.

Lemma evt_const {A} (a : A) : evt (fun _ => Done a) a.
Proof. exists O; auto. Qed.

Lemma evt_eq {A} (g : nat -> res A) a : (forall f, g f = Done a) -> evt g a.
Proof. exists O; auto. Qed.

Lemma evt_bind {A B} (g : nat -> res A) (k : A -> nat -> res B) a b :
  evt g a -> evt (k a) b -> evt (fun f => rbind (g f) (fun x => k x f)) b.
Proof.
  intros [f1 H1] [f2 H2]. exists (max f1 f2). intros f Hf.
  rewrite (H1 f) by lia. cbn. apply H2. lia.
Qed.

Lemma evt_S {A} (g : nat -> res A) a : evt (fun f => g (S f)) a -> evt g a.
Proof.
  intros [f0 H]. exists (S f0). intros f Hf. destruct f; [lia|]. apply H. lia.
Qed.

Lemma evt_unS {A} (g : nat -> res A) a : evt g a -> evt (fun f => g (S f)) a.
Proof. intros [f0 H]. exists f0. intros f Hf. apply H. lia. Qed.

Lemma evt_ext {A} (g g' : nat -> res A) a : (forall f, g f = g' f) -> evt g a -> evt g' a.
Proof. intros E [f0 H]. exists f0. intros f Hf. rewrite <- E. auto. Qed.

(** ** Positions in the pattern *)

Definition ascii (c : Z) : Prop := 1 <= c <= 127.

Definition At (pat : list Z) (p : nat) (s : list Z) : Prop :=
  Forall ascii pat /\ exists pre, pat = pre ++ s /\ length pre = p.

Definition first (s : list Z) : Z := match s with [] => 0 | c :: _ => c end.

Lemma At_ascii pat p s : At pat p s -> Forall ascii s.
Proof. intros [H (pre & -> & _)]. apply Forall_app in H. tauto. Qed.

Lemma At_rd pat p s : At pat p s -> rdp pat p = Done (first s).
Proof.
  intros H. pose proof (At_ascii _ _ _ H) as Hs. destruct H as [_ (pre & -> & <-)].
  unfold rdp. rewrite <- app_assoc, nth_error_app2, Nat.sub_diag by lia.
  destruct s as [|c s]; cbn; [reflexivity|].
  inversion Hs; subst. red in H1. unfold sx. destruct (Z.leb_spec 128 c); [lia|reflexivity].
Qed.

Lemma At_cons pat p c s : At pat p (c :: s) -> At pat (S p) s.
Proof.
  intros [Ha (pre & E & H)]. split; [exact Ha|]. exists (pre ++ [c]).
  rewrite <- app_assoc, app_length; cbn. split; [exact E|lia].
Qed.

Lemma At_app pat p a s : At pat p (a ++ s) -> At pat (p + length a) s.
Proof.
  intros [Ha (pre & E & H)]. split; [exact Ha|]. exists (pre ++ a).
  rewrite <- app_assoc, app_length; cbn. split; [exact E|lia].
Qed.

Lemma At_skipn pat p s : At pat p s -> skipn p pat = s.
Proof. intros [_ (pre & -> & <-)]. rewrite skipn_app, skipn_all, Nat.sub_diag. reflexivity. Qed.

Lemma At_sub pat p a s : At pat p (a ++ s) -> sub pat p (p + length a) = a.
Proof.
  intros H. unfold sub. rewrite (At_skipn _ _ _ H).
  replace (p + length a - p)%nat with (length a) by lia.
  rewrite firstn_app, firstn_all, Nat.sub_diag. cbn. apply app_nil_r.
Qed.

Lemma At_start pat : Forall ascii pat -> At pat 0 pat.
Proof. intros H. split; [exact H|]. exists []. auto. Qed.

Lemma At_prev pat p c s : At pat p (c :: s) -> (S p - 1 = p)%nat.
Proof. lia. Qed.

Lemma At_inj pat p q s : At pat p s -> At pat q s -> p = q.
Proof.
  intros [_ (a & E & <-)] [_ (b & E' & <-)]. rewrite E in E'.
  apply (f_equal (@length Z)) in E'. rewrite !app_length in E'. lia.
Qed.

Lemma At_lt pat p c s : At pat p (c :: s) -> (p < length pat)%nat.
Proof. intros [_ (a & -> & <-)]. rewrite app_length. cbn. lia. Qed.

Lemma first_ascii pat p s : At pat p s -> 0 <= first s <= 127.
Proof.
  intros H. apply At_ascii in H. destruct s; cbn; [lia|]. inversion H; subst. red in H2. lia.
Qed.

Lemma not_first_first (P : Z -> Prop) r : not_first P r -> ~ P 0 -> ~ P (first r).
Proof. destruct r; cbn; auto. Qed.

(** ** Numbers *)

Lemma oct_spec c : is_octal c = true <-> oct c.
Proof. unfold is_octal, oct. lia. Qed.

Lemma u32_id c : 0 <= c < 2^32 -> u32 c = c.
Proof. unfold u32. intros. rewrite Z.mod_small; lia. Qed.

Lemma unhex_digit c : hexd c -> unhex c = hexv c /\ 0 <= hexv c < 16.
Proof.
  unfold hexd, unhex, hexv. intros H. rewrite u32_id by lia.
  destruct (Z.leb_spec 48 c), (Z.leb_spec c 57); cbn [andb]; try lia.
  destruct (Z.leb_spec 65 c), (Z.leb_spec c 70); cbn [andb]; try lia.
  destruct (Z.leb_spec 97 c), (Z.leb_spec c 102); cbn [andb]; try lia.
Qed.

Lemma unhex_other c : 0 <= c <= 127 -> ~ hexd c -> unhex c = -1.
Proof.
  unfold hexd, unhex. intros Hc H. rewrite u32_id by lia.
  destruct (Z.leb_spec 48 c), (Z.leb_spec c 57); cbn [andb]; try lia;
  destruct (Z.leb_spec 65 c), (Z.leb_spec c 70); cbn [andb]; try lia;
  destruct (Z.leb_spec 97 c), (Z.leb_spec c 102); cbn [andb]; try lia.
Qed.

Lemma hexd_not0 : ~ hexd 0. Proof. unfold hexd; lia. Qed.
Lemma oct_not0 : ~ oct 0. Proof. unfold oct; lia. Qed.

Lemma nib_lor a d : 0 <= a -> 0 <= d < 16 -> Z.lor (Z.shiftl a 4) d = a * 16 + d.
Proof.
  intros Ha Hd. rewrite Z.shiftl_mul_pow2 by lia.
  exact (lor_disjoint a 4 d ltac:(lia) ltac:(lia)).
Qed.

Definition hexfold (a : Z) (ds : list Z) : Z := fold_left (fun a d => a * 16 + hexv d) ds a.

Lemma hexfold_bound ds : Forall hexd ds -> forall a, 0 <= a ->
  0 <= hexfold a ds < (a + 1) * 16 ^ Z.of_nat (length ds).
Proof.
  induction 1 as [|d ds Hd _ IH]; intros a Ha; unfold hexfold in *; cbn [fold_left length].
  - change (16 ^ Z.of_nat 0) with 1. lia.
  - apply unhex_digit in Hd. destruct Hd as [_ Hd].
    specialize (IH (a * 16 + hexv d) ltac:(lia)).
    rewrite Nat2Z.inj_succ, Z.pow_succ_r by lia.
    split; [apply IH|]. eapply Z.lt_le_trans; [apply IH|]. nia.
Qed.

Lemma u_digits_ok ds : Forall hexd ds -> forall k pat p r a,
  (length ds <= k)%nat -> (length ds = k \/ not_first hexd r) ->
  0 <= a -> (a + 1) * 16 ^ Z.of_nat (length ds) <= 2 ^ 32 ->
  At pat p (ds ++ r) ->
  u_digits k pat p a = Done (hexfold a ds, (p + length ds)%nat).
Proof.
  induction 1 as [|d ds Hd _ IH]; intros k pat p r a Hk Hr Ha Hb H; cbn [app length] in *.
  - rewrite Nat.add_0_r. unfold hexfold; cbn. destruct k as [|k]; [reflexivity|]. cbn.
    rewrite (At_rd _ _ _ H). cbn. destruct Hr as [|Hr]; [lia|].
    destruct (Z.eqb_spec (first r) 0) as [E|E]; [reflexivity|].
    rewrite unhex_other; [reflexivity|eapply first_ascii; eauto|].
    apply not_first_first; auto using hexd_not0.
  - destruct k as [|k]; [lia|]. cbn [u_digits]. rewrite (At_rd _ _ _ H). cbn [first rbind].
    destruct (unhex_digit _ Hd) as [-> Hv].
    destruct (Z.eqb_spec d 0) as [->|_]; [destruct (hexd_not0 Hd)|].
    destruct (Z.ltb_spec (hexv d) 0); [lia|].
    rewrite Nat2Z.inj_succ, Z.pow_succ_r in Hb by lia.
    pose proof (Z.pow_pos_nonneg 16 (Z.of_nat (length ds)) ltac:(lia) ltac:(lia)).
    rewrite nib_lor by lia.
    assert (B : (a * 16 + hexv d + 1) * 16 ^ Z.of_nat (length ds) <= 2 ^ 32).
    { eapply Z.le_trans; [|exact Hb].
      transitivity ((a * 16 + 16) * 16 ^ Z.of_nat (length ds)); [|lia].
      apply Z.mul_le_mono_nonneg_r; lia. }
    rewrite u32_id.
    2:{ split; [lia|]. eapply Z.lt_le_trans; [|exact B].
        generalize dependent (16 ^ Z.of_nat (length ds)). intros K HK. clear - Ha Hv HK. nia. }
    rewrite (IH k pat (S p) r); [f_equal; f_equal; lia|lia|destruct Hr; [left; lia|right; assumption]|lia|exact B|].
    eapply At_cons; eauto.
Qed.

(** ** Escapes *)

Lemma close_brace_ok pat p r : At pat p (125 :: r) ->
  close_brace pat true p = Done (S p).
Proof. intros H. unfold close_brace. rewrite (At_rd _ _ _ H). reflexivity. Qed.

Lemma control_find e c : In (e, c) control_escapes ->
  List.find (fun x => fst x =? e) special_escapes = Some (e, c) /\ letter e /\ e <> 120 /\ e <> 117
  /\ (forall k, e <> letters_of k).
Proof.
  unfold letter. intros H. cbn in H.
  repeat (destruct H as [H|H]; [injection H as <- <-; cbn; repeat split; try lia; intros []; cbn; lia|]).
  destruct H.
Qed.

Lemma control_not_find c : (forall x, ~ In (c, x) control_escapes) ->
  List.find (fun x => fst x =? c) special_escapes = None.
Proof.
  intros H. destruct (List.find _ _) as [[e x]|] eqn:E; [|reflexivity].
  apply List.find_some in E. destruct E as [E1 E2]. cbn in E2.
  apply Z.eqb_eq in E2. subst. destruct (H x E1).
Qed.

Lemma literal_escape al c s r pat p : escape al c s r -> At pat p s ->
  exists q, literal_char pat p = Done (c, q) /\ At pat q r.
Proof.
  intros H Hp. unfold literal_char. rewrite (At_rd _ _ _ Hp).
  inversion H; subst; cbn [first rbind]; change (92 =? 0) with false; change (92 =? 92) with true; cbn [negb]; cbv iota;
    pose proof (At_cons _ _ _ _ Hp) as Hp1.
  - (* octal *)
    destruct ds as [|d1 ds]; [cbn in *; lia|]. cbn [app] in *.
    rewrite (At_rd _ _ _ Hp1). cbn [first rbind].
    apply Forall_cons_iff in H1; destruct H1 as [O1 O2].
    rewrite (u32_id d1) by (unfold oct in *; lia).
    rewrite (proj2 (oct_spec d1) O1).
    pose proof (At_cons _ _ _ _ Hp1) as Hp2.
    destruct ds as [|d2 ds]; cbn [app] in *.
    + rewrite (At_rd _ _ _ Hp2). cbn [first rbind].
      destruct H2 as [H2|H2]; [cbn in H2; lia|].
      replace (is_octal (first r)) with false.
      2:{ symmetry. apply not_true_is_false. rewrite oct_spec. apply not_first_first; auto using oct_not0. }
      rewrite (At_rd _ _ _ Hp2). cbn [rbind].
      replace (is_octal (first r)) with false.
      2:{ symmetry. apply not_true_is_false. rewrite oct_spec. apply not_first_first; auto using oct_not0. }
      eexists. split; [reflexivity|exact Hp2].
    + rewrite (At_rd _ _ _ Hp2). cbn [first rbind]. apply Forall_cons_iff in O2; destruct O2 as [O2 O3].
      rewrite (proj2 (oct_spec d2) O2).
      pose proof (At_cons _ _ _ _ Hp2) as Hp3.
      destruct ds as [|d3 ds]; cbn [app] in *.
      * rewrite (At_rd _ _ _ Hp3). cbn [first rbind].
        destruct H2 as [H2|H2]; [cbn in H2; lia|].
        replace (is_octal (first r)) with false.
        2:{ symmetry. apply not_true_is_false. rewrite oct_spec. apply not_first_first; auto using oct_not0. }
        eexists. split; [|exact Hp3]. unfold number; cbn [fold_left]. do 2 f_equal. lia.
      * destruct ds as [|? ds]; [|cbn in H0; lia]. cbn [app] in *.
        rewrite (At_rd _ _ _ Hp3). cbn [first rbind]. apply Forall_cons_iff in O3; destruct O3 as [O3 O4].
        rewrite (proj2 (oct_spec d3) O3). apply At_cons in Hp3.
        eexists. split; [|exact Hp3]. unfold number; cbn [fold_left]. do 2 f_equal. lia.
  - (* \xH \xHH *)
    rewrite (At_rd _ _ _ Hp1). cbn [first rbind]. rewrite (u32_id 120) by lia.
    change (is_octal 120) with false. change (120 =? 120) with true. cbn [negb].
    pose proof (At_cons _ _ _ _ Hp1) as Hp2.
    destruct ds as [|d1 ds]; [cbn in *; lia|]. cbn [app] in *.
    rewrite (At_rd _ _ _ Hp2). cbn [first rbind].
    apply Forall_cons_iff in H1; destruct H1 as [D1 D2]. destruct (unhex_digit _ D1) as [E1 V1].
    destruct (Z.eqb_spec d1 0) as [->|_]; [destruct (hexd_not0 D1)|].
    destruct (Z.eqb_spec d1 123) as [->|_]; [unfold hexd in D1; lia|].
    rewrite (At_rd _ _ _ Hp2). cbn [first rbind]. rewrite E1.
    pose proof (At_cons _ _ _ _ Hp2) as Hp3.
    destruct ds as [|d2 ds]; cbn [app] in *.
    + rewrite (At_rd _ _ _ Hp3). cbn [rbind].
      destruct H2 as [H2|H2]; [cbn in H2; lia|].
      rewrite (unhex_other (first r)); [|eapply first_ascii; eauto|apply not_first_first; auto using hexd_not0].
      cbn. eexists. split; [|exact Hp3]. rewrite u32_id by lia. unfold number; cbn [fold_left]. do 2 f_equal.
    + destruct ds as [|? ds]; [|cbn in H0; lia]. cbn [app] in *.
      rewrite (At_rd _ _ _ Hp3). cbn [first rbind]. apply Forall_cons_iff in D2; destruct D2 as [D2 D3].
      destruct (unhex_digit _ D2) as [E2 V2]. rewrite E2.
      destruct (Z.leb_spec 0 (hexv d2)); [|lia]. cbn [close_brace rbind].
      rewrite (u32_id (hexv d1)) by lia. rewrite nib_lor by lia. rewrite u32_id by lia.
      apply At_cons in Hp3.
      eexists. split; [|exact Hp3]. unfold number; cbn [fold_left]. do 2 f_equal.
  - (* \x{H} *)
    rewrite (At_rd _ _ _ Hp1). cbn [first rbind]. rewrite (u32_id 120) by lia.
    change (is_octal 120) with false. change (120 =? 120) with true. cbn [negb].
    pose proof (At_cons _ _ _ _ Hp1) as Hp2.
    rewrite (At_rd _ _ _ Hp2). cbn [first rbind]. change (123 =? 0) with false.
    change (123 =? 123) with true. cbv iota.
    apply At_cons in Hp2.
    destruct ds as [|d1 ds]; [cbn in *; lia|]. cbn [app] in *.
    rewrite (At_rd _ _ _ Hp2). cbn [first rbind].
    apply Forall_cons_iff in H1; destruct H1 as [D1 D2]. destruct (unhex_digit _ D1) as [E1 V1]. rewrite E1.
    pose proof (At_cons _ _ _ _ Hp2) as Hp3.
    destruct ds as [|d2 ds]; cbn [app] in *.
    + rewrite (At_rd _ _ _ Hp3). cbn [first rbind]. change (0 <=? unhex 125) with false. cbv iota.
      rewrite (close_brace_ok _ _ _ Hp3). cbn. apply At_cons in Hp3.
      eexists. split; [|exact Hp3]. rewrite u32_id by lia. unfold number; cbn [fold_left]. do 2 f_equal.
    + destruct ds as [|? ds]; [|cbn in H0; lia]. cbn [app] in *.
      rewrite (At_rd _ _ _ Hp3). cbn [first rbind]. apply Forall_cons_iff in D2; destruct D2 as [D2 D3].
      destruct (unhex_digit _ D2) as [E2 V2]. rewrite E2.
      destruct (Z.leb_spec 0 (hexv d2)); [|lia].
      apply At_cons in Hp3. rewrite (close_brace_ok _ _ _ Hp3). cbn [rbind]. apply At_cons in Hp3.
      rewrite (u32_id (hexv d1)) by lia. rewrite nib_lor by lia. rewrite u32_id by lia.
      eexists. split; [|exact Hp3]. unfold number; cbn [fold_left]. do 2 f_equal.
  - (* \u *)
    rewrite (At_rd _ _ _ Hp1). cbn [first rbind]. rewrite (u32_id 117) by lia.
    change (is_octal 117) with false. change (117 =? 120) with false.
    change (117 =? 117) with true. cbn [negb].
    pose proof (At_cons _ _ _ _ Hp1) as Hp2.
    rewrite (At_rd _ _ _ Hp2). cbn [rbind].
    replace (first (ds ++ r) =? 123) with false.
    2:{ destruct ds as [|d1 ds]; [cbn in *; lia|]. cbn. inversion H1; subst. unfold hexd in *.
        symmetry. apply Z.eqb_neq. lia. }
    assert (16 ^ Z.of_nat (length ds) <= 16 ^ 4) by (apply Z.pow_le_mono_r; lia).
    change (16 ^ 4) with 65536 in *.
    rewrite (u_digits_ok ds H1 4 pat _ r 0); [|lia|tauto|lia|lia|exact Hp2].
    cbn [rbind fst snd close_brace]. eexists. split; [reflexivity|]. apply At_app; exact Hp2.
  - (* \u{} *)
    rewrite (At_rd _ _ _ Hp1). cbn [first rbind]. rewrite (u32_id 117) by lia.
    change (is_octal 117) with false. change (117 =? 120) with false.
    change (117 =? 117) with true. cbn [negb].
    pose proof (At_cons _ _ _ _ Hp1) as Hp2.
    rewrite (At_rd _ _ _ Hp2). cbn [first rbind].
    change (123 =? 123) with true. cbv iota. apply At_cons in Hp2.
    assert (16 ^ Z.of_nat (length ds) <= 16 ^ 8) by (apply Z.pow_le_mono_r; lia).
    change (16 ^ 8) with 4294967296 in *.
    rewrite (u_digits_ok ds H1 8 pat _ (125 :: r) 0); [|lia|right; cbn; unfold hexd; lia|lia|lia|exact Hp2].
    cbn [rbind fst snd]. apply At_app in Hp2. rewrite (close_brace_ok _ _ _ Hp2). cbn [rbind].
    eexists. split; [reflexivity|]. eapply At_cons; exact Hp2.
  - (* control *)
    rewrite (At_rd _ _ _ Hp1). cbn [first rbind].
    destruct (control_find _ _ H0) as (F & Hl & N1 & N2 & _).
    unfold letter in Hl.
    rewrite (u32_id e) by lia.
    replace (is_octal e) with false by (unfold is_octal; lia).
    destruct (Z.eqb_spec e 120); [lia|]. destruct (Z.eqb_spec e 117); [lia|].
    rewrite F. cbn. eexists. split; [reflexivity|]. eapply At_cons; eauto.
  - (* other letter *)
    rewrite (At_rd _ _ _ Hp1). cbn [first rbind]. unfold letter in *.
    rewrite (u32_id c) by lia.
    replace (is_octal c) with false by (unfold is_octal; lia).
    destruct (Z.eqb_spec c 120); [lia|]. destruct (Z.eqb_spec c 117); [lia|].
    rewrite (control_not_find c H4). eexists. split; [reflexivity|]. eapply At_cons; eauto.
  - rewrite (At_rd _ _ _ Hp1). cbn [first rbind]. unfold letter, oct in *.
    rewrite (u32_id c) by lia.
    replace (is_octal c) with false by (unfold is_octal; lia).
    destruct (Z.eqb_spec c 120); [lia|]. destruct (Z.eqb_spec c 117); [lia|].
    rewrite control_not_find; [eexists; split; [reflexivity|]; eapply At_cons; eauto|].
    intros x Hx. apply control_find in Hx. unfold letter in Hx. lia.
Qed.

(** ** Kinds of characters and classes *)

Lemma escape_second al c s r : escape al c s r ->
  exists x t, s = 92 :: x :: t /\ (forall k, x <> letters_of k) /\
    (al = true <-> letter x /\ x <> 120 /\ x <> 117).
Proof.
  intros H. inversion H; subst; unfold letter.
  - destruct ds as [|d ds]; [cbn in *; lia|]. apply Forall_cons_iff in H1; destruct H1 as [D _]. unfold oct in D.
    exists d, (ds ++ r). split; [reflexivity|]. split; [intros []; cbn; lia|]. lia.
  - do 2 eexists. split; [reflexivity|]. split; [intros []; cbn; lia|]. lia.
  - do 2 eexists. split; [reflexivity|]. split; [intros []; cbn; lia|]. lia.
  - do 2 eexists. split; [reflexivity|]. split; [intros []; cbn; lia|]. lia.
  - do 2 eexists. split; [reflexivity|]. split; [intros []; cbn; lia|]. lia.
  - apply control_find in H0. destruct H0 as (_ & Hl & N1 & N2 & K). unfold letter in Hl.
    do 2 eexists. split; [reflexivity|]. split; [exact K|]. tauto.
  - unfold letter in *. do 2 eexists. split; [reflexivity|]. split; [assumption|]. tauto.
  - do 2 eexists. split; [reflexivity|]. unfold letter, oct in *. split; [intros []; cbn; lia|]. split; [discriminate|tauto].
Qed.

Lemma prop_escape al c s r pat p ch : escape al c s r -> At pat p s ->
  exists q, char_property pat (S p) ch = Done (ch =? c, q) /\ At pat q r.
Proof.
  intros H Hp. destruct (escape_second _ _ _ _ H) as (x & t & E & Hk & _).
  destruct (literal_escape _ _ _ _ _ _ H Hp) as (q & Hl & Hq).
  exists q. split; [|exact Hq]. unfold char_property.
  rewrite E in Hp. rewrite (At_rd _ _ _ (At_cons _ _ _ _ Hp)). cbn [first rbind].
  pose proof (Hk Alpha) as K1. pose proof (Hk Digit) as K2. pose proof (Hk Hexa) as K3.
  pose proof (Hk Lower) as K4. pose proof (Hk Upper) as K5. pose proof (Hk Space) as K6. pose proof (Hk Word) as K7.
  cbn in K1, K2, K3, K4, K5, K6, K7.
  rewrite (proj2 (Z.eqb_neq x 97) K1), (proj2 (Z.eqb_neq x 100) K2), (proj2 (Z.eqb_neq x 104) K3),
    (proj2 (Z.eqb_neq x 76) K4), (proj2 (Z.eqb_neq x 85) K5), (proj2 (Z.eqb_neq x 115) K6), (proj2 (Z.eqb_neq x 119) K7).
  replace (S p - 1)%nat with p by lia. rewrite Hl. cbn. rewrite Z.eqb_sym. reflexivity.
Qed.

Lemma s32_small c : 0 <= c <= 255 -> s32 c = c.
Proof. intros. unfold s32. rewrite Z.mod_small by lia. destruct (Z.ltb_spec c 2147483648); lia. Qed.

Lemma prop_kind k s pat p ch : At pat p (letters_of k :: s) -> 0 <= ch <= 255 ->
  char_property pat p ch = Done (has k ch, S p).
Proof.
  intros H Hc. unfold char_property. rewrite (At_rd _ _ _ H). cbn [first rbind].
  rewrite s32_small by lia.
  assert (C : forall b, ctype b ch = Done (b ch)).
  { intros b. unfold ctype. destruct (Z.leb_spec (-1) ch), (Z.leb_spec ch 255); cbn; (reflexivity || lia). }
  destruct k; cbn [letters_of Z.eqb Pos.eqb]; rewrite C; reflexivity.
Qed.

Lemma class_char_lit al c s r pat p : class_char al c s r -> At pat p s ->
  exists q, literal_char pat p = Done (c, q) /\ At pat q r.
Proof.
  intros H Hp. inversion H; subst; [|eapply literal_escape; eauto].
  exists (S p). split; [|eapply At_cons; eauto]. unfold literal_char. rewrite (At_rd _ _ _ Hp).
  cbn [first rbind]. destruct (Z.eqb_spec c 0); [lia|]. destruct (Z.eqb_spec c 92); [lia|].
  cbn [negb]. rewrite u32_id by lia. reflexivity.
Qed.

Lemma class_char_first al c s r : class_char al c s r ->
  first s <> 0 /\ first s <> 93.
Proof.
  intros H. inversion H; subst; [cbn; lia|].
  destruct (escape_second _ _ _ _ H0) as (x & t & -> & _). cbn. lia.
Qed.

Lemma ctype_in c b : 0 <= c <= 255 -> ctype b c = Done (b c).
Proof. intros. unfold ctype. destruct (Z.leb_spec (-1) c), (Z.leb_spec c 255); cbn; (reflexivity || lia). Qed.

Lemma first_hyphen s : not_first (eq 45) s -> (first s =? 45) = false.
Proof. destruct s; cbn [not_first first]; intros; apply Z.eqb_neq; lia. Qed.

(** An item that starts like a letter escape. *)
Definition letter_escape (s : list Z) : bool :=
  match s with
  | 92 :: x :: _ => c_alpha x && negb (x =? 120) && negb (x =? 117)
  | _ => false
  end.

Lemma letter_escape_spec al c s r : class_char al c s r -> letter_escape s = al.
Proof.
  intros H. inversion H; subst.
  - unfold letter_escape. destruct c; try reflexivity. repeat (destruct p; try reflexivity; try lia).
  - destruct (escape_second _ _ _ _ H0) as (x & t & -> & _ & A). cbn. unfold letter in A.
    unfold c_alpha, c_lower, c_upper.
    destruct (Z.leb_spec 97 x), (Z.leb_spec x 122), (Z.leb_spec 65 x), (Z.leb_spec x 90),
      (Z.eqb_spec x 120), (Z.eqb_spec x 117); cbn; destruct al; try reflexivity; exfalso;
      try (destruct A as [A _]; specialize (A eq_refl); lia);
      try (destruct A as [_ A]; discriminate A; lia);
      destruct A as [_ A]; assert (F : false = true) by (apply A; lia); discriminate F.
Qed.

Lemma class_test pat p s : At pat p s -> first s <> 0 ->
  exists esc al,
    rdp pat (S p) = Done esc /\
    (if first s =? 92 then ctype c_alpha esc else Done false) = Done al /\
    (al && negb (esc =? 120) && negb (esc =? 117)) = letter_escape s.
Proof.
  intros H N. destruct s as [|c s]; [cbn in N; lia|]. cbn [first] in *.
  pose proof (At_cons _ _ _ _ H) as H1.
  rewrite (At_rd _ _ _ H1). pose proof (first_ascii _ _ _ H1) as B.
  exists (first s), (if c =? 92 then c_alpha (first s) else false).
  rewrite (ctype_in (first s) c_alpha) by lia.
  destruct (Z.eqb_spec c 92) as [->|Hc].
  - split; [reflexivity|]. split; [reflexivity|].
    cbn [letter_escape]. destruct s as [|x s]; [reflexivity|]. reflexivity.
  - split; [reflexivity|]. split; [reflexivity|]. cbn [andb].
    unfold letter_escape. destruct c; try reflexivity. repeat (destruct p0; try reflexivity; try lia).
Qed.

Lemma class_items_ok D l s r : items D l s r -> forall pat p ch acc,
  (d_kinds D = true -> 0 <= ch <= 255) -> At pat p s ->
  exists q, evt (fun f => class_items f pat p ch acc)
                (acc || existsb (fun i => in_item i ch) l, q) /\ At pat q (93 :: r).
Proof.
  induction 1 as [r|al c l s s' r Hc Hn _ IH|c1 al2 c2 l s s1 s2 r H1 H2 _ IH|k l s r Hd Hn _ IH];
    intros pat p ch acc Hk Hp.
  - exists p. split; [|exact Hp]. apply evt_S, evt_eq. intros f. cbn [class_items].
    rewrite (At_rd _ _ _ Hp). cbn. rewrite orb_false_r. reflexivity.
  - destruct (class_char_first _ _ _ _ Hc) as [N1 N2].
    destruct (class_test _ _ _ Hp N1) as (esc & al' & R & C & T).
    rewrite (letter_escape_spec _ _ _ _ Hc) in T.
    destruct al.
    + inversion Hc as [|? ? ? ? He]; subst.
      destruct (prop_escape _ _ _ _ _ _ ch He Hp) as (q0 & E & Hq0).
      destruct (IH pat q0 ch (acc || (ch =? c)) Hk Hq0) as (q & Hq & Hend).
      exists q. split; [|exact Hend]. cbn [existsb in_item]. unfold between. rewrite orb_assoc.
      eapply evt_S, evt_ext; [|exact Hq]. intros f. cbn [class_items]. rewrite (At_rd _ _ _ Hp). cbn [rbind].
      rewrite (proj2 (Z.eqb_neq _ _) N1), (proj2 (Z.eqb_neq _ _) N2). cbn [orb].
      rewrite R. cbn [rbind]. rewrite C. cbn [rbind]. rewrite T, E. cbn [rbind fst snd]. reflexivity.
    + destruct (class_char_lit _ _ _ _ _ _ Hc Hp) as (q0 & E & Hq0).
      destruct (IH pat q0 ch (acc || (ch =? c)) Hk Hq0) as (q & Hq & Hend).
      exists q. split; [|exact Hend]. cbn [existsb in_item]. unfold between. rewrite orb_assoc.
      eapply evt_S, evt_ext; [|exact Hq]. intros f. cbn [class_items]. rewrite (At_rd _ _ _ Hp). cbn [rbind].
      rewrite (proj2 (Z.eqb_neq _ _) N1), (proj2 (Z.eqb_neq _ _) N2). cbn [orb].
      rewrite R. cbn [rbind]. rewrite C. cbn [rbind]. rewrite T, E. cbn [rbind].
      rewrite (At_rd _ _ _ Hq0). cbn [rbind]. rewrite (first_hyphen _ Hn). reflexivity.
  - destruct (class_char_first _ _ _ _ H1) as [N1 N2].
    destruct (class_test _ _ _ Hp N1) as (esc & al' & R & C & T).
    rewrite (letter_escape_spec _ _ _ _ H1) in T.
    destruct (class_char_lit _ _ _ _ _ _ H1 Hp) as (q0 & E & Hq0).
    pose proof (At_cons _ _ _ _ Hq0) as Hq1.
    destruct (class_char_lit _ _ _ _ _ _ H2 Hq1) as (q2 & E2 & Hq2).
    destruct (IH pat q2 ch (acc || ((c1 <=? ch) && (ch <=? c2))) Hk Hq2) as (q & Hq & Hend).
    exists q. split; [|exact Hend]. cbn [existsb in_item]. unfold between. rewrite orb_assoc.
    eapply evt_S, evt_ext; [|exact Hq]. intros f. cbn [class_items]. rewrite (At_rd _ _ _ Hp). cbn [rbind].
    rewrite (proj2 (Z.eqb_neq _ _) N1), (proj2 (Z.eqb_neq _ _) N2). cbn [orb].
    rewrite R. cbn [rbind]. rewrite C. cbn [rbind]. rewrite T, E. cbn [rbind].
    rewrite (At_rd _ _ _ Hq0). cbn [first rbind]. change (45 =? 45) with true. cbv iota. rewrite E2.
    cbn [rbind]. unfold between. reflexivity.
  - destruct (class_test _ _ _ Hp ltac:(cbn; lia)) as (esc & al' & R & C & T).
    pose proof (At_cons _ _ _ _ Hp) as Hp1.
    pose proof (prop_kind k _ _ _ ch Hp1 (Hk Hd)) as E.
    apply At_cons in Hp1.
    destruct (IH pat _ ch (acc || has k ch) Hk Hp1) as (q & Hq & Hend).
    exists q. split; [|exact Hend]. cbn [existsb in_item]. unfold between. rewrite orb_assoc.
    eapply evt_S, evt_ext; [|exact Hq]. intros f. cbn [class_items]. rewrite (At_rd _ _ _ Hp). cbn [rbind].
    cbn [first orb] in *. change (92 =? 0) with false. change (92 =? 93) with false. cbn [orb].
    rewrite R. cbn [rbind]. rewrite C. cbn [rbind]. rewrite T.
    replace (letter_escape (92 :: letters_of k :: s)) with true by (destruct k; reflexivity).
    rewrite E. cbn [rbind fst snd]. reflexivity.
Qed.

Lemma kind_literal k s pat p : At pat p (92 :: letters_of k :: s) ->
  literal_char pat p = Done (letters_of k, S (S p)).
Proof.
  intros Hp. unfold literal_char. rewrite (At_rd _ _ _ Hp). cbn [first rbind].
  rewrite (At_rd _ _ _ (At_cons _ _ _ _ Hp)). cbn [first rbind].
  destruct k; reflexivity.
Qed.

Lemma skip_class_ok D l s r : items D l s r -> forall pat p, At pat p s ->
  exists q, evt (fun f => skip_class f pat p) q /\ At pat q (93 :: r).
Proof.
  induction 1 as [r|al c l s s' r Hc Hn _ IH|c1 al2 c2 l s s1 s2 r H1 H2 _ IH|k l s r Hd Hn _ IH];
    intros pat p Hp.
  - exists p. split; [|exact Hp]. apply evt_S, evt_eq. intros f. cbn [skip_class].
    rewrite (At_rd _ _ _ Hp). reflexivity.
  - destruct (class_char_first _ _ _ _ Hc) as [N1 N2].
    destruct (class_char_lit _ _ _ _ _ _ Hc Hp) as (q0 & E & Hq0).
    destruct (IH pat q0 Hq0) as (q & Hq & Hend).
    exists q. split; [|exact Hend].
    eapply evt_S, evt_ext; [|exact Hq]. intros f. cbn [skip_class]. rewrite (At_rd _ _ _ Hp). cbn [rbind].
    rewrite (proj2 (Z.eqb_neq _ _) N1), (proj2 (Z.eqb_neq _ _) N2). cbn [orb].
    rewrite E. cbn [rbind snd]. rewrite (At_rd _ _ _ Hq0). cbn [rbind]. rewrite (first_hyphen _ Hn). reflexivity.
  - destruct (class_char_first _ _ _ _ H1) as [N1 N2].
    destruct (class_char_lit _ _ _ _ _ _ H1 Hp) as (q0 & E & Hq0).
    pose proof (At_cons _ _ _ _ Hq0) as Hq1.
    destruct (class_char_lit _ _ _ _ _ _ H2 Hq1) as (q2 & E2 & Hq2).
    destruct (IH pat q2 Hq2) as (q & Hq & Hend).
    exists q. split; [|exact Hend].
    eapply evt_S, evt_ext; [|exact Hq]. intros f. cbn [skip_class]. rewrite (At_rd _ _ _ Hp). cbn [rbind].
    rewrite (proj2 (Z.eqb_neq _ _) N1), (proj2 (Z.eqb_neq _ _) N2). cbn [orb].
    rewrite E. cbn [rbind snd]. rewrite (At_rd _ _ _ Hq0). cbn [rbind first]. change (45 =? 45) with true.
    cbv iota. rewrite E2. reflexivity.
  - pose proof (At_cons _ _ _ _ (At_cons _ _ _ _ Hp)) as Hp2.
    destruct (IH pat _ Hp2) as (q & Hq & Hend).
    exists q. split; [|exact Hend].
    eapply evt_S, evt_ext; [|exact Hq]. intros f. cbn [skip_class]. rewrite (At_rd _ _ _ Hp). cbn [rbind first].
    change (92 =? 0) with false. change (92 =? 93) with false. cbn [orb].
    rewrite (kind_literal k _ _ _ Hp). cbn [rbind snd]. rewrite (At_rd _ _ _ Hp2). cbn [rbind].
    rewrite (first_hyphen _ Hn). reflexivity.
Qed.

(** ** Names and labels *)

Lemma namech_spec c : (c_alnum c || (c =? 95)) = true <-> namech c.
Proof. unfold c_alnum, c_alpha, c_lower, c_upper, c_digit, namech, letter. lia. Qed.

Lemma scan_name_ok name : Forall namech name -> forall pat p r,
  not_first namech r -> At pat p (name ++ r) ->
  evt (fun f => scan_name f pat p) (p + length name)%nat.
Proof.
  induction 1 as [|c name Hc _ IH]; intros pat p r Hr Hp; apply evt_S.
  - apply evt_eq. intros f. cbn [scan_name]. cbn in Hp. rewrite (At_rd _ _ _ Hp). cbn [rbind].
    pose proof (first_ascii _ _ _ Hp). rewrite ctype_in by lia. cbn [rbind].
    replace (c_alnum (first r) || (first r =? 95)) with false.
    + rewrite Nat.add_0_r. reflexivity.
    + symmetry. apply not_true_is_false. rewrite namech_spec.
      apply not_first_first; [exact Hr|]. unfold namech, letter. lia.
  - cbn [app length] in *. replace (p + S (length name))%nat with (S p + length name)%nat by lia.
    eapply evt_ext; [|apply (IH pat (S p) r Hr)].
    + intros f. cbn [scan_name]. rewrite (At_rd _ _ _ Hp). cbn [rbind first].
      pose proof (first_ascii _ _ _ Hp) as B. cbn in B. rewrite ctype_in by lia. cbn [rbind].
      rewrite (proj2 (namech_spec c) Hc). reflexivity.
    + eapply At_cons; eauto.

Qed.

Lemma label_none pat p r : At pat p r -> not_first (eq 58) r ->
  forall f, label_at f pat p = Done (None, p).
Proof.
  intros H N f. unfold label_at. rewrite (At_rd _ _ _ H). cbn [rbind].
  replace (first r =? 58) with false; [reflexivity|].
  destruct r; cbn [first not_first] in *; symmetry; apply Z.eqb_neq; lia.
Qed.

Lemma label_end_split r' r : label_end r' r ->
  not_first namech r' /\ (r' = r /\ first r' <> 58 \/ r' = 58 :: r) /\ not_first (eq 58) r.
Proof.
  intros H. inversion H; subst; cbn.
  - split; [unfold namech, letter; lia|]. split; [right; reflexivity|assumption].
  - destruct r as [|c r]; cbn in *.
    + split; [exact I|]. split; [left; split; [reflexivity|lia]|exact I].
    + split; [tauto|]. split; [left; split; [reflexivity|]|]; intros E; apply H0; left; congruence.
Qed.

Lemma label_some name pat p r' r : Forall namech name -> label_end r' r ->
  At pat p (58 :: name ++ r') ->
  exists q, evt (fun f => label_at f pat p) (Some name, q) /\ At pat q r.
Proof.
  intros Hn Hl Hp. destruct (label_end_split _ _ Hl) as (N & E & _).
  pose proof (At_cons _ _ _ _ Hp) as Hp1. pose proof (At_app _ _ _ _ Hp1) as Hp2.
  pose proof (scan_name_ok _ Hn _ _ _ N Hp1) as S1.
  exists (if first r' =? 58 then S (S p + length name) else (S p + length name)%nat).
  split.
  - unfold label_at. eapply evt_ext; [intros f; rewrite (At_rd _ _ _ Hp); cbn [first rbind];
      change (58 =? 58) with true; cbv iota; reflexivity|].
    eapply evt_bind; [exact S1|]. apply evt_eq. intros f. rewrite (At_rd _ _ _ Hp2). cbn [rbind].
    rewrite (At_sub _ _ _ _ Hp1). reflexivity.
  - destruct E as [[-> E]| ->].
    + rewrite (proj2 (Z.eqb_neq _ _) E). exact Hp2.
    + cbn [first]. change (58 =? 58) with true. cbv iota. eapply At_cons; exact Hp2.
Qed.
