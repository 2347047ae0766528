(** The heap of shared captures refines the plain values of ResSpec. *)
From Verif Require Import Base RefModel RefProofs LatchProofs ArrayProofs ArrayState ResModel ResSpec.

(** ** One object *)

Definition flat (l : list (Z * Z)) : list Z := flat_map (fun p => [fst p; snd p]) l.
Lemma flat_len l : length (flat l) = (2 * length l)%nat.
Proof. induction l as [|p l IH]; [reflexivity|]. cbn [flat flat_map app length]. fold (flat l). lia. Qed.
Lemma flat_app a b : flat (a ++ b) = flat a ++ flat b.
Proof. apply flat_map_app. Qed.

(** The values once reserved *)
Definition full (b : body) : list Z :=
  if reserved b then k_vals b else repeat 0 (Z.to_nat ((k_pmax b - 1) * 2 + k_cmax b * 2)).

Definition Sees (b : body) (g : groups) : Prop :=
  k_pmax b = g_groups g /\ k_cmax b = g_limit g /\ 1 <= g_groups g <= 32767 /\ 0 <= g_limit g <= 127 /\
  k_used b = 2 * Z.of_nat (length (g_stack g)) /\ Z.of_nat (length (g_stack g)) <= g_limit g /\
  length (g_caps g) = Z.to_nat (2 * g_groups g - 2) /\
  (g_stack g <> [] -> reserved b = true) /\
  exists junk, full b = g_caps g ++ flat (rev (g_stack g)) ++ junk /\
    Z.of_nat (length junk) = 2 * g_limit g - 2 * Z.of_nat (length (g_stack g)).

Lemma sees_reserve b g : Sees b g -> exists b', reserve b = Ok b' /\ Sees b' g /\ full b' = k_vals b' /\ k_vals b' = full b.
Proof.
  intros (E1 & E2 & R1 & R2 & U & L & C & RS & junk & F & J). unfold reserve. destruct (reserved b) eqn:R.
  - exists b. unfold full. rewrite R. repeat split; auto; try lia. exists junk. unfold full in *. rewrite R in *. auto.
  - destruct (Z.ltb_spec ((k_pmax b - 1) * 2 + k_cmax b * 2) 0); [lia|]. eexists. split; [reflexivity|].
    assert (E : full {| k_pmax := k_pmax b; k_cmax := k_cmax b; k_used := k_used b; k_vals := repeat 0 (Z.to_nat ((k_pmax b - 1) * 2 + k_cmax b * 2)) |} = full b).
    { unfold full at 2. rewrite R. unfold full, reserved. cbn [k_vals k_pmax k_cmax]. destruct (0 <? _)%nat; reflexivity. }
    split; [|rewrite E; cbn [k_vals]; unfold full; rewrite R; split; reflexivity].
    unfold Sees. rewrite E. cbn [k_pmax k_cmax k_used]. do 5 (split; [auto; lia|]). split; [auto; lia|]. split; [auto; lia|]. split; [|exists junk; auto].
    intros N. specialize (RS N). congruence.
Qed.

Lemma at_split l1 x l2 i : i = Z.of_nat (length l1) -> at_ (l1 ++ x :: l2) i = Ok x.
Proof. intros ->. unfold at_. destruct (Z.ltb_spec (Z.of_nat (length l1)) 0); [lia|]. rewrite Nat2Z.id, nth_error_app2, Nat.sub_diag by lia. reflexivity. Qed.
Lemma put_split p c u l1 x l2 i y : i = Z.of_nat (length l1) ->
  put_at (mkbody p c u (l1 ++ x :: l2)) i y = Ok (mkbody p c u (l1 ++ y :: l2)).
Proof. intros E. unfold put_at. cbn [k_vals k_pmax k_cmax k_used]. rewrite (at_split _ _ _ _ E). cbn [obind]. subst. rewrite Nat2Z.id, upd_split. reflexivity. Qed.
Lemma upd_app1 {A} (l1 l2 : list A) i x : (i < length l1)%nat -> upd (l1 ++ l2) i x = upd l1 i x ++ l2.
Proof. revert i. induction l1 as [|a l1 IH]; intros [|i] H; cbn [length] in H; try lia; [reflexivity|]. cbn [app upd]. f_equal. apply IH. lia. Qed.

(** Rebuilding [Sees] for an object whose values are there *)
Lemma sees_intro p c u caps st junk v :
  1 <= p <= 32767 -> 0 <= c <= 127 -> u = 2 * Z.of_nat (length st) -> Z.of_nat (length st) <= c ->
  length caps = Z.to_nat (2 * p - 2) -> v = caps ++ flat (rev st) ++ junk ->
  Z.of_nat (length junk) = 2 * c - 2 * Z.of_nat (length st) ->
  Sees (mkbody p c u v) (mkgroups p c caps st).
Proof.
  intros P C U L LC -> J. unfold Sees. cbn [k_pmax k_cmax k_used g_groups g_limit g_stack g_caps].
  repeat split; try lia.
  { intros N. unfold reserved. cbn [k_vals]. apply Nat.ltb_lt. rewrite !app_length, flat_len, rev_length. destruct st; [congruence|cbn [length]; lia]. }
  exists junk. split; [|exact J]. unfold full. destruct (reserved _) eqn:R; [reflexivity|].
  unfold reserved in R. cbn [k_vals] in R. apply Nat.ltb_ge in R. rewrite !app_length, flat_len, rev_length in R. cbn [k_pmax k_cmax].
  assert (E0 : caps ++ flat (rev st) ++ junk = []). { apply length_zero_iff_nil. rewrite !app_length, flat_len, rev_length. lia. }
  rewrite E0. replace (Z.to_nat ((p - 1) * 2 + c * 2)) with 0%nat by lia. reflexivity.
Qed.

(** ** The object functions *)
Ltac sees_open H b g :=
  destruct b as [p c u v]; destruct g as [p' c' caps st]; destruct H as (E1 & E2 & R1 & R2 & U & L & C & RS & junk & F & J);
  cbn [k_pmax k_cmax k_used k_vals g_groups g_limit g_caps g_stack] in *; subst p' c'.

Definition setstack (g : groups) st := mkgroups (g_groups g) (g_limit g) (g_caps g) st.

Lemma push_ok b g off : Sees b g ->
  (Z.of_nat (length (g_stack g)) < g_limit g -> exists b', b_pushZero off b = Ok (b', 0) /\ Sees b' (setstack g ((off, 0) :: g_stack g))) /\
  (g_limit g <= Z.of_nat (length (g_stack g)) -> b_pushZero off b = Abort).
Proof.
  intros H. destruct (sees_reserve b g H) as (b1 & E & HS & F1 & F2). unfold b_pushZero. rewrite E. cbn [obind]. clear E H F2 b. rename HS into H.
  sees_open H b1 g. rewrite F1 in F. subst v. unfold setstack. cbn [g_groups g_limit g_caps g_stack].
  split; intros LT.
  - destruct (Z.ltb_spec u (c * 2)); [|lia]. cbn [cassert]. unfold counterBase. cbn [k_pmax k_used].
    destruct junk as [|a [|b junk]]; cbn [length] in J; try lia.
    rewrite app_assoc. rewrite put_split by (rewrite app_length, flat_len, rev_length; lia). cbn [obind]. unfold with_used. cbn [k_pmax k_cmax k_used k_vals].
    replace (u8 (u + 1)) with (u + 1) by (unfold u8; rewrite Z.mod_small; lia).
    replace ((caps ++ flat (rev st)) ++ off :: b :: junk) with ((caps ++ flat (rev st) ++ [off]) ++ b :: junk) by (rewrite <- !app_assoc; reflexivity).
    rewrite put_split by (rewrite !app_length, flat_len, rev_length; cbn [length]; lia). cbn [obind k_pmax k_cmax k_used k_vals].
    replace (u8 (u + 1 + 1)) with (u + 2) by (unfold u8; rewrite Z.mod_small; lia).
    eexists. split; [reflexivity|]. apply sees_intro with (junk := junk); try assumption; try (cbn [length]; lia).
    cbn [rev]. rewrite flat_app. cbn [flat flat_map fst snd app]. rewrite <- !app_assoc. reflexivity.
  - destruct (Z.ltb_spec u (c * 2)); [lia|reflexivity].
Qed.

Lemma stack_split caps st o k junk :
  caps ++ flat (rev ((o, k) :: st)) ++ junk = (caps ++ flat (rev st)) ++ o :: k :: junk.
Proof. cbn [rev]. rewrite flat_app. cbn [flat flat_map fst snd app]. rewrite <- !app_assoc. reflexivity. Qed.

Lemma incr_ok b g off : Sees b g ->
  match g_stack g with
  | (_, k) :: st => exists b', b_incr off b = Ok (b', u32 (k + 1)) /\ Sees b' (setstack g ((off, u32 (k + 1)) :: st))
  | [] => b_incr off b = Abort
  end.
Proof.
  intros H. destruct (sees_reserve b g H) as (b1 & E & HS & F1 & F2). unfold b_incr. rewrite E. cbn [obind]. clear E H F2 b. rename HS into H.
  sees_open H b1 g. rewrite F1 in F. subst v. unfold setstack. cbn [g_groups g_limit g_caps g_stack].
  destruct st as [|[o k] st]; cbn [length] in *.
  - subst u. reflexivity.
  - destruct (Z.gtb_spec u 0); [|lia]. cbn [cassert]. unfold counterBase. cbn [k_pmax k_used].
    rewrite stack_split. rewrite put_split by (rewrite !app_length, flat_len, rev_length; lia). cbn [obind k_pmax k_cmax k_used k_vals].
    replace ((caps ++ flat (rev st)) ++ off :: k :: junk) with ((caps ++ flat (rev st) ++ [off]) ++ k :: junk) by (rewrite <- !app_assoc; reflexivity).
    rewrite at_split by (rewrite !app_length, flat_len, rev_length; cbn [length]; lia). cbn [obind].
    rewrite put_split by (rewrite !app_length, flat_len, rev_length; cbn [length]; lia). cbn [obind].
    eexists. split; [reflexivity|]. apply sees_intro with (junk := junk); try assumption; try (cbn [length]; lia).
    rewrite stack_split, <- !app_assoc. reflexivity.
Qed.

Lemma pop_ok b g : Sees b g ->
  match g_stack g with
  | _ :: st => exists b', b_pop b = Ok (b', 0) /\ Sees b' (setstack g st)
  | [] => b_pop b = Abort
  end.
Proof.
  intros H. destruct (sees_reserve b g H) as (b1 & E & HS & F1 & F2). unfold b_pop. rewrite E. cbn [obind]. clear E H F2 b. rename HS into H.
  sees_open H b1 g. rewrite F1 in F. subst v. unfold setstack. cbn [g_groups g_limit g_caps g_stack].
  destruct st as [|[o k] st]; cbn [length] in *.
  - subst u. reflexivity.
  - destruct (Z.gtb_spec u 1); [|lia]. cbn [cassert]. unfold with_used. cbn [k_pmax k_cmax k_used k_vals].
    replace (u8 (u - 2)) with (u - 2) by (unfold u8; rewrite Z.mod_small; lia).
    eexists. split; [reflexivity|]. apply sees_intro with (junk := o :: k :: junk); try assumption; try (cbn [length]; lia).
    rewrite stack_split, <- !app_assoc. reflexivity.
Qed.

Lemma set_ok b g i x : Sees b g -> 2 <= i ->
  (i < 2 * g_groups g -> exists b', b_captureSet i x b = Ok (b', x) /\
     Sees b' (mkgroups (g_groups g) (g_limit g) (upd (g_caps g) (Z.to_nat (i - 2)) x) (g_stack g))) /\
  (2 * g_groups g <= i -> b_captureSet i x b = Abort).
Proof.
  intros H I. unfold b_captureSet. assert (PM : k_pmax b = g_groups g) by (destruct H; assumption). rewrite PM.
  split; intros LT.
  - destruct (Z.ltb_spec i 1); [lia|]. destruct (Z.geb_spec i (g_groups g * 2)); [lia|]. destruct (Z.ltb_spec i 2); [lia|]. cbn [orb negb cassert].
    destruct (sees_reserve b g H) as (b1 & E & HS & F1 & F2). rewrite E. cbn [obind]. clear E H F2 PM b. rename HS into H.
    sees_open H b1 g. rewrite F1 in F. subst v.
    unfold put_at, at_. cbn [k_vals]. destruct (Z.ltb_spec (i - 2) 0); [lia|].
    destruct (nth_error (caps ++ flat (rev st) ++ junk) (Z.to_nat (i - 2))) eqn:N.
    2:{ apply nth_error_None in N. rewrite app_length in N. lia. }
    cbn [obind k_pmax k_cmax k_used k_vals]. eexists. split; [reflexivity|]. rewrite upd_app1 by lia.
    apply sees_intro with (junk := junk); try assumption; try reflexivity. rewrite upd_length. exact C.
  - destruct (Z.ltb_spec i 1); [lia|]. destruct (Z.geb_spec i (g_groups g * 2)); [reflexivity|lia].
Qed.

Lemma new_sees c n : 0 <= c <= 127 -> 1 <= n <= 32767 -> Sees (new_body c n) (blank c n).
Proof.
  intros C N. unfold new_body, blank, Sees. cbn [k_pmax k_cmax k_used k_vals g_groups g_limit g_caps g_stack length rev flat flat_map app].
  replace (u8 c) with c by (unfold u8; rewrite Z.mod_small; lia). rewrite repeat_length. do 6 (split; [lia|]). split; [reflexivity|]. split; [congruence|].
  exists (repeat 0 (Z.to_nat (2 * c))). rewrite repeat_length. split; [|lia].
  unfold full, reserved. cbn [k_vals length k_pmax k_cmax]. rewrite <- repeat_app. change (0 <? 0)%nat with false. cbn match. f_equal. lia.
Qed.

(** Reading *)
Lemma num_ok b g : Sees b g -> b_counterNum b = Z.of_nat (length (g_stack g)).
Proof. intros H. sees_open H b g. unfold b_counterNum. cbn [k_used]. rewrite U, Z.mul_comm. apply Z.div_mul. lia. Qed.

Lemma reserved_used b g : Sees b g -> g_stack g <> [] -> reserved b = true /\ full b = k_vals b.
Proof.
  intros H N. assert (R : reserved b = true) by (apply H; exact N). unfold full. rewrite R. auto.
Qed.
Lemma flat_nth l : forall k p, nth_error l k = Some p -> nth_error (flat l) (2 * k) = Some (fst p) /\ nth_error (flat l) (2 * k + 1) = Some (snd p).
Proof.
  induction l as [|q l IH]; intros [|k] p E; try discriminate; cbn [nth_error] in E.
  - injection E as ->. split; reflexivity.
  - destruct (IH k p E) as [A B]. replace (2 * S k)%nat with (S (S (2 * k))) by lia. cbn [flat flat_map app nth_error]. fold (flat l).
    split; [exact A|]. replace (S (S (2 * k)) + 1)%nat with (S (S (2 * k + 1))) by lia. exact B.
Qed.
Lemma get_ok b g i q : Sees b g -> nth_error (g_stack g) i = Some q -> b_counterGet b (Z.of_nat i) = Ok (snd q).
Proof.
  intros H E. assert (N : g_stack g <> []) by (intros X; rewrite X in E; destruct i; discriminate).
  destruct (reserved_used b g H N) as [R FV]. unfold b_counterGet. rewrite R. clear N. assert (IL := nth_lt _ _ _ E).
  sees_open H b g. unfold counterBase. cbn [k_pmax k_used]. unfold rdZ. destruct (Z.ltb_spec (p * 2 - 2 + u - Z.of_nat i * 2 - 1) 0); [lia|].
  rewrite FV in F. subst v. apply rd_ok.
  assert (E' : nth_error (rev st) (length st - S i) = Some q).
  { rewrite nth_error_nth' with (d := q) by (rewrite rev_length; lia). rewrite rev_nth by lia.
    replace (length st - S (length st - S i))%nat with i by lia. f_equal. apply nth_error_nth with (d := q) in E. exact E. }
  destruct (flat_nth _ _ _ E') as [_ A]. rewrite nth_error_app2 by lia. rewrite nth_error_app1 by (rewrite flat_len, rev_length; lia).
  rewrite <- A. f_equal. lia.
Qed.
Lemma top_ok b g : Sees b g -> match g_stack g with p :: _ => b_top b = Ok p | [] => b_top b = Abort end.
Proof.
  intros H. destruct (g_stack g) as [|[o k] r] eqn:S.
  - destruct H as (_ & _ & _ & _ & U & _). rewrite S in U. cbn in U. unfold b_top. rewrite U. reflexivity.
  - destruct (reserved_used b g H) as [R FV]; [congruence|]. sees_open H b g. subst st. unfold b_top. cbn [length] in U. cbn [k_used k_vals].
    destruct (Z.gtb_spec u 0); [|lia]. cbn [cassert]. rewrite FV in F. subst v. rewrite stack_split. unfold counterBase. cbn [k_pmax k_used].
    rewrite at_split by (rewrite app_length, flat_len, rev_length; lia). cbn [obind].
    replace ((caps ++ flat (rev r)) ++ o :: k :: junk) with ((caps ++ flat (rev r) ++ [o]) ++ k :: junk) by (rewrite <- !app_assoc; reflexivity).
    rewrite at_split by (rewrite !app_length, flat_len, rev_length; cbn [length]; lia). reflexivity.
Qed.
Lemma capture_ok b g i : Sees b g -> 2 <= i ->
  match (if i <? 2 * g_groups g then nth_error (g_caps g) (Z.to_nat (i - 2)) else None) with
  | Some x => b_capture b i = Ok x
  | None => b_capture b i = Abort
  end.
Proof.
  intros H I. assert (HF := H). sees_open H b g. unfold b_capture. cbn [k_pmax].
  destruct (Z.ltb_spec i 1); [lia|]. destruct (Z.geb_spec i (p * 2)), (Z.ltb_spec i (2 * p)); try lia; [reflexivity|].
  destruct (Z.ltb_spec i 2); [lia|]. cbn [orb negb cassert]. destruct (nth_error caps (Z.to_nat (i - 2))) eqn:E.
  2:{ apply nth_error_None in E. lia. }
  destruct (reserved _) eqn:R; cbn [negb].
  - unfold full in F. rewrite R in F. cbn [k_vals] in *. subst v. unfold at_. destruct (Z.ltb_spec (i - 2) 0); [lia|].
    rewrite nth_error_app1 by lia. rewrite E. reflexivity.
  - unfold full in F. rewrite R in F. assert (IN : In z (repeat 0 (Z.to_nat ((p - 1) * 2 + c * 2)))).
    { cbn [k_pmax k_cmax] in F. rewrite F. apply in_or_app. left. eapply nth_error_In. exact E. }
    apply repeat_spec in IN. subst. reflexivity.
Qed.

(** ** The heap *)
Definition cell (h : heap) (b : nat) : option (Z * body) := match nth_error h b with Some (Some x) => Some x | _ => None end.
Definition payload (h : heap) (b : nat) : option body := option_map snd (cell h b).
Definition is (b : nat) (r : option nat) : Z := match r with Some c => if Nat.eqb c b then 1 else 0 | None => 0 end.
Lemma is_pos b r : 0 <= is b r <= 1.
Proof. destruct r as [c|]; cbn; [destruct (Nat.eqb c b); lia|lia]. Qed.

(** Reference counts are [f]; [e] may be an object nobody refers to yet *)
Definition CI (e : option nat) (h : heap) (f : nat -> Z) : Prop :=
  (forall b, 0 <= f b) /\
  (forall b n x, cell h b = Some (n, x) -> n = f b /\ (e <> Some b -> 0 < n)) /\
  (forall b, 0 < f b -> cell h b <> None).

Lemma hget_cell h b : hget h b = match cell h b with Some x => Ok x | None => UB end.
Proof. unfold hget, cell. destruct (nth_error h b) as [[x|]|]; reflexivity. Qed.
Lemma cell_upd h b x c y : cell h b = Some y -> cell (upd h b x) c = if Nat.eqb c b then x else cell h c.
Proof.
  intros H. unfold cell in *. rewrite nth_upd. destruct (nth_error h b) eqn:E; [|discriminate]. apply nth_lt in E.
  destruct (Nat.eqb_spec c b); destruct (Nat.ltb_spec b (length h)); try lia; cbn [andb]; [destruct x as [[]|]; reflexivity|reflexivity].
Qed.
Lemma cell_snoc h x c : cell (h ++ [Some x]) c = if Nat.eqb c (length h) then Some x else cell h c.
Proof.
  unfold cell. destruct (Nat.eqb_spec c (length h)).
  - subst. rewrite nth_error_app2, Nat.sub_diag by lia. reflexivity.
  - destruct (Nat.lt_ge_cases c (length h)); [rewrite nth_error_app1 by assumption; reflexivity|].
    rewrite nth_error_app2 by lia. assert (E : nth_error h c = None) by (apply nth_error_None; lia). rewrite E.
    destruct (c - length h)%nat as [|k] eqn:Ek; [lia|]. destruct k; reflexivity.
Qed.
Lemma cell_beyond h : cell h (length h) = None.
Proof. unfold cell. assert (E : nth_error h (length h) = None) by (apply nth_error_None; lia). rewrite E. reflexivity. Qed.

Lemma addref_c e h f r : CI e h f -> (forall b, r = Some b -> cell h b <> None) -> (e = None \/ e = r) ->
  exists h', addref h r = Ok h' /\ CI None h' (fun b => f b + is b r) /\ forall b, payload h' b = payload h b.
Proof.
  intros (F0 & C & A) L E. destruct r as [b|]; cbn [addref].
  - rewrite hget_cell. destruct (cell h b) as [[n x]|] eqn:Hb; [|exfalso; apply (L b); [reflexivity|exact Hb]]. cbn [obind fst snd].
    eexists. split; [reflexivity|]. split.
    + unfold CI. split; [intros c; assert (H := is_pos c (Some b)); assert (H2 := F0 c); lia|]. split.
      * intros c m y. rewrite (cell_upd _ _ _ _ _ Hb). cbn [is]. rewrite (Nat.eqb_sym b c). destruct (Nat.eqb_spec c b).
        -- subst c. intros Q. injection Q as <- <-. destruct (C _ _ _ Hb) as [Q _]. assert (H2 := F0 b). split; [lia|intros _; lia].
        -- intros Q. destruct (C _ _ _ Q) as [Q1 Q2]. split; [lia|]. intros _. apply Q2. destruct E as [->| ->]; congruence.
      * intros c. rewrite (cell_upd _ _ _ _ _ Hb). cbn [is]. rewrite (Nat.eqb_sym b c). destruct (Nat.eqb_spec c b); [discriminate|]. intros P. apply A. lia.
    + intros c. unfold payload. rewrite (cell_upd _ _ _ _ _ Hb). destruct (Nat.eqb_spec c b); [subst; rewrite Hb; reflexivity|reflexivity].
  - eexists. split; [reflexivity|]. split; [|reflexivity]. split; [intros b; cbn; specialize (F0 b); lia|]. split.
    + intros b n x Q. destruct (C _ _ _ Q) as [Q1 Q2]. split; [cbn; lia|]. intros _. apply Q2. destruct E as [->| ->]; discriminate.
    + intros b P. apply A. cbn in P. lia.
Qed.

Lemma release_c h f r : CI None h f -> (forall b, r = Some b -> 0 < f b) ->
  exists h', release h r = Ok h' /\ CI None h' (fun b => f b - is b r) /\ forall b, 0 < f b - is b r -> payload h' b = payload h b.
Proof.
  intros (F0 & C & A) L. destruct r as [b|]; cbn [release].
  - specialize (L b eq_refl). rewrite hget_cell. destruct (cell h b) as [[n x]|] eqn:Hb; [|exfalso; apply (A b L); exact Hb].
    destruct (C _ _ _ Hb) as [-> P]. cbn [obind fst snd]. destruct (Z.gtb_spec (f b) 0); [|lia]. cbn [cassert].
    eexists. split; [reflexivity|].
    assert (V : forall c, is c (Some b) = if Nat.eqb c b then 1 else 0) by (intros c; cbn; rewrite Nat.eqb_sym; reflexivity).
    split; [split; [|split]|].
    + intros c. rewrite V. specialize (F0 c). destruct (Nat.eqb_spec c b); [subst; lia|lia].
    + intros c m y. rewrite (cell_upd _ _ _ _ _ Hb), V. destruct (Nat.eqb_spec c b).
      * subst c. destruct (Z.eqb_spec (f b - 1) 0); [discriminate|]. intros Q. injection Q as <- <-. split; [reflexivity|intros _; lia].
      * intros Q. destruct (C _ _ _ Q) as [Q1 Q2]. split; [lia|exact Q2].
    + intros c. rewrite (cell_upd _ _ _ _ _ Hb), V. destruct (Nat.eqb_spec c b).
      * subst c. intros Q. destruct (Z.eqb_spec (f b - 1) 0); [lia|discriminate].
      * intros Q. apply A. lia.
    + intros c. rewrite V. unfold payload. rewrite (cell_upd _ _ _ _ _ Hb). destruct (Nat.eqb_spec c b); [|reflexivity].
      subst c. intros Q. destruct (Z.eqb_spec (f b - 1) 0); [lia|]. rewrite Hb. reflexivity.
  - eexists. split; [reflexivity|]. split; [|reflexivity]. split; [intros b; cbn; specialize (F0 b); lia|]. split.
    + intros b n x Q. destruct (C _ _ _ Q) as [Q1 Q2]. split; [cbn; lia|exact Q2].
    + intros b P. apply A. cbn in P. lia.
Qed.

Fixpoint cnt (b : nat) (vs : list rvar) : Z := match vs with [] => 0 | y :: vs => is b (x_ref y) + cnt b vs end.
Lemma cnt_upd b : forall vs d y y', nth_error vs d = Some y -> cnt b (upd vs d y') = cnt b vs - is b (x_ref y) + is b (x_ref y').
Proof.
  induction vs as [|z vs IH]; intros [|d] y y' E; try discriminate; cbn [nth_error] in E.
  - injection E as ->. cbn [upd cnt]. lia.
  - cbn [upd cnt]. rewrite (IH _ _ _ E). lia.
Qed.
Lemma cnt_pos b vs : 0 <= cnt b vs.
Proof. induction vs as [|y vs IH]; cbn [cnt]; [lia|]. assert (H := is_pos b (x_ref y)). lia. Qed.
Lemma cnt_in b vs d y : nth_error vs d = Some y -> x_ref y = Some b -> 0 < cnt b vs.
Proof.
  revert d. induction vs as [|z vs IH]; intros [|d] E R; try discriminate; cbn [nth_error cnt] in *.
  - injection E as ->. rewrite R. cbn. rewrite Nat.eqb_refl. assert (H := cnt_pos b vs). lia.
  - specialize (IH d E R). assert (H := is_pos b (x_ref z)). lia.
Qed.
Lemma cnt_one b vs d y : nth_error vs d = Some y -> x_ref y = Some b -> cnt b vs <= 1 ->
  forall u z, nth_error vs u = Some z -> u <> d -> x_ref z <> Some b.
Proof.
  revert d. induction vs as [|w vs IH]; intros [|d] E R L u z EU NE X; try discriminate; cbn [nth_error cnt] in *.
  - injection E as ->. rewrite R in L. cbn in L. rewrite Nat.eqb_refl in L. destruct u as [|u]; [congruence|]. cbn in EU.
    assert (H := cnt_in b vs u z EU X). lia.
  - destruct u as [|u]; cbn in EU.
    + injection EU as ->. rewrite X in L. cbn in L. rewrite Nat.eqb_refl in L. assert (H := cnt_in b vs d y E R). lia.
    + apply (IH d E R) with (u := u) (z := z); [|exact EU|congruence|exact X]. assert (H := is_pos b (x_ref w)). lia.
Qed.

Lemma CI_ext e h f g : (forall b, f b = g b) -> CI e h f -> CI e h g.
Proof.
  intros E (A & B & C). split; [intros b; rewrite <- E; apply A|]. split.
  - intros b n x H. rewrite <- E. apply B in H. exact H.
  - intros b. rewrite <- E. apply C.
Qed.
Lemma rassign_c e h vs d y r c0 c1 : CI e h (fun b => cnt b vs) -> nth_error vs d = Some y ->
  (forall b, r = Some b -> cell h b <> None) -> (e = None \/ e = r) ->
  exists h', rassign h (x_ref y) r = Ok h' /\ CI None h' (fun b => cnt b (upd vs d (mkvar c0 c1 r))) /\
    forall b, 0 < cnt b (upd vs d (mkvar c0 c1 r)) -> payload h' b = payload h b.
Proof.
  intros I E L EE. unfold rassign. destruct (addref_c e h _ r I L EE) as (h1 & E1 & I1 & P1). rewrite E1. cbn [obind].
  destruct (release_c h1 _ (x_ref y) I1) as (h2 & E2 & I2 & P2).
  { intros b R. assert (H := cnt_in b vs d y E R). assert (H2 := is_pos b r). lia. }
  exists h2. split; [exact E2|]. split.
  - eapply CI_ext; [|exact I2]. intros b. cbv beta. rewrite (cnt_upd b _ _ _ _ E). cbn [x_ref]. lia.
  - intros b. rewrite (cnt_upd b _ _ _ _ E). cbn [x_ref]. intros P. rewrite <- P1. apply P2. lia.
Qed.

(** ** The states *)
Definition SeesV (h : heap) (y : rvar) (v : value) : Prop :=
  x_cap0 y = v_start v /\ x_cap1 y = v_end v /\
  match x_ref y, v_data v with
  | None, None => True
  | Some b, Some g => exists x, payload h b = Some x /\ Sees x g
  | _, _ => False
  end.
Definition Rel (s : rstate) (vs : list value) : Prop :=
  CI None (rh s) (fun b => cnt b (rv s)) /\ length (rv s) = length vs /\
  forall d y v, nth_error (rv s) d = Some y -> nth_error vs d = Some v -> SeesV (rh s) y v.

Lemma payload_cell h b x : payload h b = Some x -> exists n, cell h b = Some (n, x).
Proof. unfold payload. destruct (cell h b) as [[n z]|]; [|discriminate]. cbn. intros E. injection E as ->. eauto. Qed.
Lemma rel_nth s vs d : Rel s vs -> match nth_error (rv s) d with
  | Some y => exists v, nth_error vs d = Some v /\ SeesV (rh s) y v
  | None => nth_error vs d = None end.
Proof.
  intros (_ & L & H). destruct (nth_error (rv s) d) as [y|] eqn:E.
  - destruct (nth_error vs d) as [v|] eqn:E2; [eauto|]. apply nth_error_None in E2. apply nth_lt in E. lia.
  - apply nth_error_None in E. apply nth_error_None. lia.
Qed.

(** Giving variable [d] other captures *)
Lemma rset_rel s h e vs d y r c0 c1 v :
  length (rv s) = length vs ->
  CI e h (fun b => cnt b (rv s)) -> (forall u z w, nth_error (rv s) u = Some z -> nth_error vs u = Some w -> SeesV h z w) ->
  nth_error (rv s) d = Some y -> (e = None \/ e = r) -> SeesV h (mkvar c0 c1 r) v ->
  exists s', rset s h d y r c0 c1 = Ok (s', 0) /\ Rel s' (upd vs d v).
Proof.
  intros L I H E EE SV. destruct (rassign_c e h (rv s) d y r c0 c1 I E) as (h' & EA & I' & P); [|exact EE|].
  { intros b ->. destruct SV as (_ & _ & SV). cbn [x_ref] in SV. destruct (v_data v); [|destruct SV]. destruct SV as (x & Px & _).
    apply payload_cell in Px as [n Px]. congruence. }
  unfold rset. rewrite EA. cbn [obind]. eexists. split; [reflexivity|]. split; [exact I'|]. cbn [rh rv]. split; [rewrite !upd_length; exact L|].
  assert (K : forall u z w, nth_error (upd (rv s) d (mkvar c0 c1 r)) u = Some z -> SeesV h z w -> SeesV h' z w).
  { intros u z w EU (A & B & C). split; [exact A|split; [exact B|]]. destruct (x_ref z) as [b|] eqn:R; [|exact C].
    destruct (v_data w); [|exact C]. destruct C as (x & Px & C). exists x. split; [|exact C]. rewrite P; [exact Px|].
    eapply cnt_in; [exact EU|exact R]. }
  intros u z w EU EW. apply (K u z w EU). destruct (Nat.eq_dec u d) as [->|N].
  - rewrite nth_upd_lt in EU by (apply nth_lt in E; exact E). rewrite nth_upd_lt in EW by (apply nth_lt in E; lia).
    injection EU as <-. injection EW as <-. exact SV.
  - rewrite nth_upd_ne in EU by congruence. rewrite nth_upd_ne in EW by congruence. eapply H; eassumption.
Qed.

Lemma upd_upd {A} (l : list A) i a b : upd (upd l i a) i b = upd l i b.
Proof. revert i. induction l as [|x l IH]; intros [|i]; cbn [upd]; try reflexivity. f_equal. apply IH. Qed.

Lemma cnt_beyond e h vs : CI e h (fun b => cnt b vs) -> cnt (length h) vs = 0.
Proof.
  intros (_ & _ & A). assert (H := cnt_pos (length h) vs). destruct (Z.eq_dec (cnt (length h) vs) 0); [assumption|].
  exfalso. apply (A (length h)); [lia|]. apply cell_beyond.
Qed.
Lemma fresh_c h vs x : CI None h (fun b => cnt b vs) -> CI (Some (length h)) (h ++ [Some (0, x)]) (fun b => cnt b vs).
Proof.
  intros I. assert (Z0 := cnt_beyond _ _ _ I). destruct I as (F0 & C & A). split; [exact F0|]. split.
  - intros b n y. rewrite cell_snoc. destruct (Nat.eqb_spec b (length h)).
    + intros Q. injection Q as <- <-. subst. split; [lia|congruence].
    + intros Q. destruct (C _ _ _ Q) as [Q1 Q2]. split; [exact Q1|]. intros _. apply Q2. discriminate.
  - intros b P. rewrite cell_snoc. destruct (Nat.eqb_spec b (length h)); [discriminate|]. apply A. exact P.
Qed.
Lemma sees_fresh h x y v : SeesV h y v -> SeesV (h ++ [Some x]) y v.
Proof.
  intros (A & B & C). split; [exact A|split; [exact B|]]. destruct (x_ref y) as [b|]; [|exact C]. destruct (v_data v); [|exact C].
  destruct C as (z & Pz & C). exists z. split; [|exact C]. unfold payload in *. rewrite cell_snoc.
  destruct (Nat.eqb_spec b (length h)); [subst; rewrite cell_beyond in Pz; discriminate|exact Pz].
Qed.

(** Writing to an object only [d] refers to *)
Lemma write_rel s vs d y v b x n g' x' :
  Rel s vs -> nth_error (rv s) d = Some y -> nth_error vs d = Some v -> x_ref y = Some b ->
  cell (rh s) b = Some (n, x) -> n <= 1 -> Sees x' g' ->
  Rel (mkstate (upd (rh s) b (Some (n, x'))) (rv s)) (upd vs d (mkvalue (v_start v) (v_end v) (Some g'))).
Proof.
  intros (I & L & H) E EV R CB N1 S. assert (HV := H _ _ _ E EV). destruct I as (F0 & C & A). cbn [rh rv].
  destruct (C _ _ _ CB) as [CN PN]. cbv beta in CN.
  split; [split; [exact F0|split]|].
  - intros c m z. cbn [rh]. rewrite (cell_upd _ _ _ _ _ CB). destruct (Nat.eqb_spec c b); [|apply C]. subst. intros Q. injection Q as <- <-.
    exact (conj eq_refl PN).
  - intros c P. cbn [rh]. rewrite (cell_upd _ _ _ _ _ CB). destruct (Nat.eqb_spec c b); [discriminate|]. apply A. exact P.
  - cbn [rh rv]. split; [rewrite upd_length; exact L|]. intros u z w EU EW. destruct (Nat.eq_dec u d) as [->|ND].
    + rewrite nth_upd_lt in EW by (apply nth_lt in E; lia). injection EW as <-. assert (z = y) by congruence. subst z.
      destruct HV as (V0 & V1 & _). split; [exact V0|]. split; [exact V1|]. cbn [v_data]. rewrite R. exists x'. split; [|exact S].
      unfold payload. rewrite (cell_upd _ _ _ _ _ CB), Nat.eqb_refl. reflexivity.
    + rewrite nth_upd_ne in EW by congruence. destruct (H _ _ _ EU EW) as (V0 & V1 & V2). split; [exact V0|]. split; [exact V1|].
      destruct (x_ref z) as [c|] eqn:RZ; [|exact V2]. destruct (v_data w); [|exact V2]. destruct V2 as (q & Pq & V2). exists q. split; [|exact V2].
      unfold payload in *. rewrite (cell_upd _ _ _ _ _ CB). destruct (Nat.eqb_spec c b); [|exact Pq]. subst c. exfalso.
      refine (cnt_one b (rv s) d y E R _ u z EU ND RZ). lia.
Qed.

Lemma unshare_rel s vs d y v g : Rel s vs -> nth_error (rv s) d = Some y -> nth_error vs d = Some v -> v_data v = Some g ->
  exists h b n x, runshare (rh s) (x_ref y) = Ok (h, b) /\
    Rel (mkstate h (upd (rv s) d (mkvar (x_cap0 y) (x_cap1 y) (Some b)))) vs /\ cell h b = Some (n, x) /\ n <= 1 /\ Sees x g.
Proof.
  intros HR E EV DV. assert (HR0 := HR). destruct HR as (I & L & H). assert (HV := H _ _ _ E EV). assert (HV0 := HV). destruct HV as (V0 & V1 & V2).
  rewrite DV in V2. destruct (x_ref y) as [b|] eqn:R; [|destruct V2]. destruct V2 as (x & Px & V2). apply payload_cell in Px as [n CB].
  cbn [runshare]. rewrite hget_cell, CB. cbn [obind fst snd]. destruct (Z.leb_spec n 1).
  - exists (rh s), b, n, x. split; [reflexivity|]. split; [|auto].
    replace {| x_cap0 := x_cap0 y; x_cap1 := x_cap1 y; x_ref := Some b |} with y by (destruct y; cbn in *; congruence).
    rewrite (upd_same _ _ _ E). destruct s. exact HR0.
  - set (h1 := rh s ++ [Some (0, x)]).
    destruct (rset_rel s h1 (Some (length (rh s))) vs d y (Some (length (rh s))) (x_cap0 y) (x_cap1 y) v L) as (s' & ES & RS).
    + apply fresh_c. exact I.
    + intros u z w EU EW. apply sees_fresh. eapply H; eassumption.
    + exact E.
    + right. reflexivity.
    + split; [exact V0|]. split; [exact V1|]. cbn [x_ref]. rewrite DV. exists x. split; [|exact V2]. unfold payload, h1. rewrite cell_snoc, Nat.eqb_refl. reflexivity.
    + unfold rset in ES. rewrite R in ES. destruct (rassign h1 (Some b) (Some (length (rh s)))) as [h2| |] eqn:EA; [|discriminate..].
      cbn [obind] in ES. assert (s' = mkstate h2 (upd (rv s) d {| x_cap0 := x_cap0 y; x_cap1 := x_cap1 y; x_ref := Some (length (rh s)) |})) by congruence. subst s'. clear ES.
      rewrite (upd_same _ _ _ EV) in RS. cbn [obind]. assert (RS0 := RS). destruct RS as (I2 & L2 & H2). cbn [rh rv] in *.
      assert (EN : nth_error (upd (rv s) d {| x_cap0 := x_cap0 y; x_cap1 := x_cap1 y; x_ref := Some (length (rh s)) |}) d = Some {| x_cap0 := x_cap0 y; x_cap1 := x_cap1 y; x_ref := Some (length (rh s)) |}).
      { apply nth_upd_lt. apply nth_lt in E. exact E. }
      destruct (H2 _ _ _ EN EV) as (_ & _ & W). cbn [x_ref] in W. rewrite DV in W. destruct W as (x2 & P2 & W). apply payload_cell in P2 as [n2 C2].
      exists h2, (length (rh s)), n2, x2. split; [reflexivity|]. split; [exact RS0|]. split; [exact C2|]. split; [|exact W].
      destruct I2 as (_ & C & _). destruct (C _ _ _ C2) as [-> _]. rewrite (cnt_upd _ _ _ _ _ E). rewrite (cnt_beyond _ _ _ I). cbn [x_ref is]. rewrite Nat.eqb_refl.
      assert (Q := is_pos (length (rh s)) (x_ref y)). lia.
Qed.

Lemma change_rel s vs d y v g f g' r : Rel s vs -> nth_error (rv s) d = Some y -> nth_error vs d = Some v -> v_data v = Some g ->
  (forall x, Sees x g -> exists x', f x = Ok (x', r) /\ Sees x' g') ->
  exists s', rchange s d y f = Ok (s', r) /\ Rel s' (upd vs d (mkvalue (v_start v) (v_end v) (Some g'))).
Proof.
  intros HR E EV DV F. destruct (unshare_rel s vs d y v g HR E EV DV) as (h & b & n & x & EU & RU & C & N & SX).
  destruct (F x SX) as (x' & EF & SX'). unfold rchange. rewrite EU. cbn [obind fst snd]. rewrite hget_cell, C. cbn [obind fst snd]. rewrite EF. cbn [obind fst snd].
  eexists. split; [reflexivity|]. refine (write_rel _ vs d _ v b x n g' x' RU _ EV _ C N SX').
  - cbn [rv]. apply nth_upd_lt. apply nth_lt in E. exact E.
  - reflexivity.
Qed.
Lemma change_fail s vs d y v g f : Rel s vs -> nth_error (rv s) d = Some y -> nth_error vs d = Some v -> v_data v = Some g ->
  (forall x, Sees x g -> f x = Abort) -> rchange s d y f = Abort.
Proof.
  intros HR E EV DV F. destruct (unshare_rel s vs d y v g HR E EV DV) as (h & b & n & x & EU & RU & C & N & SX).
  unfold rchange. rewrite EU. cbn [obind fst snd]. rewrite hget_cell, C. cbn [obind fst snd]. rewrite (F x SX). reflexivity.
Qed.

Definition fails {A} (x : outcome A) : Prop := match x with Ok _ => False | _ => True end.

Lemma rset_keep s vs d y r c0 c1 v : Rel s vs -> nth_error (rv s) d = Some y -> SeesV (rh s) (mkvar c0 c1 r) v ->
  exists s', rset s (rh s) d y r c0 c1 = Ok (s', 0) /\ Rel s' (upd vs d v).
Proof. intros (I & L & H) E S. eapply rset_rel with (e := None); eauto. Qed.

Lemma ends_rel s vs d y v c0 c1 : Rel s vs -> nth_error (rv s) d = Some y -> nth_error vs d = Some v ->
  Rel (mkstate (rh s) (upd (rv s) d (mkvar c0 c1 (x_ref y)))) (upd vs d (mkvalue c0 c1 (v_data v))).
Proof.
  intros (I & L & H) E EV. split; [|split].
  - eapply CI_ext; [|exact I]. intros b. cbv beta. cbn [rv]. rewrite (cnt_upd _ _ _ _ _ E). cbn [x_ref]. lia.
  - cbn [rv]. rewrite !upd_length. exact L.
  - cbn [rh rv]. intros u z w EU EW. destruct (Nat.eq_dec u d) as [->|N].
    + rewrite nth_upd_lt in EU by (apply nth_lt in E; exact E). rewrite nth_upd_lt in EW by (apply nth_lt in EV; exact EV).
      injection EU as <-. injection EW as <-. destruct (H _ _ _ E EV) as (_ & _ & V). exact (conj eq_refl (conj eq_refl V)).
    + rewrite nth_upd_ne in EU by congruence. rewrite nth_upd_ne in EW by congruence. eapply H; eassumption.
Qed.

Lemma stack_rel s vs d y v f fs : Rel s vs -> nth_error (rv s) d = Some y -> nth_error vs d = Some v ->
  (forall x g, Sees x g -> match fs g with
    | Some st => exists x' , f x = Ok (x', 0) /\ Sees x' (setstack g st) | None => f x = Abort end) ->
  match with_stack v fs with
  | Some v' => exists s', rchange s d y f = Ok (s', 0) /\ Rel s' (upd vs d v')
  | None => fails (rchange s d y f)
  end.
Proof.
  intros HR E EV F. unfold with_stack. destruct (v_data v) as [g|] eqn:DV.
  - destruct (fs g) as [st|] eqn:FG; cbn [option_map].
    + apply (change_rel s vs d y v g f (setstack g st) 0 HR E EV DV). intros x S. specialize (F x g S). rewrite FG in F. exact F.
    + rewrite (change_fail s vs d y v g f HR E EV DV); [exact Logic.I|]. intros x S. specialize (F x g S). rewrite FG in F. exact F.
  - destruct HR as (_ & _ & H). destruct (H _ _ _ E EV) as (_ & _ & V). rewrite DV in V. destruct (x_ref y) eqn:R; [destruct V|].
    unfold rchange. rewrite R. exact Logic.I.
Qed.

Lemma step_rel s vs o : Rel s vs -> fit o ->
  match vstep vs o with
  | Some (vs', r) => exists s', rstep s o = Ok (s', r) /\ Rel s' vs'
  | None => fails (rstep s o)
  end.
Proof.
  intros HR FO. destruct o as [d c n|d|d v|v|v i x|v off|v off|v]; cbn [vstep rstep].
  - assert (HN := rel_nth s vs d HR). destruct (nth_error (rv s) d) as [y|] eqn:E; [|rewrite HN; eauto]. destruct HN as (w & EW & _). rewrite EW. cbn [option_map].
    destruct HR as (I & L & H). cbn [fit] in FO. eapply rset_rel; try eassumption.
    + apply fresh_c. exact I.
    + intros u z q EU EQ. apply sees_fresh. eapply H; eassumption.
    + right. reflexivity.
    + split; [reflexivity|]. split; [reflexivity|]. cbn [x_ref v_data]. exists (new_body c n). split; [|apply new_sees; lia]. unfold payload. rewrite cell_snoc, Nat.eqb_refl. reflexivity.
  - assert (HN := rel_nth s vs d HR). destruct (nth_error (rv s) d) as [y|] eqn:E; [|rewrite HN; eauto]. destruct HN as (w & EW & _). rewrite EW. cbn [option_map].
    apply rset_keep; [exact HR|exact E|]. split; [reflexivity|]. split; [reflexivity|]. exact Logic.I.
  - assert (HN := rel_nth s vs v HR). destruct (nth_error (rv s) v) as [z|] eqn:EZ; [|rewrite HN; eauto]. destruct HN as (q & EQ & SQ). rewrite EQ.
    assert (HN := rel_nth s vs d HR). destruct (nth_error (rv s) d) as [y|] eqn:E; [|rewrite HN; eauto]. destruct HN as (w & EW & _). rewrite EW. cbn [option_map].
    apply rset_keep; [exact HR|exact E|]. exact SQ.
  - assert (HN := rel_nth s vs v HR). destruct (nth_error (rv s) v) as [y|] eqn:E; [|rewrite HN; eauto]. destruct HN as (w & EW & _). rewrite EW. cbn [option_map].
    apply rset_keep; [exact HR|exact E|]. split; [reflexivity|]. split; [reflexivity|]. exact Logic.I.
  - assert (HN := rel_nth s vs v HR). destruct (nth_error (rv s) v) as [y|] eqn:E; [|rewrite HN; eauto]. destruct HN as (w & EW & SW). rewrite EW.
    unfold set_capture. destruct (Z.eqb_spec i 0); [|destruct (Z.leb_spec i 1)].
    + subst i. cbn [Z.leb Z.compare option_map]. eexists. split; [reflexivity|].
      assert (V1 := proj1 (proj2 SW)). rewrite <- V1. exact (ends_rel s vs v y w _ _ HR E EW).
    + cbn [option_map]. eexists. split; [reflexivity|]. rewrite <- (proj1 SW). exact (ends_rel s vs v y w _ _ HR E EW).
    + destruct (v_data w) as [g|] eqn:DV.
      * assert (V2 := proj2 (proj2 SW)). rewrite DV in V2. destruct (x_ref y) eqn:R; [|destruct V2]. cbn [cassert]. destruct (Z.ltb_spec i (2 * g_groups g)); cbn [option_map].
        -- destruct (change_rel s vs v y w g (b_captureSet i x) (mkgroups (g_groups g) (g_limit g) (upd (g_caps g) (Z.to_nat (i - 2)) x) (g_stack g)) x HR E EW DV) as (s' & ES & RS).
           { intros q SQ. apply (set_ok q g i x SQ); lia. }
           rewrite ES. cbn [obind fst]. eauto.
        -- rewrite (change_fail s vs v y w g _ HR E EW DV); [exact Logic.I|]. intros q SQ. apply (set_ok q g i x SQ); lia.
      * assert (V2 := proj2 (proj2 SW)). rewrite DV in V2. destruct (x_ref y) eqn:R; [destruct V2|]. exact Logic.I.
  - assert (HN := rel_nth s vs v HR). destruct (nth_error (rv s) v) as [y|] eqn:E; [|rewrite HN; eauto]. destruct HN as (w & EW & SW). rewrite EW.
    assert (Q := stack_rel s vs v y w (b_pushZero off) (fun g => if Z.of_nat (length (g_stack g)) <? g_limit g then Some ((off, 0) :: g_stack g) else None) HR E EW).
    fold (push_counter w off) in Q. destruct (push_counter w off); cbn [option_map]; apply Q; intros x g S; destruct (push_ok x g off S) as [A B];
      destruct (Z.ltb_spec (Z.of_nat (length (g_stack g))) (g_limit g)); auto.
  - assert (HN := rel_nth s vs v HR). destruct (nth_error (rv s) v) as [y|] eqn:E; [|rewrite HN; eauto]. destruct HN as (w & EW & SW). rewrite EW.
    unfold incr_counter, with_stack. destruct (v_data w) as [g|] eqn:DV.
    + destruct (g_stack g) as [|[o k] st] eqn:ST; cbn [option_map].
      * rewrite (change_fail s vs v y w g _ HR E EW DV); [exact Logic.I|]. intros q SQ. assert (Q := incr_ok q g off SQ). rewrite ST in Q. exact Q.
      * cbn [counters v_data g_stack]. apply (change_rel s vs v y w g _ _ _ HR E EW DV). intros q SQ. assert (Q := incr_ok q g off SQ). rewrite ST in Q. exact Q.
    + cbn [option_map]. assert (V2 := proj2 (proj2 SW)). rewrite DV in V2. destruct (x_ref y) eqn:R; [destruct V2|]. unfold rchange. rewrite R. exact Logic.I.
  - assert (HN := rel_nth s vs v HR). destruct (nth_error (rv s) v) as [y|] eqn:E; [|rewrite HN; eauto]. destruct HN as (w & EW & SW). rewrite EW.
    assert (Q := stack_rel s vs v y w b_pop (fun g => match g_stack g with _ :: st => Some st | [] => None end) HR E EW).
    fold (pop_counter w) in Q. destruct (pop_counter w); cbn [option_map]; apply Q; intros x g S; assert (P := pop_ok x g S); destruct (g_stack g); exact P.
Qed.

Lemma init_rel n : Rel (rinit n) (repeat nothing n).
Proof.
  split; [|split].
  - assert (Z0 : forall b, cnt b (rv (rinit n)) = 0) by (intros b; unfold rinit; cbn [rv]; induction n as [|n IH]; [reflexivity|cbn [repeat cnt x_ref is]; lia]).
    split; [intros b; rewrite Z0; lia|]. split.
    + intros b m x. unfold cell, rinit. cbn [rh]. destruct b; discriminate.
    + intros b. rewrite Z0. lia.
  - unfold rinit. cbn [rv]. rewrite !repeat_length. reflexivity.
  - intros d y v E EV. unfold rinit in E. cbn [rv] in E. apply nth_error_In, repeat_spec in E. apply nth_error_In, repeat_spec in EV. subst.
    split; [reflexivity|]. split; [reflexivity|]. exact Logic.I.
Qed.
Lemma run_rel os : forall s vs, Rel s vs -> Forall fit os ->
  match vrun vs os with
  | Some (vs', r) => exists s', rrun s os = Ok (s', r) /\ Rel s' vs'
  | None => fails (rrun s os)
  end.
Proof.
  induction os as [|o os IH]; intros s vs HR F; [cbn; eauto|]. inversion F as [|? ? F1 F2]; subst. cbn [vrun rrun].
  assert (S := step_rel s vs o HR F1). destruct (vstep vs o) as [[vs1 r]|].
  - destruct S as (s1 & E1 & R1). rewrite E1. cbn [obind fst snd]. specialize (IH s1 vs1 R1 F2). destruct (vrun vs1 os) as [[vs2 r2]|].
    + destruct IH as (s2 & E2 & R2). rewrite E2. cbn [obind fst snd]. eauto.
    + destruct (rrun s1 os); [destruct IH|exact Logic.I..].
  - destruct (rstep s o); [destruct S|exact Logic.I..].
Qed.

(** ** Reading *)
Lemma q_on_data s y v {A} (f : body -> outcome A) none g : SeesV (rh s) y v -> v_data v = Some g ->
  exists x, Sees x g /\ q_on s y f none = f x.
Proof.
  intros (_ & _ & V) D. rewrite D in V. unfold q_on. destruct (x_ref y) as [b|]; [|destruct V]. destruct V as (x & P & S).
  apply payload_cell in P as [n C]. rewrite hget_cell, C. cbn [obind snd]. eauto.
Qed.
Lemma q_on_none s y v {A} (f : body -> outcome A) none : SeesV (rh s) y v -> v_data v = None -> q_on s y f none = none.
Proof. intros (_ & _ & V) D. rewrite D in V. unfold q_on. destruct (x_ref y); [destruct V|reflexivity]. Qed.

Lemma q_num_ok s y v : SeesV (rh s) y v -> q_counterNum s y = Ok (Z.of_nat (length (counters v))).
Proof.
  intros V. unfold q_counterNum, counters. destruct (v_data v) as [g|] eqn:D.
  - destruct (q_on_data s y v (fun b => Ok (b_counterNum b)) (Ok 0) g V D) as (x & S & ->). rewrite (num_ok x g S). reflexivity.
  - apply (q_on_none s y v _ _ V D).
Qed.
Lemma q_get_ok s y v i p : SeesV (rh s) y v -> nth_error (counters v) i = Some p -> q_counterGet s y (Z.of_nat i) = Ok (snd p).
Proof.
  intros V. unfold q_counterGet, counters. destruct (v_data v) as [g|] eqn:D; [|destruct i; discriminate].
  destruct (q_on_data s y v (fun b => b_counterGet b (Z.of_nat i)) (Ok 0) g V D) as (x & S & ->). apply get_ok. exact S.
Qed.
Lemma q_top_ok s y v : SeesV (rh s) y v -> match counters v with p :: _ => q_counterTop s y = Ok p | [] => fails (q_counterTop s y) end.
Proof.
  intros V. unfold q_counterTop, counters. destruct (v_data v) as [g|] eqn:D.
  - destruct (q_on_data s y v b_top UB g V D) as (x & S & ->). assert (T := top_ok x g S). destruct (g_stack g); rewrite T; [exact Logic.I|reflexivity].
  - rewrite (q_on_none s y v _ _ V D). exact Logic.I.
Qed.
Lemma q_capture_ok s y v i : SeesV (rh s) y v -> match shows v i with Some x => q_capture s y i = Ok x | None => fails (q_capture s y i) end.
Proof.
  intros V. unfold q_capture, shows, q_succeeded. destruct V as (V0 & V1 & V2). rewrite V0, V1. destruct (Z.eqb_spec i 0); [subst; reflexivity|].
  destruct (Z.leb_spec i 1); [destruct (v_end v =? NORESULT); reflexivity|]. assert (V : SeesV (rh s) y v) by exact (conj V0 (conj V1 V2)).
  destruct (v_data v) as [g|] eqn:D.
  - destruct (q_on_data s y v (fun b => b_capture b i) (Ok 0) g V D) as (x & S & ->). assert (C := capture_ok x g i S ltac:(lia)).
    destruct (if i <? 2 * g_groups g then _ else None); rewrite C; [reflexivity|exact Logic.I].
  - apply (q_on_none s y v _ _ V D).
Qed.
Lemma q_max_ok s y v : SeesV (rh s) y v -> q_captureMax s y = Ok (match v_data v with Some g => g_groups g | None => 1 end).
Proof.
  intros V. unfold q_captureMax. destruct (v_data v) as [g|] eqn:D.
  - destruct (q_on_data s y v (fun b => Ok (k_pmax b)) (Ok 1) g V D) as (x & S & ->). destruct S as (-> & _). reflexivity.
  - apply (q_on_none s y v _ _ V D).
Qed.
Lemma same_loop_ok s y z v w n : forall i, SeesV (rh s) y v -> SeesV (rh s) z w ->
  (i + n = length (counters v))%nat -> length (counters v) = length (counters w) ->
  exists b, same_loop s y z (Z.of_nat i) n = Ok b /\ (b = true <-> map snd (skipn i (counters v)) = map snd (skipn i (counters w))).
Proof.
  induction n as [|n IH]; intros i V W L1 L2; cbn [same_loop].
  - exists true. split; [reflexivity|]. rewrite !skipn_all2 by lia. split; auto.
  - destruct (nth_error (counters v) i) as [p|] eqn:EP; [|apply nth_error_None in EP; lia].
    destruct (nth_error (counters w) i) as [q|] eqn:EQ; [|apply nth_error_None in EQ; lia].
    rewrite (q_get_ok _ _ _ _ _ V EP), (q_get_ok _ _ _ _ _ W EQ). cbn [obind].
    assert (SP : forall (l : list (Z * Z)) k a, nth_error l k = Some a -> skipn k l = a :: skipn (S k) l).
    { clear. induction l as [|c l IH]; intros [|k] a E; try discriminate; [injection E as ->; reflexivity|]. cbn [nth_error] in E. apply IH in E. exact E. }
    rewrite (SP _ _ _ EP), (SP _ _ _ EQ). cbn [map].
    destruct (IH (S i) V W ltac:(lia) L2) as (b & EB & B). replace (Z.of_nat i + 1) with (Z.of_nat (S i)) by lia.
    destruct (Z.eqb_spec (snd p) (snd q)).
    + exists b. split; [exact EB|]. rewrite B. split; [intros ->; congruence|intros X; congruence].
    + exists false. split; [reflexivity|]. split; [discriminate|congruence].
Qed.
Lemma q_same_ok s y z v w : SeesV (rh s) y v -> SeesV (rh s) z w ->
  exists b, q_countersSame s y z = Ok b /\ (b = true <-> map snd (counters v) = map snd (counters w)).
Proof.
  intros V W. unfold q_countersSame. rewrite (q_num_ok _ _ _ V), (q_num_ok _ _ _ W). cbn [obind].
  destruct (Z.eqb_spec (Z.of_nat (length (counters v))) (Z.of_nat (length (counters w)))).
  - rewrite Nat2Z.id. apply (same_loop_ok s y z v w (length (counters v)) 0 V W); lia.
  - exists false. split; [reflexivity|]. split; [discriminate|]. intros E. apply (f_equal (@length Z)) in E. rewrite !map_length in E. lia.
Qed.
