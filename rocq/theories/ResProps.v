(** C56: results of a match are values. *)
From Verif Require Import Base RefModel RefProofs LatchProofs ArrayProofs ResModel ResSpec ResProofs.
From Verif Require RxModel.

(** Any number of result variables and any sequence of calls on them: the
    shared, reference counted, lazily allocated captures behave as if every
    variable held its own value.  A call fails exactly when it fails on the
    values; otherwise it returns the same number, and every reading of every
    variable afterwards shows the value. *)
Theorem C56_values : forall n os, Forall fit os ->
  match vrun (repeat nothing n) os with
  | None => forall s rets, rrun (rinit n) os <> Ok (s, rets)
  | Some (vs, rets) =>
    exists s, rrun (rinit n) os = Ok (s, rets) /\ length (rv s) = n /\ length vs = n /\
    forall d y v, nth_error (rv s) d = Some y -> nth_error vs d = Some v ->
      q_offset y = v_start v /\
      (q_succeeded y = true <-> v_end v <> NORESULT) /\
      (v_end v <> NORESULT -> q_length y = u32 (v_end v - v_start v)) /\
      (v_end v = NORESULT -> q_length y = 0) /\
      q_captureMax s y = Ok (match v_data v with Some g => g_groups g | None => 1 end) /\
      (forall i, match shows v i with
                 | Some x => q_capture s y i = Ok x
                 | None => forall x, q_capture s y i <> Ok x end) /\
      q_counterNum s y = Ok (Z.of_nat (length (counters v))) /\
      (forall i p, nth_error (counters v) i = Some p -> q_counterGet s y (Z.of_nat i) = Ok (snd p)) /\
      match counters v with
      | p :: _ => q_counterTop s y = Ok p
      | [] => forall p, q_counterTop s y <> Ok p end /\
      (forall u z w, nth_error (rv s) u = Some z -> nth_error vs u = Some w ->
         exists b, q_countersSame s y z = Ok b /\ (b = true <-> map snd (counters v) = map snd (counters w)))
  end.
Proof.
  intros n os F. assert (R := run_rel os (rinit n) (repeat nothing n) (init_rel n) F).
  destruct (vrun (repeat nothing n) os) as [[vs rets]|] eqn:EV.
  - destruct R as (s & E & HR). exists s. split; [exact E|].
    assert (L : length vs = n /\ length (rv s) = n).
    { assert (G : forall os vs vs' r, vrun vs os = Some (vs', r) -> length vs' = length vs).
      { clear. assert (G : forall vs o vs' r, vstep vs o = Some (vs', r) -> length vs' = length vs).
        { intros vs o vs' r. destruct o; cbn [vstep];
            repeat match goal with |- context[nth_error vs ?k] => destruct (nth_error vs k) end; cbn [option_map];
            repeat match goal with |- context[option_map _ ?x] => destruct x; cbn [option_map] end; intros E; try discriminate;
            apply (f_equal (fun o => match o with Some (a, _) => a | None => [] end)) in E; cbv beta iota in E; subst vs'; try apply upd_length; reflexivity. }
        induction os as [|o os IH]; intros vs vs' r; cbn [vrun]; [intros E; congruence|].
        destruct (vstep vs o) as [[v1 x]|] eqn:E1; [|discriminate]. destruct (vrun v1 os) as [[v2 xs]|] eqn:E2; [|discriminate].
        intros E. assert (v2 = vs') by congruence. subst. rewrite (IH _ _ _ E2). eapply G. exact E1. }
      apply G in EV. rewrite repeat_length in EV. split; [exact EV|]. destruct HR as (_ & HL & _). lia. }
    split; [apply L|]. split; [apply L|]. intros d y v Ey Ev. destruct HR as (_ & _ & H). assert (V := H _ _ _ Ey Ev). assert (V' := V). destruct V' as (V0 & V1 & _).
    unfold q_offset, q_length, q_succeeded. rewrite V0, V1. split; [reflexivity|].
    split; [destruct (Z.eqb_spec (v_end v) NORESULT); cbn; split; congruence|].
    split; [destruct (Z.eqb_spec (v_end v) NORESULT); cbn; congruence|].
    split; [destruct (Z.eqb_spec (v_end v) NORESULT); cbn; congruence|].
    split; [apply q_max_ok; exact V|].
    split. { intros i. assert (C := q_capture_ok s y v i V). destruct (shows v i); [exact C|]. intros x X. rewrite X in C. exact C. }
    split; [apply q_num_ok; exact V|]. split; [intros i p; apply q_get_ok; exact V|].
    split. { assert (C := q_top_ok s y v V). destruct (counters v); [|exact C]. intros x X. rewrite X in C. exact C. }
    intros u z w EU EW. apply q_same_ok; [exact V|]. eapply H; eassumption.
  - intros s rets E. rewrite E in R. exact R.
Qed.

(** A call on one variable changes no reading of another. *)
Definition target (o : rop) : nat :=
  match o with RNew d _ _ | RFail d | RCopy d _ => d | RClear v | RSet v _ _ | RPush v _ | RIncr v _ | RPop v => v end.
Theorem C56_isolated : forall n os o s rets s' r u y, Forall fit (os ++ [o]) ->
  rrun (rinit n) os = Ok (s, rets) -> rstep s o = Ok (s', r) -> u <> target o -> nth_error (rv s) u = Some y ->
  exists y', nth_error (rv s') u = Some y' /\
    q_offset y' = q_offset y /\ q_succeeded y' = q_succeeded y /\ q_length y' = q_length y /\
    q_captureMax s' y' = q_captureMax s y /\
    (forall i x, q_capture s y i = Ok x -> q_capture s' y' i = Ok x) /\
    q_counterNum s' y' = q_counterNum s y /\
    (forall i x k, q_counterNum s y = Ok k -> 0 <= i < k -> q_counterGet s y i = Ok x -> q_counterGet s' y' i = Ok x) /\
    (forall p, q_counterTop s y = Ok p -> q_counterTop s' y' = Ok p).
Proof.
  intros n os o s rets s' r u y F E ES NU EU. apply Forall_app in F as [F1 F2]. inversion F2 as [|? ? FO _]; subst.
  assert (R := run_rel os (rinit n) (repeat nothing n) (init_rel n) F1). destruct (vrun _ os) as [[vs r1]|]; [|rewrite E in R; destruct R].
  destruct R as (s1 & E1 & HR). assert (s1 = s) by congruence. subst s1.
  assert (S := step_rel s vs o HR FO). destruct (vstep vs o) as [[vs' r2]|] eqn:EV; [|rewrite ES in S; destruct S]. destruct S as (s2 & E2 & HR2).
  assert (s2 = s') by congruence. subst s2.
  assert (N := rel_nth s vs u HR). rewrite EU in N. destruct N as (v & Ev & V).
  assert (KV : nth_error vs' u = Some v).
  { destruct o; cbn [vstep target] in EV, NU; revert EV;
      repeat match goal with |- context[match nth_error vs ?k with _ => _ end] => destruct (nth_error vs k) end; cbn [option_map];
      repeat match goal with |- context[option_map _ ?x] => destruct x; cbn [option_map] end; intros Q; try discriminate;
      apply (f_equal (fun o => match o with Some (a, _) => a | None => [] end)) in Q; cbv beta iota in Q; subst vs'; rewrite ?nth_upd_ne by congruence; exact Ev. }
  assert (N := rel_nth s' vs' u HR2). destruct (nth_error (rv s') u) as [y'|] eqn:EY; [|congruence]. destruct N as (v' & Ev' & V'). assert (v' = v) by congruence. subst v'.
  exists y'. split; [reflexivity|]. destruct (V) as (A0 & A1 & _). destruct (V') as (B0 & B1 & _). unfold q_length, q_succeeded, q_offset. rewrite A0, A1, B0, B1.
  do 3 (split; [reflexivity|]). rewrite (q_max_ok _ _ _ V), (q_max_ok _ _ _ V'), (q_num_ok _ _ _ V), (q_num_ok _ _ _ V'). split; [reflexivity|].
  split. { intros i x. assert (C := q_capture_ok s y v i V). assert (D := q_capture_ok s' y' v i V'). destruct (shows v i); [rewrite C, D; auto|]. intros X. rewrite X in C. destruct C. }
  split; [reflexivity|]. split.
  - intros i x k K I. assert (k = Z.of_nat (length (counters v))) by congruence. subst k.
    destruct (nth_error (counters v) (Z.to_nat i)) as [p|] eqn:EP; [|apply nth_error_None in EP; lia].
    assert (G := q_get_ok _ _ _ _ _ V EP). assert (G' := q_get_ok _ _ _ _ _ V' EP). rewrite Z2Nat.id in G, G' by lia. congruence.
  - intros p. assert (C := q_top_ok s y v V). assert (D := q_top_ok s' y' v V'). destruct (counters v); [|congruence]. intros X. rewrite X in C. destruct C.
Qed.

(** The captures that are allocated are exactly those some variable refers
    to: none is freed while in use, and none is left behind. *)
Theorem C56_freed : forall n os s rets, Forall fit os -> rrun (rinit n) os = Ok (s, rets) ->
  forall b, (exists x, nth_error (rh s) b = Some (Some x)) <-> (exists y, In y (rv s) /\ x_ref y = Some b).
Proof.
  intros n os s rets F E b. assert (R := run_rel os (rinit n) (repeat nothing n) (init_rel n) F).
  destruct (vrun _ os) as [[vs r1]|]; [|rewrite E in R; destruct R]. destruct R as (s1 & E1 & HR). assert (s1 = s) by congruence. subst s1.
  destruct HR as ((F0 & C & A) & _ & _). split.
  - intros [[m x] HX]. assert (Hc : cell (rh s) b = Some (m, x)) by (unfold cell; rewrite HX; reflexivity). destruct (C _ _ _ Hc) as [EM P].
    specialize (P ltac:(discriminate)). clear -EM P. induction (rv s) as [|y l IH]; cbn [cnt] in EM; [lia|].
    destruct (x_ref y) as [c|] eqn:RY; cbn [is] in EM; [|destruct IH as (z & Z1 & Z2); [exact EM|exists z; split; [right; exact Z1|exact Z2]]].
    destruct (Nat.eqb_spec c b); [subst; exists y; split; [left; reflexivity|exact RY]|].
    destruct IH as (z & Z1 & Z2); [exact EM|exists z; split; [right; exact Z1|exact Z2]].
  - intros (y & Y1 & Y2). apply In_nth_error in Y1 as [d Y1]. assert (P := cnt_in _ _ _ _ Y1 Y2). specialize (A b P). unfold cell in A.
    destruct (nth_error (rh s) b) as [[x|]|]; [eauto|congruence..].
Qed.

(** The results in the model of the matcher (RxModel) are these values: its
    operations are the ones above. *)
Definition as_result (v : value) : RxModel.result :=
  RxModel.mkresult (v_start v) (if v_end v =? NORESULT then None else Some (v_end v))
    (match v_data v with Some g => g_caps g | None => [] end) (counters v).
Theorem C56_matcher : forall h v g i x off, v_data v = Some g ->
  g_groups g = RxModel.h_captures h -> g_limit g = RxModel.h_counters h ->
  length (g_caps g) = Z.to_nat (2 * g_groups g - 2) -> 0 <= i -> x <> NORESULT ->
  RxModel.capture_set h (as_result v) i x = match set_capture v i x with Some w => Ok (as_result w) | None => Abort end /\
  RxModel.push_zero h (as_result v) off = match push_counter v off with Some w => Ok (as_result w) | None => Abort end /\
  (forall prev c cs, RxModel.r_counters (as_result v) = (prev, c) :: cs ->
     option_map as_result (incr_counter v off) =
       Some (RxModel.mkresult (v_start v) (RxModel.r_cap1 (as_result v)) (g_caps g) ((off, u32 (c + 1)) :: cs)) /\
     option_map as_result (pop_counter v) = Some (RxModel.mkresult (v_start v) (RxModel.r_cap1 (as_result v)) (g_caps g) cs)) /\
  (forall w, RxModel.counters_same (RxModel.r_counters (as_result v)) (RxModel.r_counters (as_result w)) = true <->
             map snd (counters v) = map snd (counters w)).
Proof.
  intros h v g i x off D EG EL LC I NX. split; [|split; [|split]].
  - unfold RxModel.capture_set, set_capture, as_result, counters. rewrite D. cbn [RxModel.r_cap0 RxModel.r_cap1 RxModel.r_caps RxModel.r_counters].
    destruct (Z.eqb_spec i 0); [reflexivity|]. destruct (Z.leb_spec i 1).
    + replace i with 1 by lia. cbn [Z.eqb Pos.eqb v_start v_end v_data]. destruct (Z.eqb_spec x NORESULT); [congruence|reflexivity].
    + destruct (Z.eqb_spec i 1); [lia|]. destruct (Z.ltb_spec i 1); [lia|]. cbn [orb]. rewrite <- EG.
      destruct (Z.geb_spec i (g_groups g * 2)), (Z.ltb_spec i (2 * g_groups g)); try lia; [reflexivity|]. cbn [v_start v_end v_data g_caps g_stack]. do 2 f_equal.
      assert (K : forall (l : list Z) k, (k < length l)%nat -> firstn k l ++ [x] ++ skipn (S k) l = upd l k x).
      { clear. induction l as [|a l IH]; intros [|k] H; cbn [length] in H; try lia; [reflexivity|]. cbn [firstn skipn app upd]. f_equal. apply IH. lia. }
      apply K. lia.
  - unfold RxModel.push_zero, push_counter, with_stack, as_result, counters. rewrite D. cbn [RxModel.r_cap0 RxModel.r_cap1 RxModel.r_caps RxModel.r_counters].
    rewrite EL. destruct (Z.of_nat (length (g_stack g)) <? RxModel.h_counters h); reflexivity.
  - intros prev c cs. unfold as_result, incr_counter, pop_counter, with_stack, counters. rewrite D. cbn [RxModel.r_cap1 RxModel.r_counters]. intros ->. split; reflexivity.
  - intros w. cbn [as_result RxModel.r_counters]. generalize (counters v) (counters w). clear. induction l as [|[a b] l IH]; intros [|[c d] m]; cbn [RxModel.counters_same map snd]; try (split; [discriminate|discriminate]); [split; reflexivity|].
    rewrite andb_true_iff, Z.eqb_eq, IH. split; [intros [-> ->]; reflexivity|]. intros E. injection E as -> ->. auto.
Qed.

Ltac runs := repeat match goal with |- _ /\ _ => split end; vm_compute; reflexivity.

(** RxResult::counterGet is not limited to the counters there are, although
    strregex.h promises that access outside the range is ignored: with no counter
    left it reads the end of the last group, or before the start of the values. *)
Theorem C56_counterGet_refuted :
  (exists s y rets, rrun (rinit 1) [RNew 0 1 2; RSet 0 3 77] = Ok (s, rets) /\ nth_error (rv s) 0 = Some y /\
     q_counterNum s y = Ok 0 /\ q_counterGet s y 0 = Ok 77) /\
  (exists s y rets, rrun (rinit 1) [RNew 0 1 1; RPush 0 5; RPop 0] = Ok (s, rets) /\ nth_error (rv s) 0 = Some y /\
     q_counterNum s y = Ok 0 /\ q_counterGet s y 0 = UB).
Proof. split; do 3 eexists; runs. Qed.
(** RxResult::capture aborts for a group beyond the last, although strregex.h
    promises that such access is ignored. *)
Theorem C56_capture_refuted : exists s y rets, rrun (rinit 1) [RNew 0 0 2] = Ok (s, rets) /\ nth_error (rv s) 0 = Some y /\
  q_captureMax s y = Ok 2 /\ q_capture s y 3 = Ok 0 /\ q_capture s y 4 = Abort.
Proof. do 3 eexists; runs. Qed.
(** Counting on a result that has failed or was cleared follows a null
    pointer: Unshare copies the captures before anything asserts there are any. *)
Theorem C56_null_refuted : forall off, rrun (rinit 1) [RPush 0 off] = UB /\
  rrun (rinit 1) [RNew 0 1 1; RPush 0 off; RClear 0; RIncr 0 off] = UB /\ rrun (rinit 1) [RPop 0] = UB.
Proof. intros off. runs. Qed.
(** RxResult(200, 1) has room for 200 counters, but the number in use is kept
    in an unsigned char, two per counter: after the 128th push there are none. *)
Theorem C56_many_counters_refuted : exists s y rets, rrun (rinit 1) (RNew 0 200 1 :: repeat (RPush 0 9) 128) = Ok (s, rets) /\
  nth_error (rv s) 0 = Some y /\ q_counterNum s y = Ok 0.
Proof. do 3 eexists; runs. Qed.

(** Copies share, and part company when one is changed. *)
Definition ex_ops := [RNew 0 2 2; RSet 0 0 4; RPush 0 7; RSet 0 2 5; RCopy 1 0; RIncr 1 8; RSet 1 2 6; RSet 1 1 9].
Definition ex_state : rstate := Eval vm_compute in match rrun (rinit 2) ex_ops with Ok (s, _) => s | _ => rinit 0 end.
Definition ex_var (d : nat) : rvar := nth d (rv ex_state) (mkvar 0 0 None).
Example C56_example :
  rrun (rinit 2) ex_ops = Ok (ex_state, [0; 0; 0; 0; 0; 1; 0; 0]) /\
  rv ex_state = [ex_var 0; ex_var 1] /\
  q_capture ex_state (ex_var 0) 2 = Ok 5 /\ q_capture ex_state (ex_var 1) 2 = Ok 6 /\
  q_counterTop ex_state (ex_var 0) = Ok (7, 0) /\ q_counterTop ex_state (ex_var 1) = Ok (8, 1) /\
  q_succeeded (ex_var 0) = false /\ q_length (ex_var 1) = 5 /\ q_countersSame ex_state (ex_var 0) (ex_var 1) = Ok false.
Proof. runs. Qed.
Example C56_fit_example :
  Forall fit ex_ops /\
  vrun (repeat nothing 2) [RNew 0 2 2; RPush 0 7; RCopy 1 0; RIncr 1 8] =
    Some ([mkvalue 0 NORESULT (Some (mkgroups 2 2 [0; 0] [(7, 0)])); mkvalue 0 NORESULT (Some (mkgroups 2 2 [0; 0] [(8, 1)]))], [0; 0; 0; 1]) /\
  vrun (repeat nothing 2) [RNew 0 1 2; RPush 0 7; RPush 0 7] = None.
Proof. split; [repeat constructor; cbn; lia|]. split; vm_compute; reflexivity. Qed.

Print Assumptions C56_values.
Print Assumptions C56_isolated.
Print Assumptions C56_freed.
Print Assumptions C56_matcher.
Print Assumptions C56_counterGet_refuted.
Print Assumptions C56_capture_refuted.
Print Assumptions C56_null_refuted.
Print Assumptions C56_many_counters_refuted.
