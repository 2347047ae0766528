(** Invariant of orderly histories (C60). *)
From Verif Require Import Base ThreadModel ThreadIdModel ThreadIdSpec.

Definition incl_ (l m : list nat) := forall o, In o l -> In o m.
Definition active (g : seen) (y : ios) := k_joined y = false \/ ~ In (k_obj y) (gone g).
Definition ecount (s : im) (m : list (nat * nat)) := length (filter (fun e => iended s (snd e)) m).

Record Inv (g : seen) (s : im) : Prop := {
  i_made : forall o, In o (made g) <-> iobjs s o <> None;
  i_dead : forall o x, iobjs s o = Some x -> (o_dead x = true <-> In o (gone g));
  i_sub : incl_ (gone g) (ran g) /\ incl_ (ran g) (runs g) /\ incl_ (runs g) (made g) /\
          incl_ (joined g) (joining g) /\ incl_ (joining g) (ran g) /\ incl_ (collected g) (ran g);
  i_runs : map k_obj (ioss s) = runs g;
  i_nodup : NoDup (runs g);
  i_os : forall y, In y (ioss s) ->
           (k_joined y = true <-> In (k_obj y) (joining g)) /\
           (k_phase y = Finished <-> In (k_obj y) (ran g)) /\ k_id y <> 0%nat;
  i_id : forall y x, In y (ioss s) -> iobjs s (k_obj y) = Some x -> o_dead x = false -> o_id x = k_id y;
  i_state : forall o x, iobjs s o = Some x -> (o_state x = TEnded <-> In o (ran g));
  i_uniq : forall y z, In y (ioss s) -> In z (ioss s) -> active g y -> active g z -> k_id y = k_id z -> k_obj y = k_obj z;
  i_map : forall i o, In (i, o) (imap s) <-> pending g o /\ exists x, iobjs s o = Some x /\ o_id x = i;
  i_mapnd : NoDup (imap s);
  i_cnt : icnt s = Z.of_nat (ecount s (imap s));
  i_half : forall o x, iobjs s o = Some x -> (o_half x = true <-> In o (joining g) /\ ~ In o (joined g))
}.

Lemma os_unique (l : list ios) y z : NoDup (map k_obj l) -> In y l -> In z l -> k_obj y = k_obj z -> y = z.
Proof.
  induction l as [|a l IH]; intros N Y Z E; [destruct Y|]. cbn [map] in N. inversion N as [|? ? N1 N2]; subst.
  destruct Y as [->|Y], Z as [->|Z]; auto.
  - destruct N1. rewrite E. apply List.in_map. exact Z.
  - destruct N1. rewrite <- E. apply List.in_map. exact Y.
Qed.

Lemma inv_os_of g s o : Inv g s -> In o (runs g) -> exists y, In y (ioss s) /\ k_obj y = o.
Proof. intros I R. rewrite <- (i_runs g s I) in R. apply in_map_iff in R as (y & E & Y). eauto. Qed.

Lemma with_os_in s k y y' z : NoDup (map k_obj (ioss s)) -> nth_error (ioss s) k = Some y -> k_obj y' = k_obj y ->
  (In z (ioss (with_os s k y')) <-> z = y' \/ (In z (ioss s) /\ k_obj z <> k_obj y)).
Proof.
  intros N K E. cbn [with_os ioss].
  assert (D : ioss s = firstn k (ioss s) ++ y :: skipn (S k) (ioss s)).
  { rewrite <- (firstn_skipn k (ioss s)) at 1. f_equal.
    revert K. generalize (ioss s). induction k as [|k IH]; intros [|a l] K; try discriminate; cbn [nth_error] in K.
    - injection K as ->. reflexivity.
    - cbn [skipn]. exact (IH l K). }
  revert D N. generalize (firstn k (ioss s)) (skipn (S k) (ioss s)). intros a b -> N.
  rewrite !in_app_iff. cbn [In]. rewrite map_app in N. cbn [map] in N. apply NoDup_remove in N as [_ N].
  rewrite in_app_iff in N. split.
  - intros [A|[A|A]]; [right|left; auto|right].
    + split; [auto|]. intros F. apply N. left. rewrite <- F. apply List.in_map. exact A.
    + split; [auto|]. intros F. apply N. right. rewrite <- F. apply List.in_map. exact A.
  - intros [->|[[A|[A|A]] F]]; auto. subst. contradiction.
Qed.
Lemma with_os_map s k y y' : nth_error (ioss s) k = Some y -> k_obj y' = k_obj y ->
  map k_obj (ioss (with_os s k y')) = map k_obj (ioss s).
Proof.
  cbn [with_os ioss]. generalize (ioss s). induction k as [|k IH]; intros [|a l] K E; try discriminate; cbn [nth_error] in K.
  - injection K as ->. cbn [firstn skipn app map]. congruence.
  - change (firstn (S k) (a :: l)) with (a :: firstn k l). change (skipn (S (S k)) (a :: l)) with (skipn (S k) l).
    cbn [app map]. f_equal. exact (IH l K E).
Qed.

Lemma ifind_some s i o : ifind s i = Some o -> In (i, o) (imap s).
Proof.
  unfold ifind. destruct (List.find _ (imap s)) as [[j p]|] eqn:F; [|discriminate]. intros E.
  apply find_some in F as [F1 F2]. cbn [fst snd] in *. apply Nat.eqb_eq in F2. injection E as ->. subst. exact F1.
Qed.
Lemma ifind_none s i o : ifind s i = None -> ~ In (i, o) (imap s).
Proof.
  unfold ifind. destruct (List.find _ (imap s)) eqn:F; [discriminate|]. intros _ H.
  assert (X := find_none _ _ F _ H). cbn [fst] in X. rewrite Nat.eqb_refl in X. discriminate.
Qed.

Lemma ierase_in i j o m : In (j, o) (ierase i m) <-> In (j, o) m /\ j <> i.
Proof.
  unfold ierase. rewrite filter_In. cbn [fst]. destruct (Nat.eqb_spec j i); cbn [negb]; split; intros [A B]; split; auto; congruence.
Qed.

(** The map has at most one pair for an id, and one for an object. *)
Lemma inv_key g s i o p : Inv g s -> In (i, o) (imap s) -> In (i, p) (imap s) -> o = p.
Proof.
  intros I A B. apply (i_map g s I) in A as (Po & x & X & Ex). apply (i_map g s I) in B as (Pp & x' & X' & Ex').
  destruct (inv_os_of g s o I (proj1 Po)) as (y & Y & <-). destruct (inv_os_of g s p I (proj1 Pp)) as (z & Z & <-).
  assert (Go : ~ In (k_obj y) (gone g)) by apply Po. assert (Gp : ~ In (k_obj z) (gone g)) by apply Pp.
  apply (i_uniq g s I y z Y Z); [right; exact Go|right; exact Gp|].
  rewrite <- (i_id g s I y x Y X), <- (i_id g s I z x' Z X'); [congruence| |].
  - destruct (o_dead x') eqn:D; [|reflexivity]. apply (i_dead g s I _ _ X') in D. contradiction.
  - destruct (o_dead x) eqn:D; [|reflexivity]. apply (i_dead g s I _ _ X) in D. contradiction.
Qed.

Lemma inv_find g s o x : Inv g s -> iobjs s o = Some x -> In o (runs g) -> ~ In o (gone g) ->
  (ifind s (o_id x) = Some o /\ pending g o) \/ (ifind s (o_id x) = None /\ ~ pending g o).
Proof.
  intros I X R G. destruct (ifind s (o_id x)) as [p|] eqn:F.
  - left. apply ifind_some in F. assert (Q := F). apply (i_map g s I) in F as (Pp & x' & X' & E').
    destruct (inv_os_of g s o I R) as (y & Y & <-). destruct (inv_os_of g s p I (proj1 Pp)) as (z & Z & <-).
    assert (Gp : ~ In (k_obj z) (gone g)) by apply Pp.
    assert (E : k_obj y = k_obj z).
    { apply (i_uniq g s I y z Y Z); [right; exact G|right; exact Gp|].
      rewrite <- (i_id g s I y x Y X), <- (i_id g s I z x' Z X'); [congruence| |].
      - destruct (o_dead x') eqn:D; [|reflexivity]. apply (i_dead g s I _ _ X') in D. contradiction.
      - destruct (o_dead x) eqn:D; [|reflexivity]. apply (i_dead g s I _ _ X) in D. contradiction. }
    rewrite E. auto.
  - right. split; [reflexivity|]. intros P. apply (ifind_none s _ o F). apply (i_map g s I). eauto.
Qed.

Lemma nodup_keep {A} (f : A -> bool) l : NoDup l -> NoDup (filter f l).
Proof. apply NoDup_filter. Qed.

(** Erasing a pair takes one from the count if its thread has ended. *)
Lemma ecount_erase g s i o : Inv g s -> In (i, o) (imap s) -> iended s o = true ->
  S (ecount s (ierase i (imap s))) = ecount s (imap s).
Proof.
  intros I M E. assert (K : forall p, In (i, p) (imap s) -> p = o) by (intros p H; exact (inv_key g s i p o I H M)).
  assert (N := i_mapnd g s I). unfold ecount. revert M K N. generalize (imap s) as m.
  induction m as [|[j p] m IH]; intros M K N; [destruct M|]. inversion N as [|? ? N1 N2]; subst.
  unfold ierase in *. cbn [filter fst snd]. destruct (Nat.eqb_spec j i) as [->|J]; cbn [negb].
  - assert (p = o) by (apply K; left; reflexivity). subst p. rewrite E. cbn [length]. f_equal. f_equal. f_equal.
    assert (F : forall q, ~ In (i, q) m) by (intros q Q; assert (q = o) by (apply K; right; exact Q); subst; contradiction).
    clear -F. induction m as [|[j p] m IH]; [reflexivity|]. cbn [filter fst].
    destruct (Nat.eqb_spec j i) as [->|J]; [destruct (F p); left; reflexivity|]. cbn [negb]. rewrite IH; [reflexivity|].
    intros q Q. apply (F q). right. exact Q.
  - assert (M' : In (i, o) m) by (destruct M as [M|M]; [congruence|exact M]).
    assert (K' : forall q, In (i, q) m -> q = o) by (intros q Q; apply K; right; exact Q).
    specialize (IH M' K' N2). cbn [filter fst snd]. destruct (iended s p); cbn [length]; lia.
Qed.

Lemma ecount_ext s s' m : (forall i o, In (i, o) m -> iended s o = iended s' o) -> ecount s m = ecount s' m.
Proof.
  intros H. unfold ecount. induction m as [|[j p] m IH]; [reflexivity|]. cbn [filter snd].
  rewrite (H j p) by (left; reflexivity). assert (H' : forall i o, In (i, o) m -> iended s o = iended s' o) by (intros i o Q; apply (H i o); right; exact Q).
  specialize (IH H'). destruct (iended s' p); cbn [length]; lia.
Qed.

(** Marking one thread, registered once, as ended adds one. *)
Lemma ecount_mark s s' m o : NoDup m -> (forall i j, In (i, o) m -> In (j, o) m -> i = j) ->
  (forall p, p <> o -> iended s' p = iended s p) -> iended s o = false -> iended s' o = true ->
  ecount s' m = ((if existsb (fun e => Nat.eqb (snd e) o) m then 1 else 0) + ecount s m)%nat.
Proof.
  intros N K X F T. unfold ecount. induction m as [|[j p] m IH]; [reflexivity|]. inversion N as [|? ? N1 N2]; subst.
  assert (K' : forall i i', In (i, o) m -> In (i', o) m -> i = i') by (intros; apply K; right; assumption).
  specialize (IH N2 K'). cbn [filter existsb snd]. destruct (Nat.eqb_spec p o) as [->|P]; cbn [orb].
  - rewrite F, T. cbn [length].
    assert (Q : existsb (fun e => Nat.eqb (snd e) o) m = false).
    { destruct (existsb _ m) eqn:Q; [|reflexivity]. apply existsb_exists in Q as ([i q] & Q1 & Q2). cbn [snd] in Q2.
      apply Nat.eqb_eq in Q2. subst q. assert (j = i) by (apply K; [left; reflexivity|right; exact Q1]). subst. contradiction. }
    rewrite Q in IH. lia.
  - rewrite (X p P). destruct (iended s p); cbn [length]; lia.
Qed.

Lemma inv_init : Inv nothing iinit.
Proof.
  constructor; cbn.
  - intros o; split; [intros []|congruence].
  - intros; discriminate.
  - repeat split; intros o [].
  - reflexivity.
  - constructor.
  - intros y [].
  - intros y x [].
  - intros; discriminate.
  - intros y z [].
  - intros i o. split; [intros []|]. intros ([H _] & _). destruct H.
  - constructor.
  - reflexivity.
  - intros; discriminate.
Qed.

Lemma new_inv g s o st j : Inv g s -> duty g (ENew o st j) -> iobjs s o = None ->
  Inv (see g (ENew o st j) INone) (with_obj s o {| o_id := j; o_state := st; o_half := false; o_dead := false |}).
Proof.
  intros I (Dm & De) O. destruct (i_sub g s I) as (S1 & S2 & S3 & S4 & S5 & S6).
  assert (NR : ~ In o (runs g)) by (intros H; apply Dm, S3, H).
  assert (NO : forall y, In y (ioss s) -> k_obj y <> o).
  { intros y Y E. apply NR. rewrite <- (i_runs g s I), <- E. apply List.in_map. exact Y. }
  constructor; cbn [see with_obj imap iobjs ioss icnt made runs ran joining joined collected gone].
  - intros p. destruct (Nat.eqb_spec p o) as [->|P].
    + split; [discriminate|]. intros _. left. reflexivity.
    + rewrite <- (i_made g s I p). cbn [In]. intuition congruence.
  - intros p x. destruct (Nat.eqb_spec p o) as [->|P]; [|apply (i_dead g s I)].
    intros E. injection E as <-. cbn. split; [discriminate|]. intros G. destruct NR. apply S2, S1, G.
  - repeat split; auto. intros p P. right. apply S3, P.
  - apply (i_runs g s I).
  - apply (i_nodup g s I).
  - apply (i_os g s I).
  - intros y x Y. destruct (Nat.eqb_spec (k_obj y) o) as [E|E]; [destruct (NO y Y E)|apply (i_id g s I y x Y)].
  - intros p x. destruct (Nat.eqb_spec p o) as [->|P]; [|apply (i_state g s I)].
    intros E. injection E as <-. cbn. split; [congruence|]. intros G. destruct NR. apply S2, G.
  - apply (i_uniq g s I).
  - intros i p. rewrite (i_map g s I). unfold pending; cbn [runs joined collected gone].
    destruct (Nat.eqb_spec p o) as [->|P]; [|reflexivity]. split; intros ((R & _) & _); contradiction.
  - apply (i_mapnd g s I).
  - rewrite (i_cnt g s I). f_equal. apply ecount_ext. intros i p M. unfold iended; cbn [iobjs with_obj].
    destruct (Nat.eqb_spec p o) as [->|P]; [|reflexivity]. apply (i_map g s I) in M as ((R & _) & _). contradiction.
  - intros p x. destruct (Nat.eqb_spec p o) as [->|P]; [|apply (i_half g s I)].
    intros E. injection E as <-. cbn. split; [discriminate|]. intros (G & _). destruct NR. apply S2, S5, G.
Qed.

Lemma live_ok s o x : live s o = Ok x <-> iobjs s o = Some x /\ o_dead x = false.
Proof.
  unfold live. destruct (iobjs s o) as [z|]; [|split; [discriminate|intros [? _]; discriminate]].
  destruct (o_dead z) eqn:D; split.
  - discriminate.
  - intros [E F]. injection E as <-. congruence.
  - intros E. injection E as <-. auto.
  - intros [E F]. injection E as <-. reflexivity.
Qed.

Lemma resume_inv g s o i x : Inv g s -> orderly g (EResume o i) -> may_give s i = true -> live s o = Ok x ->
  let s1 := with_obj s o {| o_id := i; o_state := o_state x; o_half := o_half x; o_dead := false |} in
  Inv (see g (EResume o i) INone)
      {| imap := iinsert s1 i o; iobjs := iobjs s1;
         ioss := ioss s ++ [{| k_id := i; k_obj := o; k_phase := Created; k_joined := false |}]; icnt := icnt s |}.
Proof.
  intros I ((Dm & Dr) & Dj) MG L s1. apply live_ok in L as (X & Xd). destruct (i_sub g s I) as (S1 & S2 & S3 & S4 & S5 & S6).
  apply andb_true_iff in MG as (I0 & MG). apply negb_true_iff, Nat.eqb_neq in I0. rewrite forallb_forall in MG.
  assert (NO : forall y, In y (ioss s) -> k_obj y <> o).
  { intros y Y E. apply Dr. rewrite <- (i_runs g s I), <- E. apply List.in_map. exact Y. }
  assert (FR : forall y, In y (ioss s) -> active g y -> k_id y <> i).
  { intros y Y A E. specialize (MG y Y). rewrite E, Nat.eqb_refl in MG. cbn in MG. rewrite orb_false_r in MG.
    destruct A as [A|A]; [congruence|]. apply A, Dj. apply (i_os g s I y Y). exact MG. }
  assert (NG : ~ In o (gone g)) by (intros G; apply Dr, S2, S1, G).
  assert (FI : ifind s1 i = None).
  { destruct (ifind s1 i) as [p|] eqn:F; [|reflexivity]. apply ifind_some in F. cbn in F.
    apply (i_map g s I) in F as (Pp & z & Z & E). destruct (inv_os_of g s p I (proj1 Pp)) as (y & Y & <-).
    assert (Gp : ~ In (k_obj y) (gone g)) by apply Pp. exfalso. apply (FR y Y (or_intror Gp)).
    rewrite <- E. symmetry. apply (i_id g s I y z Y Z).
    destruct (o_dead z) eqn:D; [|reflexivity]. apply (i_dead g s I _ _ Z) in D. contradiction. }
  unfold iinsert. rewrite FI.
  constructor; cbn [see with_obj s1 imap iobjs ioss icnt made runs ran joining joined collected gone].
  - intros p. rewrite (i_made g s I p). destruct (Nat.eqb_spec p o) as [->|P]; [|reflexivity].
    rewrite X. split; discriminate.
  - intros p z. destruct (Nat.eqb_spec p o) as [->|P]; [|apply (i_dead g s I)].
    intros E. injection E as <-. cbn. split; [discriminate|contradiction].
  - repeat split; auto; intros p P; try (apply in_or_app; left; auto). apply in_app_or in P as [P|[<-|[]]]; auto.
  - rewrite map_app, (i_runs g s I). reflexivity.
  - rewrite <- (rev_involutive (runs g ++ [o])). apply NoDup_rev. rewrite rev_app_distr. cbn [rev app].
    constructor; [rewrite <- in_rev; exact Dr|apply NoDup_rev, (i_nodup g s I)].
  - intros y Y. apply in_app_or in Y as [Y|[<-|[]]]; [apply (i_os g s I y Y)|]. cbn.
    split; [|split; [|exact I0]]; (split; [discriminate|]); intros H; exfalso; apply Dr, S2; auto.
  - intros y z Y. apply in_app_or in Y as [Y|[<-|[]]].
    + destruct (Nat.eqb_spec (k_obj y) o) as [E|E]; [destruct (NO y Y E)|apply (i_id g s I y z Y)].
    + cbn. rewrite Nat.eqb_refl. intros E _. injection E as <-. reflexivity.
  - intros p z. destruct (Nat.eqb_spec p o) as [->|P]; [|apply (i_state g s I)].
    intros E. injection E as <-. cbn. apply (i_state g s I o x X).
  - intros y z Y Z Ay Az E. apply in_app_or in Y as [Y|[<-|[]]]; apply in_app_or in Z as [Z|[<-|[]]].
    + apply (i_uniq g s I y z Y Z Ay Az E).
    + destruct (FR y Y Ay). exact E.
    + destruct (FR z Z Az). symmetry. exact E.
    + reflexivity.
  - intros j p. rewrite in_app_iff, (i_map g s I). cbn [In].
    unfold pending; cbn [runs joined collected gone]. rewrite in_app_iff. cbn [In].
    destruct (Nat.eqb_spec p o) as [->|P].
    + split.
      * intros [((R & _) & _)|[E|[]]]; [contradiction|]. injection E as <-. split; [|eexists; split; reflexivity].
        split; [right; left; reflexivity|]. repeat split; intros H; [apply Dr, S2, S5, S4, H|apply Dr, S2, S6, H|contradiction].
      * intros (_ & z & E & Ez). injection E as <-. cbn in Ez. subst j. right; left; reflexivity.
    + split.
      * intros [((R & H) & Z)|[E|[]]]; [|congruence]. auto.
      * intros (([R|[R|[]]] & H) & Z); [|congruence]. left. auto.
  - rewrite <- (rev_involutive (imap s ++ [(i, o)])). apply NoDup_rev. rewrite rev_app_distr. cbn [rev app].
    constructor; [rewrite <- in_rev|apply NoDup_rev, (i_mapnd g s I)].
    intros M. apply (i_map g s I) in M as ((R & _) & _). contradiction.
  - rewrite (i_cnt g s I). f_equal. unfold ecount. rewrite filter_app, app_length. cbn [filter snd].
    match goal with |- context [if iended ?st o then _ else _] => assert (E0 : iended st o = false) end.
    { unfold iended; cbn. rewrite Nat.eqb_refl. cbn. destruct (o_state x) eqn:E; try reflexivity.
      apply (i_state g s I o x X) in E. destruct Dr. apply S2, E. }
    rewrite E0. cbn [length]. rewrite Nat.add_0_r.
    apply (ecount_ext s _ (imap s)). intros j p M. unfold iended; cbn [iobjs].
    destruct (Nat.eqb_spec p o) as [->|P]; [|reflexivity]. apply (i_map g s I) in M as ((R & _) & _). contradiction.
  - intros p z. destruct (Nat.eqb_spec p o) as [->|P]; [|apply (i_half g s I)].
    intros E. injection E as <-. cbn. apply (i_half g s I o x X).
Qed.

Lemma nd g s : Inv g s -> NoDup (map k_obj (ioss s)).
Proof. intros I. rewrite (i_runs g s I). apply (i_nodup g s I). Qed.

Lemma start_inv g s k y x : Inv g s -> nth_error (ioss s) k = Some y -> k_phase y = Created -> live s (k_obj y) = Ok x ->
  Inv g (with_os (with_obj s (k_obj y) (set_state x TStarted)) k (set_phase y Running)).
Proof.
  intros I K P L. apply live_ok in L as (X & Xd). assert (Y := nth_error_In _ _ K).
  destruct (i_os g s I y Y) as (Oj & Op & O0).
  assert (NR : ~ In (k_obj y) (ran g)) by (intros H; apply Op in H; congruence).
  set (s0 := with_obj s (k_obj y) (set_state x TStarted)).
  assert (WI : forall z, In z (ioss (with_os s0 k (set_phase y Running))) <-> z = set_phase y Running \/ (In z (ioss s) /\ k_obj z <> k_obj y)).
  { intros z. apply (with_os_in s0 k y (set_phase y Running) z (nd g s I) K eq_refl). }
  constructor.
  - intros p. rewrite (i_made g s I p). cbn. destruct (Nat.eqb_spec p (k_obj y)) as [->|N]; [|reflexivity]. rewrite X. split; discriminate.
  - intros p z. cbn. destruct (Nat.eqb_spec p (k_obj y)) as [->|N]; [|apply (i_dead g s I)].
    intros E. injection E as <-. cbn. apply (i_dead g s I _ _ X).
  - apply (i_sub g s I).
  - rewrite (with_os_map s0 k y (set_phase y Running) K eq_refl). apply (i_runs g s I).
  - apply (i_nodup g s I).
  - intros z Z. apply WI in Z as [->|[Z _]]; [|apply (i_os g s I z Z)]. cbn.
    split; [exact Oj|]. split; [|exact O0]. split; [discriminate|contradiction].
  - intros z w Z. apply WI in Z as [->|[Z N]]; cbn.
    + rewrite Nat.eqb_refl. intros E _. injection E as <-. cbn. apply (i_id g s I y x Y X Xd).
    + destruct (Nat.eqb_spec (k_obj z) (k_obj y)) as [E|_]; [contradiction|]. apply (i_id g s I z w Z).
  - intros p z. cbn. destruct (Nat.eqb_spec p (k_obj y)) as [->|N]; [|apply (i_state g s I)].
    intros E. injection E as <-. cbn. split; [discriminate|contradiction].
  - assert (R : forall z, In z (ioss (with_os s0 k (set_phase y Running))) -> active g z ->
                exists w, In w (ioss s) /\ active g w /\ k_id w = k_id z /\ k_obj w = k_obj z).
    { intros z Z A. apply WI in Z as [->|[Z _]]; [exists y|exists z]; auto. }
    intros a b A B Aa Ab E. destruct (R a A Aa) as (a' & A1 & A2 & A3 & A4). destruct (R b B Ab) as (b' & B1 & B2 & B3 & B4).
    rewrite <- A4, <- B4. apply (i_uniq g s I a' b'); auto. congruence.
  - intros i p. cbn [imap with_os s0 with_obj]. rewrite (i_map g s I). cbn [iobjs with_os s0 with_obj].
    destruct (Nat.eqb_spec p (k_obj y)) as [->|N]; [|reflexivity].
    split; intros (Q & z & E & F); (split; [exact Q|]).
    + exists (set_state x TStarted). split; [reflexivity|]. cbn. congruence.
    + exists x. split; [exact X|]. injection E as <-. exact F.
  - apply (i_mapnd g s I).
  - cbn [icnt imap with_os s0 with_obj]. rewrite (i_cnt g s I). f_equal. apply ecount_ext. intros i p _. unfold iended; cbn.
    destruct (Nat.eqb_spec p (k_obj y)) as [->|N]; [|reflexivity]. rewrite X. cbn.
    destruct (o_state x) eqn:E; try reflexivity. apply (i_state g s I _ _ X) in E. contradiction.
  - intros p z. cbn. destruct (Nat.eqb_spec p (k_obj y)) as [->|N]; [|apply (i_half g s I)].
    intros E. injection E as <-. cbn. apply (i_half g s I _ _ X).
Qed.

Lemma finish_inv g s k y x : Inv g s -> nth_error (ioss s) k = Some y -> k_phase y = Running -> live s (k_obj y) = Ok x ->
  Inv (see g (EFinish k) INone)
      (with_cnt (with_os (with_obj s (k_obj y) (set_state x TEnded)) k (set_phase y Finished))
                (match ifind s (o_id x) with Some _ => icnt s + 1 | None => icnt s end)).
Proof.
  intros I K P L. apply live_ok in L as (X & Xd). assert (Y := nth_error_In _ _ K).
  destruct (i_os g s I y Y) as (Oj & Op & O0). destruct (i_sub g s I) as (S1 & S2 & S3 & S4 & S5 & S6).
  assert (NR : ~ In (k_obj y) (ran g)) by (intros H; apply Op in H; congruence).
  assert (RK : nth_error (runs g) k = Some (k_obj y)) by (rewrite <- (i_runs g s I); apply map_nth_error; exact K).
  assert (RI : In (k_obj y) (runs g)) by (eapply nth_error_In; exact RK).
  assert (NG : ~ In (k_obj y) (gone g)) by (intros G; apply NR, S1, G).
  cbn [see]. rewrite RK. set (s0 := with_obj s (k_obj y) (set_state x TEnded)).
  assert (WI : forall z, In z (ioss (with_os s0 k (set_phase y Finished))) <-> z = set_phase y Finished \/ (In z (ioss s) /\ k_obj z <> k_obj y)).
  { intros z. apply (with_os_in s0 k y (set_phase y Finished) z (nd g s I) K eq_refl). }
  set (g' := {| made := made g; runs := runs g; ran := k_obj y :: ran g; joining := joining g; joined := joined g; collected := collected g; gone := gone g |}).
  constructor; cbn [with_cnt iobjs ioss imap icnt].
  - intros p. cbn [g' made]. rewrite (i_made g s I p). cbn. destruct (Nat.eqb_spec p (k_obj y)) as [->|N]; [|reflexivity]. rewrite X. split; discriminate.
  - intros p z. cbn. destruct (Nat.eqb_spec p (k_obj y)) as [->|N]; [|apply (i_dead g s I)].
    intros E. injection E as <-. cbn. apply (i_dead g s I _ _ X).
  - cbn. repeat split; auto; intros p Q; try (right; auto; fail). destruct Q as [<-|Q]; auto.
  - rewrite (with_os_map s0 k y (set_phase y Finished) K eq_refl). apply (i_runs g s I).
  - apply (i_nodup g s I).
  - intros z Z. apply WI in Z as [->|[Z N]]; cbn.
    + split; [exact Oj|]. split; [|exact O0]. split; auto.
    + destruct (i_os g s I z Z) as (Zj & Zp & Z0). split; [exact Zj|]. split; [|exact Z0]. rewrite Zp. intuition congruence.
  - intros z w Z. apply WI in Z as [->|[Z N]]; cbn.
    + rewrite Nat.eqb_refl. intros E _. injection E as <-. cbn. apply (i_id g s I y x Y X Xd).
    + destruct (Nat.eqb_spec (k_obj z) (k_obj y)) as [E|_]; [contradiction|]. apply (i_id g s I z w Z).
  - intros p z. cbn. destruct (Nat.eqb_spec p (k_obj y)) as [->|N].
    + intros E. injection E as <-. cbn. tauto.
    + intros E. rewrite (i_state g s I p z E). intuition congruence.
  - assert (R : forall z, In z (ioss (with_os s0 k (set_phase y Finished))) -> active g' z ->
                exists w, In w (ioss s) /\ active g w /\ k_id w = k_id z /\ k_obj w = k_obj z).
    { intros z Z A. apply WI in Z as [->|[Z _]]; [exists y|exists z]; auto. }
    intros a b A B Aa Ab E. destruct (R a A Aa) as (a' & A1 & A2 & A3 & A4). destruct (R b B Ab) as (b' & B1 & B2 & B3 & B4).
    rewrite <- A4, <- B4. apply (i_uniq g s I a' b'); auto. congruence.
  - intros i p. cbn [imap with_os s0 with_obj]. rewrite (i_map g s I). cbn [iobjs with_os s0 with_obj].
    unfold pending; cbn [g' runs joined collected gone].
    destruct (Nat.eqb_spec p (k_obj y)) as [->|N]; [|reflexivity].
    split; intros (Q & z & E & F); (split; [exact Q|]).
    + exists (set_state x TEnded). split; [reflexivity|]. cbn. congruence.
    + exists x. split; [exact X|]. injection E as <-. exact F.
  - apply (i_mapnd g s I).
  - cbn [imap with_os s0 with_obj]. match goal with |- _ = Z.of_nat (ecount ?st _) => rewrite (ecount_mark s st (imap s) (k_obj y) (i_mapnd g s I)) end.
    + rewrite (i_cnt g s I). destruct (inv_find g s (k_obj y) x I X RI NG) as [[-> Pe]|[-> Pe]].
      * replace (existsb _ (imap s)) with true; [cbv iota; lia|]. symmetry. apply existsb_exists. exists (o_id x, k_obj y).
        split; [apply (i_map g s I); eauto|apply Nat.eqb_refl].
      * replace (existsb (fun e => Nat.eqb (snd e) (k_obj y)) (imap s)) with false; [cbv iota; lia|]. symmetry.
        destruct (existsb _ (imap s)) eqn:Q; [|reflexivity]. apply existsb_exists in Q as ([i q] & Q1 & Q2). cbn [snd] in Q2.
        apply Nat.eqb_eq in Q2. subst q. apply (i_map g s I) in Q1 as (Q1 & _). contradiction.
    + intros i j A B. apply (i_map g s I) in A as (_ & a & A1 & <-). apply (i_map g s I) in B as (_ & b & B1 & <-). congruence.
    + intros p N. unfold iended; cbn. destruct (Nat.eqb_spec p (k_obj y)); [contradiction|reflexivity].
    + unfold iended. rewrite X. destruct (o_state x) eqn:E; try reflexivity. apply (i_state g s I _ _ X) in E. contradiction.
    + unfold iended; cbn. rewrite Nat.eqb_refl. reflexivity.
  - intros p z. cbn. destruct (Nat.eqb_spec p (k_obj y)) as [->|N]; [|apply (i_half g s I)].
    intros E. injection E as <-. cbn. apply (i_half g s I _ _ X).
Qed.

Lemma os_with_some l i n k y : os_with l i n = Some (k, y) ->
  exists j, k = (n + j)%nat /\ nth_error l j = Some y /\ k_joined y = false /\ k_id y = i.
Proof.
  revert n. induction l as [|a l IH]; intros n H; [discriminate|]. cbn [os_with] in H.
  destruct (negb (k_joined a) && Nat.eqb (k_id a) i) eqn:E.
  - injection H as <- <-. apply andb_true_iff in E as (E1 & E2). exists 0%nat.
    repeat split; [lia|apply negb_true_iff; exact E1|apply Nat.eqb_eq; exact E2].
  - destruct (IH _ H) as (j & -> & J). exists (S j). split; [lia|exact J].
Qed.
Lemma os_with_none l i n y : os_with l i n = None -> In y l -> k_joined y = false -> k_id y <> i.
Proof.
  revert n. induction l as [|a l IH]; intros n H Y J; [destruct Y|]. cbn [os_with] in H.
  destruct (negb (k_joined a) && Nat.eqb (k_id a) i) eqn:E; [discriminate|]. destruct Y as [->|Y]; [|eapply IH; eassumption].
  rewrite J in E. cbn in E. apply Nat.eqb_neq. exact E.
Qed.

(** pthread_join in join() waits for the object's own thread. *)
Lemma pjoin_own g s o x : Inv g s -> duty g (EPJoin o) -> iobjs s o = Some x ->
  o_id x <> 0%nat /\ exists k y, os_with (ioss s) (o_id x) 0 = Some (k, y) /\ nth_error (ioss s) k = Some y /\
    k_obj y = o /\ k_joined y = false /\ o_dead x = false.
Proof.
  intros I (R & J & G) X. destruct (inv_os_of g s o I R) as (z & Z & <-).
  destruct (i_os g s I z Z) as (Zj & Zp & Z0).
  assert (Xd : o_dead x = false) by (destruct (o_dead x) eqn:D; [apply (i_dead g s I _ _ X) in D; contradiction|reflexivity]).
  assert (Zi : o_id x = k_id z) by (apply (i_id g s I z x Z X Xd)).
  assert (ZJ : k_joined z = false) by (destruct (k_joined z); [destruct J; apply Zj; reflexivity|reflexivity]).
  split; [congruence|]. destruct (os_with (ioss s) (o_id x) 0) as [[k y]|] eqn:W.
  - exists k, y. split; [reflexivity|]. apply os_with_some in W as (j & -> & Y & Yj & Yi). cbn [plus].
    split; [exact Y|]. split; [|auto].
    apply (i_uniq g s I y z (nth_error_In _ _ Y) Z); [left; exact Yj|left; exact ZJ|congruence].
  - destruct (os_with_none _ _ _ z W Z ZJ). symmetry. exact Zi.
Qed.

Lemma pjoin_inv g s o x k y : Inv g s -> duty g (EPJoin o) -> iobjs s o = Some x ->
  nth_error (ioss s) k = Some y -> k_obj y = o -> k_phase y = Finished -> k_joined y = false -> o_dead x = false ->
  Inv (see g (EPJoin o) INone)
      (with_os (with_obj s o (set_half x true)) k {| k_id := k_id y; k_obj := k_obj y; k_phase := Finished; k_joined := true |}).
Proof.
  intros I (R & J & G) X K E0 P Yj Xd. subst o. assert (Y := nth_error_In _ _ K).
  destruct (i_os g s I y Y) as (Oj & Op & O0). destruct (i_sub g s I) as (S1 & S2 & S3 & S4 & S5 & S6).
  assert (Rn : In (k_obj y) (ran g)) by (apply Op; exact P).
  set (s0 := with_obj s (k_obj y) (set_half x true)).
  set (y' := {| k_id := k_id y; k_obj := k_obj y; k_phase := Finished; k_joined := true |}).
  assert (WI : forall z, In z (ioss (with_os s0 k y')) <-> z = y' \/ (In z (ioss s) /\ k_obj z <> k_obj y)).
  { intros z. apply (with_os_in s0 k y y' z (nd g s I) K eq_refl). }
  cbn [see]. set (g' := {| made := made g; runs := runs g; ran := ran g; joining := k_obj y :: joining g; joined := joined g; collected := collected g; gone := gone g |}).
  constructor; cbn [with_cnt iobjs ioss imap icnt].
  - intros p. cbn [g' made]. rewrite (i_made g s I p). cbn. destruct (Nat.eqb_spec p (k_obj y)) as [->|N]; [|reflexivity]. rewrite X. split; discriminate.
  - intros p z. cbn. destruct (Nat.eqb_spec p (k_obj y)) as [->|N]; [|apply (i_dead g s I)].
    intros E. injection E as <-. cbn. apply (i_dead g s I _ _ X).
  - cbn. repeat split; auto; intros p Q; try (right; auto; fail). destruct Q as [<-|Q]; auto.
  - rewrite (with_os_map s0 k y y' K eq_refl). apply (i_runs g s I).
  - apply (i_nodup g s I).
  - intros z Z. apply WI in Z as [->|[Z N]]; cbn.
    + split; [tauto|]. split; [|exact O0]. split; auto.
    + destruct (i_os g s I z Z) as (Zj & Zp & Z0). split; [|auto]. rewrite Zj. intuition congruence.
  - intros z w Z. apply WI in Z as [->|[Z N]]; cbn.
    + rewrite Nat.eqb_refl. intros E _. injection E as <-. cbn. apply (i_id g s I y x Y X Xd).
    + destruct (Nat.eqb_spec (k_obj z) (k_obj y)) as [E|_]; [contradiction|]. apply (i_id g s I z w Z).
  - intros p z. cbn. destruct (Nat.eqb_spec p (k_obj y)) as [->|N].
    + intros E. injection E as <-. cbn. apply (i_state g s I _ _ X).
    + intros E. apply (i_state g s I p z E).
  - assert (RR : forall z, In z (ioss (with_os s0 k y')) -> active g' z ->
                exists w, In w (ioss s) /\ active g w /\ k_id w = k_id z /\ k_obj w = k_obj z).
    { intros z Z A. apply WI in Z as [->|[Z _]]; [exists y|exists z]; auto.
      split; [exact Y|]. split; [left; exact Yj|auto]. }
    intros a b A B Aa Ab E. destruct (RR a A Aa) as (a' & A1 & A2 & A3 & A4). destruct (RR b B Ab) as (b' & B1 & B2 & B3 & B4).
    rewrite <- A4, <- B4. apply (i_uniq g s I a' b'); auto. congruence.
  - intros i p. cbn [imap with_os s0 with_obj]. rewrite (i_map g s I). cbn [iobjs with_os s0 with_obj].
    unfold pending; cbn [g' runs joined collected gone].
    destruct (Nat.eqb_spec p (k_obj y)) as [->|N]; [|reflexivity].
    split; intros (Q & z & E & F); (split; [exact Q|]).
    + exists (set_half x true). split; [reflexivity|]. cbn. congruence.
    + exists x. split; [exact X|]. injection E as <-. exact F.
  - apply (i_mapnd g s I).
  - cbn [icnt imap with_os s0 with_obj]. rewrite (i_cnt g s I). f_equal. apply ecount_ext. intros i p _. unfold iended; cbn.
    destruct (Nat.eqb_spec p (k_obj y)) as [->|N]; [|reflexivity]. rewrite X. reflexivity.
  - intros p z. cbn. destruct (Nat.eqb_spec p (k_obj y)) as [->|N].
    + intros E. injection E as <-. cbn. split; [|reflexivity]. intros _. split; [left; reflexivity|]. intros H. apply J, S4, H.
    + intros E. rewrite (i_half g s I p z E). intuition congruence.
Qed.

Lemma erase_inv g s o x : Inv g s -> duty g (EErase o) -> iobjs s o = Some x -> o_half x = true -> o_dead x = false ->
  Inv (see g (EErase o) INone)
      (let s1 := with_obj s o (set_half x false) in
       match ifind s (o_id x) with
       | Some _ => with_cnt (with_map s1 (ierase (o_id x) (imap s))) (icnt s - 1)
       | None => s1
       end).
Proof.
  intros I G X H Xd. cbn [duty] in G. apply (i_half g s I _ _ X) in H as (J & NJ).
  destruct (i_sub g s I) as (S1 & S2 & S3 & S4 & S5 & S6).
  assert (Rn : In o (ran g)) by auto. assert (Ru : In o (runs g)) by auto.
  assert (En : iended s o = true) by (unfold iended; rewrite X; apply (i_state g s I _ _ X) in Rn; rewrite Rn; reflexivity).
  set (s1 := with_obj s o (set_half x false)).
  assert (Ee : forall p, iended s1 p = iended s p).
  { intros p. unfold iended, s1; cbn. destruct (Nat.eqb_spec p o) as [->|N]; [|reflexivity]. rewrite X. reflexivity. }
  cbn [see]. set (g' := {| made := made g; runs := runs g; ran := ran g; joining := joining g; joined := o :: joined g; collected := collected g; gone := gone g |}).
  cbv zeta. set (s' := match ifind s (o_id x) with Some _ => _ | None => s1 end).
  assert (FO : iobjs s' = iobjs s1) by (unfold s'; destruct (ifind s (o_id x)); reflexivity).
  assert (FK : ioss s' = ioss s) by (unfold s'; destruct (ifind s (o_id x)); reflexivity).
  assert (FM : forall j p, In (j, p) (imap s') <-> In (j, p) (imap s) /\ p <> o).
  { intros j p. unfold s'. destruct (inv_find g s o x I X Ru G) as [[-> Pe]|[-> Pe]]; cbn.
    - rewrite ierase_in. split; intros [A B]; (split; [exact A|]); intros ->.
      + apply B. apply (i_map g s I) in A as (_ & z & Z & <-). congruence.
      + apply B. apply (inv_key g s (o_id x) p o I A). apply (i_map g s I). eauto.
    - split; [|intros [A _]; exact A]. intros A. split; [exact A|]. intros ->. apply (i_map g s I) in A as (A & _). contradiction. }
  constructor.
  - intros p. rewrite FO. cbn [g' made]. rewrite (i_made g s I p). cbn. destruct (Nat.eqb_spec p o) as [->|N]; [|reflexivity]. rewrite X. split; discriminate.
  - intros p z. rewrite FO. cbn. destruct (Nat.eqb_spec p o) as [->|N]; [|apply (i_dead g s I)].
    intros E. injection E as <-. cbn. apply (i_dead g s I _ _ X).
  - cbn. repeat split; auto. intros p [<-|Q]; auto.
  - rewrite FK. apply (i_runs g s I).
  - apply (i_nodup g s I).
  - rewrite FK. apply (i_os g s I).
  - rewrite FK, FO. intros z w Z. cbn. destruct (Nat.eqb_spec (k_obj z) o) as [E|_]; [|apply (i_id g s I z w Z)].
    intros W _. injection W as <-. cbn. apply (i_id g s I z x Z); [rewrite E; exact X|exact Xd].
  - intros p z. rewrite FO. cbn. destruct (Nat.eqb_spec p o) as [->|N]; [|apply (i_state g s I)].
    intros E. injection E as <-. cbn. apply (i_state g s I _ _ X).
  - rewrite FK. apply (i_uniq g s I).
  - intros i p. rewrite FM, (i_map g s I), FO. unfold pending; cbn [g' runs joined collected gone In]. cbn.
    destruct (Nat.eqb_spec p o) as [->|N]; [intuition congruence|]. intuition congruence.
  - unfold s'. destruct (ifind s (o_id x)); [apply nodup_keep|]; apply (i_mapnd g s I).
  - unfold s'. destruct (inv_find g s o x I X Ru G) as [[-> Pe]|[-> Pe]]; cbn [icnt imap with_cnt with_map s1 with_obj]; rewrite (i_cnt g s I).
    + assert (M : In (o_id x, o) (imap s)) by (apply (i_map g s I); eauto).
      assert (C := ecount_erase g s (o_id x) o I M En).
      match goal with |- _ = Z.of_nat (ecount ?st ?m) => rewrite (ecount_ext st s m (fun i p _ => Ee p)) end. lia.
    + f_equal. apply ecount_ext. intros i p _. symmetry. apply Ee.
  - intros p z. rewrite FO. cbn. destruct (Nat.eqb_spec p o) as [->|N].
    + intros E. injection E as <-. cbn. split; [discriminate|]. intros [_ Q]. destruct Q. left. reflexivity.
    + intros E. rewrite (i_half g s I p z E). intuition congruence.
Qed.

Lemma destroy_inv g s o x : Inv g s -> duty g (EDestroy o) -> iobjs s o = Some x -> o_dead x = false ->
  Inv (see g (EDestroy o) INone)
      (let s1 := with_obj s o {| o_id := 0; o_state := o_state x; o_half := o_half x; o_dead := true |} in
       match ifind s (o_id x) with
       | Some _ => with_cnt (with_map s1 (ierase (o_id x) (imap s))) (icnt s - 1)
       | None => s1
       end).
Proof.
  intros I (Rn & G & Jn) X Xd.
  destruct (i_sub g s I) as (S1 & S2 & S3 & S4 & S5 & S6). assert (Ru : In o (runs g)) by auto.
  assert (En : iended s o = true) by (unfold iended; rewrite X; apply (i_state g s I _ _ X) in Rn; rewrite Rn; reflexivity).
  set (s1 := with_obj s o _).
  assert (Ee : forall p, iended s1 p = iended s p).
  { intros p. unfold iended, s1; cbn. destruct (Nat.eqb_spec p o) as [->|N]; [|reflexivity]. rewrite X. reflexivity. }
  cbn [see]. set (g' := {| made := made g; runs := runs g; ran := ran g; joining := joining g; joined := joined g; collected := collected g; gone := o :: gone g |}).
  cbv zeta. set (s' := match ifind s (o_id x) with Some _ => _ | None => s1 end).
  assert (FO : iobjs s' = iobjs s1) by (unfold s'; destruct (ifind s (o_id x)); reflexivity).
  assert (FK : ioss s' = ioss s) by (unfold s'; destruct (ifind s (o_id x)); reflexivity).
  assert (FM : forall j p, In (j, p) (imap s') <-> In (j, p) (imap s) /\ p <> o).
  { intros j p. unfold s'. destruct (inv_find g s o x I X Ru G) as [[-> Pe]|[-> Pe]]; cbn.
    - rewrite ierase_in. split; intros [A B]; (split; [exact A|]); intros ->.
      + apply B. apply (i_map g s I) in A as (_ & z & Z & <-). congruence.
      + apply B. apply (inv_key g s (o_id x) p o I A). apply (i_map g s I). eauto.
    - split; [|intros [A _]; exact A]. intros A. split; [exact A|]. intros ->. apply (i_map g s I) in A as (A & _). contradiction. }
  constructor.
  - intros p. rewrite FO. cbn [g' made]. rewrite (i_made g s I p). cbn. destruct (Nat.eqb_spec p o) as [->|N]; [|reflexivity]. rewrite X. split; discriminate.
  - intros p z. rewrite FO. cbn. destruct (Nat.eqb_spec p o) as [->|N].
    + intros E. injection E as <-. cbn. tauto.
    + intros E. rewrite (i_dead g s I p z E). intuition congruence.
  - cbn. repeat split; auto. intros p [<-|Q]; auto.
  - rewrite FK. apply (i_runs g s I).
  - apply (i_nodup g s I).
  - rewrite FK. apply (i_os g s I).
  - rewrite FK, FO. intros z w Z. cbn. destruct (Nat.eqb_spec (k_obj z) o) as [E|_]; [|apply (i_id g s I z w Z)].
    intros W. injection W as <-. cbn. discriminate.
  - intros p z. rewrite FO. cbn. destruct (Nat.eqb_spec p o) as [->|N]; [|apply (i_state g s I)].
    intros E. injection E as <-. cbn. apply (i_state g s I _ _ X).
  - rewrite FK. intros y z Y Z Ay Az. apply (i_uniq g s I y z Y Z).
    + destruct Ay as [A|A]; [left; exact A|right]. intros Q. apply A. right. exact Q.
    + destruct Az as [A|A]; [left; exact A|right]. intros Q. apply A. right. exact Q.
  - intros i p. rewrite FM, (i_map g s I), FO. unfold pending; cbn [g' runs joined collected gone In]. cbn.
    destruct (Nat.eqb_spec p o) as [->|N]; [intuition congruence|]. intuition congruence.
  - unfold s'. destruct (ifind s (o_id x)); [apply nodup_keep|]; apply (i_mapnd g s I).
  - unfold s'. destruct (inv_find g s o x I X Ru G) as [[-> Pe]|[-> Pe]]; cbn [icnt imap with_cnt with_map s1 with_obj]; rewrite (i_cnt g s I).
    + assert (M : In (o_id x, o) (imap s)) by (apply (i_map g s I); eauto).
      assert (C := ecount_erase g s (o_id x) o I M En).
      match goal with |- _ = Z.of_nat (ecount ?st ?m) => rewrite (ecount_ext st s m (fun i p _ => Ee p)) end. lia.
    + f_equal. apply ecount_ext. intros i p _. symmetry. apply Ee.
  - intros p z. rewrite FO. cbn. destruct (Nat.eqb_spec p o) as [->|N]; [|apply (i_half g s I)].
    intros E. injection E as <-. cbn. apply (i_half g s I _ _ X).
Qed.

Lemma collect_inv g s i o : Inv g s -> In (i, o) (imap s) -> iended s o = true ->
  Inv (see g (EJoinAny true) (IGot o)) (with_cnt (with_map s (ierase i (imap s))) (icnt s - 1)).
Proof.
  intros I M En. destruct (i_sub g s I) as (S1 & S2 & S3 & S4 & S5 & S6).
  assert (M0 := M). apply (i_map g s I) in M0 as (Pe & x & X & Ei).
  assert (Rn : In o (ran g)).
  { unfold iended in En. rewrite X in En. destruct (o_state x) eqn:E; try discriminate. apply (i_state g s I _ _ X). exact E. }
  cbn [see]. constructor; cbn [made runs ran joining joined collected gone iobjs ioss imap icnt with_cnt with_map];
    try (apply I; fail).
  - repeat split; auto. intros p [<-|Q]; auto.
  - intros j p. rewrite ierase_in, (i_map g s I). unfold pending; cbn [runs joined collected gone In].
    split.
    + intros (((A & B & C & D) & y & Y & Ey) & N). split; [|eauto]. repeat split; auto. intros [->|Q]; [|auto].
      apply N. congruence.
    + intros ((A & B & C & D) & y & Y & Ey). split; [split; [repeat split; auto|eauto]|]. intros ->.
      apply C. left. apply (inv_key g s i o p I M). apply (i_map g s I). split; [repeat split; auto|eauto].
  - apply nodup_keep, (i_mapnd g s I).
  - rewrite (i_cnt g s I). assert (C := ecount_erase g s i o I M En).
    match goal with |- _ = Z.of_nat (ecount ?st ?m) => rewrite (ecount_ext st s m (fun _ p _ => eq_refl)) end. lia.
Qed.

Lemma istep_inv g s e s' r : Inv g s -> orderly g e -> istep s e = Some (Ok (s', r)) -> Inv (see g e r) s'.
Proof.
  intros I O H. destruct O as (D & O). assert (OO := conj D O : orderly g e).
  destruct e as [o st j|o i|k|k|k|first|o|o|o|o j]; cbn [istep] in H.
  - destruct (iobjs s o) eqn:E; [discriminate|]. injection H as <- <-. apply new_inv; assumption.
  - destruct (may_give s i) eqn:MG; [|discriminate]. destruct (live s o) as [x| |] eqn:L; try discriminate. cbn [obind] in H.
    assert (E := f_equal (fun z => match z with Some (Ok p) => p | _ => (s, INone) end) H). cbn beta iota in E.
    assert (E1 := f_equal fst E). assert (E2 := f_equal snd E). cbn [fst snd] in E1, E2. subst s' r. apply (resume_inv g s o i x I OO MG L).
  - destruct (nth_error (ioss s) k) as [y|] eqn:K; [|discriminate]. destruct (k_phase y) eqn:P; try discriminate.
    destruct (live s (k_obj y)) as [x| |] eqn:L; try discriminate. cbn [obind] in H. unfold cassert in H.
    destruct (negb (Nat.eqb (o_id x) 0)); [|discriminate].
    assert (E := f_equal (fun z => match z with Some (Ok p) => p | _ => (s, INone) end) H). cbn beta iota in E.
    assert (E1 := f_equal fst E). assert (E2 := f_equal snd E). cbn [fst snd] in E1, E2. subst s' r. exact (start_inv g s k y x I K P L).
  - destruct D.
  - destruct (nth_error (ioss s) k) as [y|] eqn:K; [|discriminate]. destruct (k_phase y) eqn:P; try discriminate.
    destruct (live s (k_obj y)) as [x| |] eqn:L; try discriminate. cbn [obind] in H.
    assert (E := f_equal (fun z => match z with Some (Ok p) => p | _ => (s, INone) end) H). cbn beta iota in E.
    assert (E1 := f_equal fst E). assert (E2 := f_equal snd E). cbn [fst snd] in E1, E2. subst s' r. exact (finish_inv g s k y x I K P L).
  - unfold ijoin_any in H. destruct (first && _); [injection H as <- <-; exact I|].
    destruct (icnt s =? 0); [injection H as <- <-; exact I|].
    destruct (List.find _ (imap s)) as [[i o]|] eqn:F; [|injection H as <- <-; exact I].
    apply find_some in F as (F1 & F2). cbn [fst snd] in *.
    assert (E := f_equal (fun z => match z with Some (Ok p) => p | _ => (s, INone) end) H). cbn beta iota in E.
    assert (E1 := f_equal fst E). assert (E2 := f_equal snd E). cbn [fst snd] in E1, E2. subst s' r. exact (collect_inv g s i o I F1 F2).
  - destruct (live s o) as [x| |] eqn:L; try discriminate. apply live_ok in L as (X & Xd).
    destruct (Nat.eqb (o_id x) 0) eqn:Z0; [discriminate|].
    destruct (pjoin_own g s o x I D X) as (_ & k & y & W & K & Ky & Kj & _). rewrite W in H.
    destruct (k_phase y) eqn:P; try discriminate.
    assert (E := f_equal (fun z => match z with Some (Ok p) => p | _ => (s, INone) end) H). cbn beta iota in E.
    assert (E1 := f_equal fst E). assert (E2 := f_equal snd E). cbn [fst snd] in E1, E2. subst s' r. exact (pjoin_inv g s o x k y I D X K Ky P Kj Xd).
  - destruct (iobjs s o) as [x0|] eqn:X0; [|discriminate]. destruct (o_half x0) eqn:Hf; [|discriminate].
    destruct (live s o) as [x| |] eqn:L; try discriminate. apply live_ok in L as (X & Xd). cbn [obind] in H.
    assert (x0 = x) by congruence. subst x0.
    assert (E := f_equal (fun z => match z with Some (Ok p) => p | _ => (s, INone) end) H). cbn beta iota in E.
    assert (E1 := f_equal fst E). assert (E2 := f_equal snd E). cbn [fst snd] in E1, E2. subst s' r. exact (erase_inv g s o x I D X Hf Xd).
  - destruct (live s o) as [x| |] eqn:L; try discriminate. apply live_ok in L as (X & Xd). cbn [obind] in H.
    unfold cassert in H. destruct (match o_state x with TEnded => true | _ => false end); [|discriminate].
    assert (E := f_equal (fun z => match z with Some (Ok p) => p | _ => (s, INone) end) H). cbn beta iota in E.
    assert (E1 := f_equal fst E). assert (E2 := f_equal snd E). cbn [fst snd] in E1, E2. subst s' r. exact (destroy_inv g s o x I D X Xd).
  - destruct D.
Qed.

Lemma irun_inv es : forall g s s' rs, Inv g s -> irun s es = Some (Ok (s', rs)) -> each orderly g es rs -> Inv (sees g es rs) s'.
Proof.
  induction es as [|e es IH]; intros g s s' rs I H E; cbn [irun] in H; [injection H as <- <-; exact I|].
  destruct (istep s e) as [[[s1 r]| |]|] eqn:S1; try discriminate. cbn [fst snd] in H.
  destruct (irun s1 es) as [[[s2 rs2]| |]|] eqn:R; try discriminate. injection H as <- <-. cbn [fst snd] in *.
  cbn [each] in E. destruct E as (E1 & E2). cbn [sees]. eapply IH; [|exact R|exact E2]. eapply istep_inv; eassumption.
Qed.
