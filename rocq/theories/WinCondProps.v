(** C65: the condition variable for Windows. *)
From Verif Require Import Base RefModel RefProofs WinCondModel.

(** The thread has called wait() and is still counted as a waiter. *)
Definition pending (p : wpc) : bool := match p with WWait _ _ | WCheck _ _ _ | WLeave => true | _ => false end.
Definition waits (s : wstate) (t : nat) : Prop := exists p, nth_error (w_pcs s) t = Some p /\ pending p = true.
(** No signal, no broadcast, and no wait with a time limit. *)
Definition quiet (e : wevent) : Prop := match e with WSignal | WBroadcast => False | WCall _ timed => timed = false | _ => True end.
(** The thread does not call wait() again. *)
Definition no_call (t : nat) (e : wevent) : Prop := match e with WCall u _ => u <> t | _ => True end.
Definition own (t : nat) : list wevent := [WStep t; WStep t; WStep t].

(** How many satisfy a test. *)
Fixpoint count (f : wpc -> bool) (l : list wpc) : Z := match l with [] => 0 | p :: l => (if f p then 1 else 0) + count f l end.
Lemma count_nonneg f l : 0 <= count f l.
Proof. induction l as [|p l IH]; cbn [count]; [lia|]. destruct (f p); lia. Qed.
Lemma count_upd f l : forall t p q, nth_error l t = Some p -> count f (upd l t q) = count f l - (if f p then 1 else 0) + (if f q then 1 else 0).
Proof. induction l as [|x l IH]; intros [|t] p q H; cbn in *; try discriminate; [assert (x = p) by congruence; subst; lia|]. rewrite (IH t p q H). lia. Qed.
Lemma count_pos f l t p : nth_error l t = Some p -> f p = true -> 0 < count f l.
Proof.
  revert t. induction l as [|x l IH]; intros [|t] H E; cbn in *; try discriminate.
  - assert (x = p) by congruence. subst. rewrite E. pose proof (count_nonneg f l). lia.
  - specialize (IH t H E). destruct (f x); lia.
Qed.
Lemma count_ext f g l : (forall p, In p l -> f p = g p) -> count f l = count g l.
Proof. induction l as [|x l IH]; intros H; cbn; [reflexivity|]. rewrite (H x) by (left; reflexivity). rewrite IH; [reflexivity|]. intros p I. apply H. right. exact I. Qed.
Lemma count_repeat f p n : f p = false -> count f (repeat p n) = 0.
Proof. intros E. induction n; cbn; [reflexivity|]. rewrite E. lia. Qed.

Definition gen_of (p : wpc) : option Z := match p with WWait g _ | WCheck g _ _ => Some g | _ => None end.
(** In every state. *)
Definition WInv (s : wstate) : Prop :=
  w_waiters s = count pending (w_pcs s) /\ forall t p g, nth_error (w_pcs s) t = Some p -> gen_of p = Some g -> g <= w_generation s.

Lemma nth_upd_any {A} (l : list A) t q u p : nth_error (upd l t q) u = Some p -> (u = t /\ p = q) \/ nth_error l u = Some p.
Proof. intros H. apply nth_upd_inv in H as [(-> & -> & _)|(_ & H)]; auto. Qed.

Lemma wstep_inv s e : WInv s -> WInv (wstep s e).
Proof.
  intros [A B].
  assert (SET : forall t p q, nth_error (w_pcs s) t = Some p -> pending q = pending p -> (forall g, gen_of q = Some g -> g <= w_generation s) -> WInv (wset s t q)).
  { intros t p q H E G. split; cbn.
    - rewrite (count_upd _ _ _ _ q H), E, A. destruct (pending p); lia.
    - intros u x g X Y. apply nth_upd_any in X as [(-> & ->)|X]; [auto|eauto]. }
  destruct e as [t tm| | |t|t]; cbn [wstep].
  - destruct (nth_error (w_pcs s) t) as [[]|] eqn:E; try (split; assumption). split; cbn.
    + rewrite (count_upd _ _ _ _ _ E). cbn. lia.
    + intros u x g X Y. apply nth_upd_any in X as [(-> & ->)|X]; [cbn in Y; assert (g = w_generation s) by congruence; lia|eauto].
  - destruct (_ >? _); [|split; assumption]. split; cbn; [exact A|]. intros u x g X Y. specialize (B u x g X Y). lia.
  - destruct (_ >? _); [|split; assumption]. split; cbn; [exact A|]. intros u x g X Y. specialize (B u x g X Y). lia.
  - destruct (nth_error (w_pcs s) t) as [[|g [|]|g tm l| | ]|] eqn:E; try (split; assumption). apply (SET t _ _ E); [reflexivity|]. intros g' Y. exact (B t _ g' E Y).
  - destruct (nth_error (w_pcs s) t) as [[|g tm|g tm l| | ]|] eqn:E; try (split; assumption).
    + destruct (w_event s); [|split; assumption]. apply (SET t _ _ E); [reflexivity|]. intros g' Y. exact (B t _ g' E Y).
    + destruct (_ || _); apply (SET t _ _ E); try reflexivity; intros g' Y; [discriminate|exact (B t _ g' E Y)].
    + split; cbn.
      * rewrite (count_upd _ _ _ _ _ E). cbn [pending]. destruct (_ =? _); cbn [pending]; lia.
      * intros u x g X Y. apply nth_upd_any in X as [(-> & ->)|X]; [destruct (_ =? _); discriminate|eauto].
    + split; cbn; [rewrite (count_upd _ _ _ _ _ E); cbn [pending]; lia|].
      intros u x g X Y. apply nth_upd_any in X as [(-> & ->)|X]; [discriminate|eauto].
Qed.
Lemma wrun_inv es : forall s, WInv s -> WInv (wrun s es).
Proof. induction es as [|e es IH]; intros s I; [exact I|]. apply IH, wstep_inv, I. Qed.
Lemma winit_inv n : WInv (winit n).
Proof. split; cbn; [rewrite count_repeat; reflexivity|]. intros t p g H E. apply nth_error_In, repeat_spec in H. subst. discriminate. Qed.

(** wait() without a time limit does not return by itself: without a signal or
    broadcast since it was called the thread still waits. *)
Theorem C65_not_before : forall s t es,
  nth_error (w_pcs s) t = Some WIdle -> Forall (fun e => e <> WSignal /\ e <> WBroadcast) es ->
  waits (wrun s (WCall t false :: es)) t.
Proof.
  intros s t es P F. cbn [wrun fold_left]. cbn [wstep]. rewrite P.
  match goal with |- waits (fold_left wstep es ?x) t => set (s1 := x) end.
  assert (G : exists p, nth_error (w_pcs s1) t = Some p /\ (p = WWait (w_generation s1) false \/ p = WCheck (w_generation s1) false false)).
  { exists (WWait (w_generation s) false). cbn. split; [eapply nth_upd_eq, P|auto]. }
  clearbody s1. clear P s. revert s1 G. induction es as [|e es IH]; intros s (p & P & G); cbn [fold_left].
  - exists p. split; [exact P|]. destruct G as [->| ->]; reflexivity.
  - inversion F as [|? ? [N1 N2] F']; subst. apply IH; [exact F'|]. clear IH F F' es.
    assert (KEEP : forall u q, u <> t -> exists p', nth_error (upd (w_pcs s) u q) t = Some p' /\ (p' = WWait (w_generation s) false \/ p' = WCheck (w_generation s) false false)).
    { intros u q N. exists p. rewrite nth_upd_ne by exact N. auto. }
    assert (SAME : exists p', nth_error (w_pcs s) t = Some p' /\ (p' = WWait (w_generation s) false \/ p' = WCheck (w_generation s) false false)) by eauto.
    destruct e as [u tm| | |u|u]; try congruence; cbn [wstep].
    + destruct (nth_error (w_pcs s) u) as [[]|] eqn:E; try exact SAME. cbn. apply KEEP. intros ->. rewrite P in E. destruct G; congruence.
    + destruct (nth_error (w_pcs s) u) as [[|g [|]|g tm l| | ]|] eqn:E; try exact SAME. cbn. apply KEEP. intros ->. rewrite P in E. destruct G; congruence.
    + destruct (Nat.eq_dec u t) as [->|N].
      * rewrite P. destruct G as [->| ->].
        -- destruct (w_event s); [|exact SAME]. cbn. eexists. split; [eapply nth_upd_eq, P|auto].
        -- rewrite Z.eqb_refl, andb_false_r. cbn. eexists. split; [eapply nth_upd_eq, P|auto].
      * destruct (nth_error (w_pcs s) u) as [[|g tm|g tm l| | ]|] eqn:E; try exact SAME.
        -- destruct (w_event s); [|exact SAME]. cbn. apply KEEP, N.
        -- destruct (_ || _); cbn; apply KEEP, N.
        -- cbn. apply KEEP, N.
        -- cbn. apply KEEP, N.
Qed.

(** To be released: it waits, from before the last signal. *)
Definition freed (g : Z) (p : wpc) : bool := match p with WWait g' _ | WCheck g' _ _ => negb (g' =? g) | WLeave => true | _ => false end.
Definition Released (s : wstate) : Prop :=
  w_release s = count (freed (w_generation s)) (w_pcs s) /\
  (0 < w_release s -> w_event s = true /\ forall t, nth_error (w_pcs s) t <> Some WReset) /\
  (forall t g tm, nth_error (w_pcs s) t = Some (WWait g tm) -> g = w_generation s -> tm = false) /\
  (forall t g tm l, nth_error (w_pcs s) t = Some (WCheck g tm l) -> g = w_generation s -> l = false /\ tm = false).

Lemma upd_freed s t p q : nth_error (w_pcs s) t = Some p -> freed (w_generation s) p = freed (w_generation s) q ->
  count (freed (w_generation s)) (upd (w_pcs s) t q) = count (freed (w_generation s)) (w_pcs s).
Proof. intros H E. rewrite (count_upd _ _ _ _ q H), E. destruct (freed _ q); lia. Qed.

Lemma released_step s e : quiet e -> Released s -> Released (wstep s e) /\ w_generation (wstep s e) = w_generation s.
Proof.
  intros Q (A & B & C & D).
  assert (SET : forall t p q, nth_error (w_pcs s) t = Some p -> freed (w_generation s) p = freed (w_generation s) q -> q <> WReset ->
    (forall g tm, q = WWait g tm -> g = w_generation s -> tm = false) ->
    (forall g tm l, q = WCheck g tm l -> g = w_generation s -> l = false /\ tm = false) -> Released (wset s t q)).
  { intros t p q H E N R1 R2. split; [|split; [|split]]; cbn.
    - rewrite (upd_freed _ _ _ _ H E). exact A.
    - intros X. destruct (B X) as [B1 B2]. split; [exact B1|]. intros u Y. apply nth_upd_any in Y as [(-> & Y)|Y]; [congruence|exact (B2 u Y)].
    - intros u g tm X. apply nth_upd_any in X as [(-> & X)|X]; [eauto|eauto].
    - intros u g tm l X. apply nth_upd_any in X as [(-> & X)|X]; [eauto|eauto]. }
  assert (SAME : Released s) by (split; [|split; [|split]]; assumption).
  destruct e as [t tm| | |t|t]; cbn in Q; try contradiction; cbn [wstep].
  - subst tm. destruct (nth_error (w_pcs s) t) as [[]|] eqn:E; try (split; [exact SAME|reflexivity]). split; [|reflexivity].
    split; [|split; [|split]]; cbn.
    + rewrite (upd_freed s t WIdle); [exact A|exact E|]. cbn. rewrite Z.eqb_refl. reflexivity.
    + intros X. destruct (B X) as [B1 B2]. split; [exact B1|]. intros u Y. apply nth_upd_any in Y as [(-> & Y)|Y]; [discriminate|exact (B2 u Y)].
    + intros u g tm X. apply nth_upd_any in X as [(-> & X)|X]; [congruence|eauto].
    + intros u g tm l X. apply nth_upd_any in X as [(-> & X)|X]; [discriminate|eauto].
  - destruct (nth_error (w_pcs s) t) as [[|g [|]|g tm l| | ]|] eqn:E; try (split; [exact SAME|reflexivity]). split; [|reflexivity].
    apply (SET t _ _ E); try discriminate; [reflexivity|]. intros g' tm' l' X Y. assert (G : g' = g) by congruence. rewrite G in Y. discriminate (C t g true E Y).
  - destruct (nth_error (w_pcs s) t) as [[|g tm|g tm l| | ]|] eqn:E; try (split; [exact SAME|reflexivity]).
    + destruct (w_event s) eqn:EV; [|split; [exact SAME|reflexivity]]. split; [|reflexivity].
      apply (SET t _ _ E); try discriminate; [reflexivity|]. intros g' tm' l' X Y. assert (g' = g /\ tm' = tm /\ l' = false) as (-> & -> & ->) by (repeat split; congruence). split; [reflexivity|eauto].
    + destruct (_ || _) eqn:T; (split; [|reflexivity]).
      * apply (SET t _ _ E); try discriminate. cbn. destruct (Z.eqb_spec g (w_generation s)) as [G|G]; [|reflexivity].
        destruct (D t g tm l E G) as [-> _]. rewrite andb_false_r in T. discriminate.
      * apply (SET t _ _ E); try discriminate; [reflexivity|]. intros g' tm' X Y. assert (g' = g /\ tm' = tm) as (-> & ->) by (split; congruence). exact (proj2 (D t g tm l E Y)).
    + split; [|reflexivity]. pose proof (count_upd (freed (w_generation s)) _ _ _ (if w_release s - 1 =? 0 then WReset else WIdle) E) as CU.
      replace (freed (w_generation s) (if w_release s - 1 =? 0 then WReset else WIdle)) with false in CU by (destruct (_ =? _); reflexivity). cbn [freed] in CU.
      split; [|split; [|split]]; cbn [w_release w_generation w_pcs w_event].
      * rewrite CU, <- A. lia.
      * intros X. destruct (Z.eqb_spec (w_release s - 1) 0) as [Y|Y]; [lia|]. destruct B as [B1 B2]; [lia|]. split; [exact B1|].
        intros u X'. apply nth_upd_any in X' as [(-> & X')|X']; [discriminate|exact (B2 u X')].
      * intros u g tm X. apply nth_upd_any in X as [(-> & X)|X]; [destruct (_ =? _); discriminate|eauto].
      * intros u g tm l X. apply nth_upd_any in X as [(-> & X)|X]; [destruct (_ =? _); discriminate|eauto].
    + split; [|reflexivity]. split; [|split; [|split]]; cbn.
      * rewrite (upd_freed s t WReset); [exact A|exact E|reflexivity].
      * intros X. destruct (B X) as [_ B2]. destruct (B2 t E).
      * intros u g tm X. apply nth_upd_any in X as [(-> & X)|X]; [discriminate|eauto].
      * intros u g tm l X. apply nth_upd_any in X as [(-> & X)|X]; [discriminate|eauto].
Qed.
Lemma released_run es : forall s, Forall quiet es -> Released s -> Released (wrun s es) /\ w_generation (wrun s es) = w_generation s.
Proof.
  induction es as [|e es IH]; intros s F R; [auto|]. inversion F; subst. destruct (released_step s e) as [R1 G1]; try assumption.
  destruct (IH (wstep s e) ltac:(assumption) R1) as [R2 G2]. split; [exact R2|]. exact (eq_trans G2 G1).
Qed.

(** A thread that does not call again is out for good once it is out, and until
    then keeps its generation. *)
Definition old (g : Z) (p : wpc) : Prop := pending p = false \/ freed g p = true.
Lemma old_step s e t p : quiet e -> no_call t e -> nth_error (w_pcs s) t = Some p -> old (w_generation s) p ->
  exists p', nth_error (w_pcs (wstep s e)) t = Some p' /\ old (w_generation s) p'.
Proof.
  intros Q N P O.
  assert (SAME : exists p', nth_error (w_pcs s) t = Some p' /\ old (w_generation s) p') by eauto.
  assert (KEEP : forall u q, (u = t -> old (w_generation s) q) -> exists p', nth_error (upd (w_pcs s) u q) t = Some p' /\ old (w_generation s) p').
  { intros u q H. destruct (Nat.eq_dec u t) as [->|NE]; [exists q; split; [eapply nth_upd_eq, P|auto]|]. exists p. rewrite nth_upd_ne by exact NE. auto. }
  destruct e as [u tm| | |u|u]; cbn in Q; try contradiction; cbn [wstep].
  - destruct (nth_error (w_pcs s) u) as [[]|] eqn:E; try exact SAME. cbn. apply KEEP. intros ->. cbn in N. contradiction.
  - destruct (nth_error (w_pcs s) u) as [[|g [|]|g tm l| | ]|] eqn:E; try exact SAME. cbn. apply KEEP. intros ->. rewrite P in E. assert (p = WWait g true) by congruence. subst p. destruct O as [O|O]; [discriminate|right; exact O].
  - destruct (nth_error (w_pcs s) u) as [[|g tm|g tm l| | ]|] eqn:E; try exact SAME.
    + destruct (w_event s); [|exact SAME]. cbn. apply KEEP. intros ->. rewrite P in E. assert (p = WWait g tm) by congruence. subst p. destruct O as [O|O]; [discriminate|right; exact O].
    + destruct (_ || _); cbn; apply KEEP; intros ->; rewrite P in E; assert (p = WCheck g tm l) by congruence; subst p; (destruct O as [O|O]; [discriminate|right]); [reflexivity|exact O].
    + cbn. apply KEEP. intros ->. left. destruct (_ =? _); reflexivity.
    + cbn. apply KEEP. intros ->. left. reflexivity.
Qed.
Lemma old_run es : forall s t p, Forall quiet es -> Forall (no_call t) es -> Released s -> nth_error (w_pcs s) t = Some p -> old (w_generation s) p ->
  exists p', nth_error (w_pcs (wrun s es)) t = Some p' /\ old (w_generation s) p'.
Proof.
  induction es as [|e es IH]; intros s t p F1 F2 R P O; [eauto|]. inversion F1; inversion F2; subst. destruct (released_step s e) as [R1 G1]; try assumption.
  destruct (old_step s e t p) as (p1 & P1 & O1); try assumption. rewrite <- G1 in O1 |- *. eapply IH; eauto.
Qed.

(** A released thread gets out by its own steps. *)
Lemma own_out s t p : (freed (w_generation s) p = true -> 0 < w_release s /\ w_event s = true) -> nth_error (w_pcs s) t = Some p -> old (w_generation s) p -> ~ waits (wrun s (own t)) t.
Proof.
  intros R P O. unfold own, wrun. cbn [fold_left].
  assert (OUT : forall s p, nth_error (w_pcs s) t = Some p -> pending p = false -> forall es, (forall e, In e es -> e = WStep t) -> ~ waits (fold_left wstep es s) t).
  { intros s0 p0 P0 N0 es. revert s0 p0 P0 N0. induction es as [|e es IH]; intros s0 p0 P0 N0 H; cbn [fold_left].
    - intros (q & Q1 & Q2). congruence.
    - rewrite (H e (or_introl eq_refl)). assert (exists p1, nth_error (w_pcs (wstep s0 (WStep t))) t = Some p1 /\ pending p1 = false) as (p1 & P1 & N1).
      { cbn [wstep]. rewrite P0. destruct p0; try discriminate N0; [eauto|]. exists WIdle. cbn. split; [eapply nth_upd_eq, P0|reflexivity]. }
      eapply IH; eauto. intros e' I. apply H. right. exact I. }
  assert (LV : forall s, nth_error (w_pcs s) t = Some WLeave -> forall es, (forall e, In e es -> e = WStep t) -> ~ waits (fold_left wstep es (wstep s (WStep t))) t).
  { intros s0 P0 es H. cbn [wstep]. rewrite P0. apply (OUT _ (if w_release s0 - 1 =? 0 then WReset else WIdle)); [cbn; eapply nth_upd_eq, P0|destruct (_ =? _); reflexivity|exact H]. }
  destruct O as [O|O].
  - apply (OUT s p P O [WStep t; WStep t; WStep t]). intros e [<-|[<-|[<-|[]]]]; reflexivity.
  - destruct (R O) as [POS EV].
    assert (T : w_release s >? 0 = true) by lia.
    destruct p as [|g tm|g tm l| | ]; cbn in O; try discriminate.
    + assert (E1 : wstep s (WStep t) = wset s t (WCheck g tm false)) by (cbn [wstep]; rewrite P, EV; reflexivity). rewrite E1.
      assert (E2 : wstep (wset s t (WCheck g tm false)) (WStep t) = wset (wset s t (WCheck g tm false)) t WLeave).
      { cbn [wstep]. cbn [wset w_pcs w_release w_generation]. rewrite (nth_upd_eq _ _ _ _ P), T, O. reflexivity. }
      rewrite E2. apply (LV (wset (wset s t (WCheck g tm false)) t WLeave) (nth_upd_eq _ _ _ _ (nth_upd_eq _ _ _ _ P)) []). intros e [].
    + assert (E1 : wstep s (WStep t) = wset s t WLeave) by (cbn [wstep]; rewrite P, T, O; reflexivity). rewrite E1.
      apply (LV (wset s t WLeave) (nth_upd_eq _ _ _ _ P) [WStep t]). intros e [<-|[]]; reflexivity.
    + apply (LV s P [WStep t; WStep t]). intros e [<-|[<-|[]]]; reflexivity.
Qed.

(** A broadcast while no thread is about to reset the event: whatever the others
    do afterwards (further waits included, but no signals and no waits with a
    time limit), every thread that waited is out or gets out by its own next
    three steps. *)
Theorem C65_broadcast_partial : forall n es s es' t,
  wrun (winit n) es = s -> (forall u, nth_error (w_pcs s) u <> Some WReset) ->
  waits s t -> Forall quiet es' -> Forall (no_call t) es' ->
  ~ waits (wrun s (WBroadcast :: es' ++ own t)) t.
Proof.
  intros n es s es' t <- NR W F1 F2. set (s := wrun (winit n) es) in *. destruct (wrun_inv es _ (winit_inv n)) as [A B]. fold s in A, B.
  destruct W as (p & P & PP). cbn [wrun fold_left]. rewrite fold_left_app.
  assert (POS : 0 < w_waiters s) by (rewrite A; eapply count_pos; eauto).
  cbn [wstep]. destruct (w_waiters s >? 0) eqn:E; [|lia].
  match goal with |- context [fold_left wstep es' ?x] => set (s1 := x) end.
  assert (R1 : Released s1).
  { split; [|split; [|split]]; cbn.
    - rewrite A. apply count_ext. intros q I. apply In_nth_error in I. destruct I as [u I]. destruct q; try reflexivity; cbn; specialize (B u _ g I eq_refl); lia.
    - intros _. split; [reflexivity|exact NR].
    - intros u g tm X Y. specialize (B u _ g X eq_refl). lia.
    - intros u g tm l X Y. specialize (B u _ g X eq_refl). lia. }
  assert (O1 : old (w_generation s1) p).
  { right. cbn. destruct p; try discriminate PP; try reflexivity; cbn; specialize (B t _ g P eq_refl); lia. }
  destruct (old_run es' s1 t p F1 F2 R1 P O1) as (p2 & P2 & O2). destruct (released_run es' s1 F1 R1) as [R2 G2].
  eapply own_out; [|exact P2|].
  { intros FR. assert (POS2 : 0 < w_release (wrun s1 es')) by (destruct R2 as [-> _]; eapply count_pos; [exact P2|exact FR]). destruct R2 as (_ & B2 & _). destruct (B2 POS2). auto. }
  change (old (w_generation (wrun s1 es')) p2). rewrite G2. exact O2.
Qed.
Example C65_broadcast_example : let s := wrun (winit 3) [WCall 0 false; WCall 1 true; WStep 0; WSignal; WStep 0]%nat in
  (forall u, nth_error (w_pcs s) u <> Some WReset) /\ waits s 0 /\ waits s 1 /\
  ~ waits (wrun s (WBroadcast :: [WCall 2 false; WStep 1; WStep 1; WStep 1; WStep 2]%nat ++ own 0)) 0.
Proof.
  cbv zeta. split; [intros [|[|[|u]]]; cbn; try discriminate; destruct u; discriminate|]. split; [eexists; split; reflexivity|]. split; [eexists; split; reflexivity|].
  eapply (C65_broadcast_partial 3 [WCall 0 false; WCall 1 true; WStep 0; WSignal; WStep 0]%nat); [reflexivity| | | |].
  - intros [|[|[|u]]]; cbn; try discriminate; destruct u; discriminate.
  - eexists; split; reflexivity.
  - repeat constructor.
  - repeat constructor; discriminate.
Qed.

(** After a signal: somebody who waited is out, or all of them can get out. *)
Definition Sig (W : nat -> Prop) (s : wstate) : Prop :=
  (exists u p, W u /\ nth_error (w_pcs s) u = Some p /\ pending p = false) \/
  (w_release s = 1 /\ w_event s = true /\
   forall t p, nth_error (w_pcs s) t = Some p ->
     p <> WReset /\ (W t -> freed (w_generation s) p = true) /\
     (~ W t -> p = WIdle \/ p = WWait (w_generation s) false \/ p = WCheck (w_generation s) false false)).
Lemma sig_step (W : nat -> Prop) s e : (forall t, W t \/ ~ W t) -> quiet e -> (forall t, W t -> no_call t e) -> Sig W s ->
  Sig W (wstep s e) /\ w_generation (wstep s e) = w_generation s.
Proof.
  intros DW Q N S.
  assert (GE : w_generation (wstep s e) = w_generation s).
  { destruct e as [t tm| | |t|t]; cbn in Q; try contradiction; cbn [wstep]; destruct (nth_error (w_pcs s) t) as [[]|]; try reflexivity;
      repeat match goal with |- context [if ?b then _ else _] => destruct b end; reflexivity. }
  split; [|exact GE]. destruct S as [(u & p & Wu & P & O)|(R & EV & A)].
  { left. exists u.
    assert (exists p', nth_error (w_pcs (wstep s e)) u = Some p' /\ pending p' = false) as (p' & X & Y); [|eauto].
    assert (SAME : exists p', nth_error (w_pcs s) u = Some p' /\ pending p' = false) by eauto.
    assert (KEEP : forall v q, (v = u -> pending q = false) -> exists p', nth_error (upd (w_pcs s) v q) u = Some p' /\ pending p' = false).
    { intros v q H. destruct (Nat.eq_dec v u) as [->|NE]; [exists q; split; [eapply nth_upd_eq, P|auto]|]. exists p. rewrite nth_upd_ne by exact NE. auto. }
    specialize (N u Wu). destruct e as [t tm| | |t|t]; cbn in Q, N; try contradiction; cbn [wstep].
    - destruct (nth_error (w_pcs s) t) as [[]|] eqn:E; try exact SAME. cbn. apply KEEP. intros ->. contradiction.
    - destruct (nth_error (w_pcs s) t) as [[|g [|]|g tm l| | ]|] eqn:E; try exact SAME. cbn. apply KEEP. intros ->. rewrite P in E. assert (p = WWait g true) by congruence. subst. discriminate.
    - destruct (nth_error (w_pcs s) t) as [[|g tm|g tm l| | ]|] eqn:E; try exact SAME.
      + destruct (w_event s); [|exact SAME]. cbn. apply KEEP. intros ->. rewrite P in E. assert (p = WWait g tm) by congruence. subst. discriminate.
      + destruct (_ || _); cbn; apply KEEP; intros ->; rewrite P in E; assert (p = WCheck g tm l) by congruence; subst; discriminate.
      + cbn. apply KEEP. intros _. destruct (_ =? _); reflexivity.
      + cbn. apply KEEP. reflexivity. }
  assert (SAME : Sig W s) by (right; auto).
  assert (SET : forall t q, q <> WReset -> (W t -> freed (w_generation s) q = true) ->
    (~ W t -> q = WIdle \/ q = WWait (w_generation s) false \/ q = WCheck (w_generation s) false false) ->
    forall w, Sig W {| w_waiters := w; w_release := w_release s; w_generation := w_generation s; w_event := w_event s; w_pcs := upd (w_pcs s) t q |}).
  { intros t q H1 H2 H3 w. right. cbn. split; [exact R|]. split; [exact EV|]. intros u p X. apply nth_upd_any in X as [(-> & ->)|X]; [auto|]. exact (A u p X). }
  destruct e as [t tm| | |t|t]; cbn in Q; try contradiction; cbn [wstep].
  - subst tm. destruct (nth_error (w_pcs s) t) as [[]|] eqn:E; try exact SAME. apply SET; [discriminate| |auto]. intros Wt. exfalso. exact (N t Wt eq_refl).
  - destruct (nth_error (w_pcs s) t) as [[|g [|]|g tm l| | ]|] eqn:E; try exact SAME. destruct (A t _ E) as (_ & A2 & A3). apply SET; [discriminate|exact A2|].
    intros NW. destruct (A3 NW) as [X|[X|X]]; discriminate.
  - destruct (nth_error (w_pcs s) t) as [[|g tm|g tm l| | ]|] eqn:E; try exact SAME.
    + rewrite EV. destruct (A t _ E) as (_ & A2 & A3). apply SET; [discriminate|exact A2|].
      intros NW. destruct (A3 NW) as [X|[X|X]]; try discriminate. assert (g = w_generation s /\ tm = false) as (-> & ->) by (split; congruence). auto.
    + destruct (A t _ E) as (_ & A2 & A3). destruct (_ || _) eqn:T.
      * apply SET; [discriminate|reflexivity|]. intros NW. destruct (A3 NW) as [X|[X|X]]; try discriminate.
        assert (g = w_generation s /\ l = false) as (-> & ->) by (split; congruence). rewrite Z.eqb_refl, andb_false_r in T. discriminate.
      * apply SET; [discriminate|exact A2|]. intros NW. destruct (A3 NW) as [X|[X|X]]; try discriminate.
        assert (g = w_generation s /\ tm = false) as (-> & ->) by (split; congruence). auto.
    + destruct (A t _ E) as (_ & A2 & A3). left. exists t, (if w_release s - 1 =? 0 then WReset else WIdle).
      split; [destruct (DW t) as [X|X]; [exact X|destruct (A3 X) as [Y|[Y|Y]]; discriminate]|]. split; [cbn; eapply nth_upd_eq, E|destruct (_ =? _); reflexivity].
    + destruct (A t _ E) as [X _]. congruence.
Qed.
Lemma sig_run (W : nat -> Prop) es : (forall t, W t \/ ~ W t) -> forall s, Forall quiet es -> (forall t, W t -> Forall (no_call t) es) -> Sig W s -> Sig W (wrun s es).
Proof.
  intros DW. induction es as [|e es IH]; intros s F N S; [exact S|]. inversion F; subst.
  apply IH; [assumption| |apply sig_step; try assumption]; intros t Wt; specialize (N t Wt); inversion N; assumption.
Qed.
Lemma waits_dec s t : waits s t \/ ~ waits s t.
Proof.
  unfold waits. destruct (nth_error (w_pcs s) t) as [p|]; [|right; intros (q & Q & _); discriminate].
  destruct (pending p) eqn:E; [left; eauto|right]. intros (q & Q & X). congruence.
Qed.

(** A signal while no earlier one is under way (and no wait with a time limit is
    going on): whatever happens afterwards without another signal, a thread
    that waited is out, or any of them gets out by its own next three steps. *)
Theorem C65_signal_partial : forall n es s es' t,
  wrun (winit n) es = s -> w_release s = 0 -> (forall u p, nth_error (w_pcs s) u = Some p -> p <> WReset /\ p <> WLeave) ->
  waits s t -> Forall quiet es' -> (forall u, waits s u -> Forall (no_call u) es') ->
  (exists u, waits s u /\ ~ waits (wrun s (WSignal :: es')) u) \/
  forall u, waits s u -> ~ waits (wrun s (WSignal :: es' ++ own u)) u.
Proof.
  intros n es s es' t <- R0 NR W F N. set (s := wrun (winit n) es) in *. destruct (wrun_inv es _ (winit_inv n)) as [A B]. fold s in A, B.
  destruct W as (p & P & PP). assert (POS : 0 < w_waiters s) by (rewrite A; eapply count_pos; eauto).
  cbn [wrun fold_left]. cbn [wstep]. destruct (w_waiters s >? w_release s) eqn:E; [|lia].
  match goal with |- context [fold_left wstep es' ?x] => set (s1 := x) end.
  assert (S1 : Sig (waits s) s1).
  { right. cbn. rewrite R0. split; [reflexivity|]. split; [reflexivity|]. intros u q Hu. destruct (NR u q Hu) as [X Y]. split; [exact X|]. split.
    - intros (q' & Q1 & Q2). assert (q' = q) by congruence. subst q'. destruct q; try discriminate; try congruence; cbn; specialize (B u _ g Hu eq_refl); lia.
    - intros NW. destruct q; try congruence; auto; exfalso; apply NW; eexists; split; try exact Hu; reflexivity. }
  pose proof (sig_run (waits s) es' (waits_dec s) s1 F N S1) as [(u & q & Wu & Q & O)|(R & EV & K)].
  - left. exists u. split; [exact Wu|]. intros (q' & Q1 & Q2). unfold wrun in Q. congruence.
  - right. intros u Wu. rewrite fold_left_app.
    assert (LEN : exists q, nth_error (w_pcs (wrun s1 es')) u = Some q).
    { destruct (nth_error (w_pcs (wrun s1 es')) u) as [q|] eqn:Q; [eauto|]. exfalso. apply nth_error_None in Q.
      assert (LL : forall l x, length (w_pcs (wrun x l)) = length (w_pcs x)).
      { induction l as [|e l IH]; intros x; [reflexivity|]. cbn [wrun fold_left]. change (fold_left wstep l (wstep x e)) with (wrun (wstep x e) l). rewrite IH.
        destruct e as [v tm| | |v|v]; cbn [wstep]; try destruct (nth_error (w_pcs x) v) as [[]|]; repeat match goal with |- context [if ?b then _ else _] => destruct b end; cbn; try apply upd_length; reflexivity. }
      rewrite LL in Q. destruct Wu as (q & Q1 & _). apply nth_error_None in Q. cbn in Q. congruence. }
    destruct LEN as (q & Q). destruct (K u q Q) as (_ & K2 & _). apply (own_out (wrun s1 es') u q); [|exact Q|right; exact (K2 Wu)].
    intros _. split; [lia|exact EV].
Qed.
Example C65_signal_example : let s := wrun (winit 3) [WCall 0 false; WCall 1 false]%nat in
  w_release s = 0 /\ (forall u p, nth_error (w_pcs s) u = Some p -> p <> WReset /\ p <> WLeave) /\ waits s 0.
Proof.
  cbv zeta. split; [reflexivity|]. split; [|eexists; split; reflexivity].
  intros [|[|[|u]]] p H; cbn in H; try (assert (p = WWait 0 false \/ p = WIdle) by (clear - H; intuition congruence)); try (destruct u; discriminate); intuition congruence.
Qed.

(** A signal may be lost for good: (1) one signal lets two threads out, (2) a
    wait runs out of time, (3) a signal arrives between the last release and the
    resetting of the event.  In each case a later signal to the only waiting
    thread leaves it waiting, however many steps it makes. *)
Theorem C65_lost_signal_refuted :
  (exists es, let s := wrun (winit 2) es in ~ waits s 0 /\ ~ waits s 1 /\ w_release s = -1 /\
     count (fun p => match p with WReset => true | _ => false end) (w_pcs s) = 0 /\
     forall k, waits (wrun s (WCall 0 false :: WSignal :: repeat (WStep 0) k)) 0) /\
  (exists es, let s := wrun (winit 2) es in ~ waits s 0 /\ ~ waits s 1 /\ w_release s = -1 /\
     forall k, waits (wrun s (WCall 0 false :: WSignal :: repeat (WStep 0) k)) 0) /\
  (exists es, let s := wrun (winit 2) es in ~ waits s 0 /\ ~ waits s 1 /\ w_release s = 0 /\
     forall k, waits (wrun s (WCall 0 false :: WSignal :: WStep 1 :: repeat (WStep 0) k)) 0).
Proof.
  assert (STAY : forall k s, nth_error (w_pcs s) 0 = Some (WWait (w_generation s - 1) false) \/ nth_error (w_pcs s) 0 = Some (WCheck (w_generation s - 1) false false) ->
     w_release s <= 0 \/ (w_event s = false /\ nth_error (w_pcs s) 0 = Some (WWait (w_generation s - 1) false)) -> waits (wrun s (repeat (WStep 0) k)) 0).
  { induction k as [|k IH]; intros s H R.
    - destruct H as [H|H]; eexists; (split; [exact H|reflexivity]).
    - cbn [repeat wrun fold_left]. apply IH; cbn [wstep]; destruct H as [H|H]; rewrite H.
      + destruct (w_event s); [|auto]. right. cbn [wset w_pcs w_generation]. eapply nth_upd_eq, H.
      + destruct R as [R|[_ R]]; [|congruence]. destruct (w_release s >? 0) eqn:T; [lia|]. left. cbn [wset w_pcs w_generation]. eapply nth_upd_eq, H.
      + destruct (w_event s) eqn:EV; [|auto]. destruct R as [R|[R _]]; [|discriminate]. left. exact R.
      + destruct R as [R|[_ R]]; [|congruence]. left. destruct (w_release s >? 0) eqn:T; [lia|]. exact R. }
  assert (NW : forall s t, match nth_error (w_pcs s) t with Some p => pending p = false | None => True end -> ~ waits s t).
  { intros s t H (p & P & Q). rewrite P in H. congruence. }
  split; [|split].
  - exists [WCall 0 false; WCall 1 false; WSignal; WStep 0; WStep 0; WStep 1; WStep 1; WStep 0; WStep 0; WStep 1]%nat. cbv zeta.
    split; [apply NW; vm_compute; reflexivity|]. split; [apply NW; vm_compute; reflexivity|]. split; [reflexivity|]. split; [reflexivity|].
    intros k. change (WCall 0 false :: WSignal :: repeat (WStep 0) k)%nat with ([WCall 0 false; WSignal] ++ repeat (WStep 0) k)%nat. unfold wrun. rewrite fold_left_app. apply STAY; [left; vm_compute; reflexivity|left; vm_compute; discriminate].
  - exists [WCall 1 true; WExpire 1; WStep 1; WStep 1]%nat. cbv zeta.
    split; [apply NW; vm_compute; reflexivity|]. split; [apply NW; vm_compute; reflexivity|]. split; [reflexivity|].
    intros k. change (WCall 0 false :: WSignal :: repeat (WStep 0) k)%nat with ([WCall 0 false; WSignal] ++ repeat (WStep 0) k)%nat. unfold wrun. rewrite fold_left_app. apply STAY; [left; vm_compute; reflexivity|left; vm_compute; discriminate].
  - exists [WCall 1 false; WSignal; WStep 1; WStep 1; WStep 1]%nat. cbv zeta.
    split; [apply NW; vm_compute; reflexivity|]. split; [apply NW; vm_compute; reflexivity|]. split; [reflexivity|].
    intros k. change (WCall 0 false :: WSignal :: WStep 1 :: repeat (WStep 0) k)%nat with ([WCall 0 false; WSignal; WStep 1] ++ repeat (WStep 0) k)%nat. unfold wrun. rewrite fold_left_app. apply STAY; [left; vm_compute; reflexivity|right; split; vm_compute; reflexivity].
Qed.

Print Assumptions C65_not_before.
Print Assumptions C65_broadcast_partial.
Print Assumptions C65_signal_partial.
Print Assumptions C65_lost_signal_refuted.
