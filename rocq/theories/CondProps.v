(** C49: waiting on a condition. *)
From Verif Require Import Base RefModel RefProofs LatchModel LatchProofs CondModel.

(** ** Invariants *)
Definition CInv (s : cstate) : Prop :=
  LInv (clatch s) /\ length (cpcs s) = length (lpcs (clatch s)) /\ length (cdelay s) = length (cpcs s) /\
  (forall t p, nth_error (cpcs s) t = Some p -> p <> CNone ->
     nth_error (lpcs (clatch s)) t = Some LIdle /\ ~ inside (clatch s) t).

Lemma cinit_inv nt now : CInv (cinit nt now).
Proof.
  split; [apply linit_inv|]. cbn. rewrite !repeat_length. split; [reflexivity|]. split; [reflexivity|].
  intros t p H. apply nth_error_In, repeat_spec in H. congruence.
Qed.

(** A step of the latch by one thread leaves what the others see of themselves. *)
Lemma lstep_other debug s e s' u : lstep debug s e = Ok s' -> u <> thread_of e ->
  nth_error (lpcs s') u = nth_error (lpcs s) u /\ (inside s' u <-> inside s u).
Proof.
  intros H N. unfold inside. destruct e as [t|t|t|t|t]; cbn [lstep thread_of] in *; destruct (nth_error (lpcs s) t) as [q|]; try (injection H as <-; tauto).
  all: destruct q; try (injection H as <-; tauto).
  all: unfold mlock in H; try destruct (lowner s) as [w|]; try (injection H as <-; cbn; rewrite ?nth_upd_ne by auto; tauto).
  all: try (destruct (Nat.eqb w t); [|injection H as <-; tauto]).
  all: try destruct debug; try discriminate H; injection H as <-; cbn; rewrite ?nth_upd_ne by auto; tauto.
Qed.

Lemma lstep_len debug s e s' : lstep debug s e = Ok s' -> length (lpcs s') = length (lpcs s).
Proof.
  intros H. destruct e as [t|t|t|t|t]; cbn [lstep] in *; destruct (nth_error (lpcs s) t) as [q|]; try (injection H as <-; reflexivity).
  all: destruct q; try (injection H as <-; reflexivity).
  all: unfold mlock in H; try destruct (lowner s) as [w|]; try (injection H as <-; cbn; rewrite ?upd_length; reflexivity).
  all: try (destruct (Nat.eqb w t); [|injection H as <-; reflexivity]).
  all: try destruct debug; try discriminate H; injection H as <-; cbn; rewrite ?upd_length; reflexivity.
Qed.

(** ** Waking *)
Lemma wake_none p : wake p = CNone <-> p = CNone.
Proof. destruct p; cbn; split; congruence. Qed.
Lemma nth_upd_any {A} (l : list A) i x j : nth_error (upd l i x) j = if (j =? i)%nat then (match nth_error l i with Some _ => Some x | None => None end) else nth_error l j.
Proof.
  destruct (Nat.eqb_spec j i) as [->|N]; [|apply nth_upd_ne; congruence].
  destruct (nth_error l i) eqn:E; [eapply nth_upd_eq; exact E|]. apply nth_error_None. rewrite upd_length. apply nth_error_None, E.
Qed.
Lemma wake_all_nth ws : forall l t, nth_error (wake_all l ws) t =
  option_map (fun p => if existsb (Nat.eqb t) ws then wake p else p) (nth_error l t).
Proof.
  induction ws as [|w ws IH]; intros l t; cbn [wake_all existsb].
  - destruct (nth_error l t); reflexivity.
  - rewrite IH. destruct (nth_error l w) as [p|] eqn:E.
    + rewrite nth_upd_any. destruct (Nat.eqb_spec t w) as [->|N]; [|reflexivity]. rewrite E. cbn [option_map orb].
      destruct (existsb (Nat.eqb w) ws); [|reflexivity]. destruct p; reflexivity.
    + destruct (Nat.eqb_spec t w) as [->|N]; [rewrite E; reflexivity|reflexivity].
Qed.
Lemma wake_all_len ws : forall l, length (wake_all l ws) = length l.
Proof. induction ws as [|w ws IH]; intros l; [reflexivity|]. cbn [wake_all]. rewrite IH. destruct (nth_error l w); [apply upd_length|reflexivity]. Qed.
Lemma first_blocked_some l : forall t, blocked_in l t = true -> exists w, first_blocked l = Some w /\ blocked_in l w = true.
Proof.
  induction l as [|p l IH]; intros t H; [destruct t; discriminate|]. cbn [first_blocked]. destruct (blocked p) eqn:B; [exists 0%nat; auto|].
  destruct t as [|t]; [cbn in H; congruence|]. destruct (IH t H) as (w & E & W). rewrite E. exists (S w). auto.
Qed.

(** What the latch becomes when its owner waits, and when a waiter returns. *)
Lemma release_inv s t : LInv s -> lowner s = Some t -> nth_error (lpcs s) t = Some LIdle -> LInv (lins (lset s None t LIdle) t false).
Proof.
  intros I O P. unfold lins, lset; cbn. eapply LInv_intro; try eassumption.
  - apply I.
  - intros u N. split; congruence.
  - split; [discriminate|]. intros [X|X]; discriminate.
  - discriminate.
Qed.
Lemma acquire_inv s t : LInv s -> lowner s = None -> nth_error (lpcs s) t = Some LIdle -> LInv (lins (lset s (Some t) t LIdle) t true).
Proof.
  intros I O P. unfold lins, lset; cbn. eapply LInv_intro; try eassumption; auto.
  - apply I.
  - intros u N. rewrite O. split; congruence.
  - tauto.
Qed.

Lemma ready_inv s t : ready s t = true -> nth_error (lpcs (clatch s)) t = Some LIdle /\ nth_error (cpcs s) t = Some CNone.
Proof.
  unfold ready. destruct (nth_error (lpcs (clatch s)) t) as [[]|]; try discriminate. destruct (nth_error (cpcs s) t) as [[]|]; try discriminate. auto.
Qed.

Lemma block_inv s t d : CInv s -> ready s t = true -> CInv (block s t d).
Proof.
  intros (L & C1 & C2 & C3) R. destruct (ready_inv s t R) as [P Q]. unfold block. destruct (lowner (clatch s)) as [u|] eqn:O; [|split; auto].
  destruct (Nat.eqb_spec u t) as [->|N]; [|split; auto].
  destruct (flag_len _ _ _ L P) as (F1 & F2 & F3).
  split; [exact (release_inv _ _ L O P)|]. cbn. rewrite !upd_length. split; [exact C1|]. split; [exact C2|].
  intros v p H NP. unfold inside. cbn. rewrite !nth_upd_any in *. destruct (Nat.eqb_spec v t) as [->|N].
  - rewrite P. split; [reflexivity|]. destruct (nth_error (linside (clatch s)) t); congruence.
  - apply (C3 v p H NP).
Qed.

Lemma cstep_inv debug s e s' : CInv s -> cstep debug s e = Ok s' -> CInv s'.
Proof.
  intros I H. assert (I0 := I). destruct I0 as (L & C1 & C2 & C3). destruct e as [le|t latch|t ms|t ws|t|t|t|t|ms]; cbn [cstep] in H.
  - destruct (nth_error (cpcs s) (thread_of le)) as [[]|] eqn:P; try (injection H as <-; exact I).
    apply obind_ok in H as (l & E & H). injection H as <-. split; [exact (lstep_inv _ _ _ _ L E)|]. cbn.
    rewrite (lstep_len _ _ _ _ E). split; [exact C1|]. split; [exact C2|]. intros t p Hp NP.
    destruct (Nat.eq_dec t (thread_of le)) as [->|N]; [congruence|]. destruct (lstep_other _ _ _ _ t E N) as [A B]. rewrite A, B. exact (C3 t p Hp NP).
  - destruct (ready s t) eqn:R; [|injection H as <-; exact I]. destruct latch; [|discriminate]. injection H as <-. apply block_inv; assumption.
  - destruct (ready s t) eqn:R; [|injection H as <-; exact I]. injection H as <-. apply block_inv; [|exact R].
    split; [exact L|]. split; [exact C1|]. split; [|exact C3]. unfold set_delay. cbn [cdelay cpcs]. rewrite upd_length. exact C2.
  - destruct (ready s t) eqn:R; [|injection H as <-; exact I]. injection H as <-. split; [exact L|]. cbn. rewrite wake_all_len. split; [exact C1|]. split; [exact C2|].
    intros u p Hp NP. rewrite wake_all_nth in Hp. destruct (nth_error (cpcs s) u) as [q|] eqn:Q; [|discriminate]. cbn in Hp. apply (C3 u q Q).
    intros ->. apply NP. match type of Hp with Some (if ?b then _ else _) = _ => destruct b end; cbn in Hp; congruence.
  - destruct (ready s t) eqn:R; [|injection H as <-; exact I]. injection H as <-. split; [exact L|]. cbn. rewrite map_length. split; [exact C1|]. split; [exact C2|].
    intros u p Hp NP. rewrite nth_error_map in Hp. destruct (nth_error (cpcs s) u) as [q|] eqn:Q; [|discriminate]. cbn in Hp. apply (C3 u q Q).
    intros ->. apply NP. cbn in Hp. congruence.
  - destruct (nth_error (cpcs s) t) as [[|d|x]|] eqn:P; injection H as <-; try exact I. split; [exact L|]. cbn. rewrite !upd_length. split; [exact C1|]. split; [exact C2|].
    intros u p Hp NP. rewrite nth_upd_any in Hp. destruct (Nat.eqb_spec u t) as [->|N]; [apply (C3 t _ P); discriminate|exact (C3 u p Hp NP)].
  - destruct (nth_error (cpcs s) t) as [[|[d|]|x]|] eqn:P; try (injection H as <-; exact I).
    destruct (d <=? cclock s); injection H as <-; [|exact I]. split; [exact L|]. cbn. rewrite !upd_length. split; [exact C1|]. split; [exact C2|].
    intros u p Hp NP. rewrite nth_upd_any in Hp. destruct (Nat.eqb_spec u t) as [->|N]; [apply (C3 t _ P); discriminate|exact (C3 u p Hp NP)].
  - destruct (nth_error (cpcs s) t) as [[|d|x]|] eqn:P; try (injection H as <-; exact I).
    destruct (lowner (clatch s)) as [w|] eqn:O; injection H as <-; [exact I|].
    destruct (C3 t _ P ltac:(discriminate)) as [PI NI]. pose proof (acquire_inv _ t L O PI) as AL.
    assert (G : CInv (set_pc (set_latch s (lins (lset (clatch s) (Some t) t LIdle) t true)) t CNone)).
    { split; [exact AL|]. cbn. rewrite !upd_length. split; [exact C1|]. split; [exact C2|]. intros u p Hp NP. rewrite nth_upd_any in Hp.
      destruct (Nat.eqb_spec u t) as [->|N]; [rewrite P in Hp; congruence|]. unfold inside. cbn. rewrite !nth_upd_ne by auto. exact (C3 u p Hp NP). }
    destruct x; [|exact G]. destruct G as (G1 & G2 & G3 & G4). split; [exact G1|]. split; [exact G2|]. split; [|exact G4]. cbn [set_delay cdelay cpcs] in *. rewrite upd_length. exact G3.
  - injection H as <-. exact I.
Qed.
Lemma crun_inv debug es : forall s s', CInv s -> crun debug s es = Ok s' -> CInv s'.
Proof.
  induction es as [|e es IH]; intros s s' I H; [injection H as <-; exact I|]. cbn [crun] in H. apply obind_ok in H as (s1 & E & H).
  eapply IH; [eapply cstep_inv; eassumption|exact H].
Qed.

(** ** C49 *)

(** A thread is waiting: blocked, or woken and not yet back. *)
Definition waiting (s : cstate) (t : nat) : Prop := exists p, nth_error (cpcs s) t = Some p /\ p <> CNone.

(** Any number of threads, any schedule, debug and release builds: at most one
    thread is inside the latch, and a thread that waits is not; when its wait
    returns, it is inside again, and nobody else is. *)
Theorem C49_exclusive : forall debug nt now es s, crun debug (cinit nt now) es = Ok s ->
  (forall t u, inside (clatch s) t -> inside (clatch s) u -> t = u) /\
  (forall t, waiting s t -> ~ inside (clatch s) t) /\
  (forall t s', waiting s t -> cstep debug s (CReturn t) = Ok s' -> ~ waiting s' t -> inside (clatch s') t).
Proof.
  intros debug nt now es s H. pose proof (crun_inv _ _ _ _ (cinit_inv nt now) H) as I. destruct I as (L & C1 & C2 & C3). split; [|split].
  - intros t u. apply inside_unique, L.
  - intros t (p & P & NP). exact (proj2 (C3 t p P NP)).
  - intros t s' (p & P & NP) E NW. cbn [cstep] in E. rewrite P in E. destruct (C3 t p P NP) as [PI _].
    destruct (flag_len _ _ _ L PI) as (F1 & _).
    destruct p as [|d|x]; [congruence|exfalso; apply NW; injection E as <-; exists (CBlocked d); split; [exact P|discriminate]|].
    destruct (lowner (clatch s)) as [w|]; [exfalso; apply NW; injection E as <-; exists (CWoken x); split; [exact P|discriminate]|].
    injection E as <-. unfold inside. destruct x; cbn; apply nth_upd_lt; exact F1.
Qed.

(** Waiting gives up the latch, and blocks, in one step: no other thread gets
    in between.  So whoever enters the latch after that finds the thread
    blocked, and its broadcast wakes it. *)
Theorem C49_wait_blocks : forall debug nt now es s t, crun debug (cinit nt now) es = Ok s ->
  inside (clatch s) t -> nth_error (lpcs (clatch s)) t = Some LIdle ->
  exists s', cstep debug s (CWait t true) = Ok s' /\ nth_error (cpcs s') t = Some (CBlocked None) /\
    lowner (clatch s') = None /\ forall u, ~ inside (clatch s') u.
Proof.
  intros debug nt now es s t H IN P. pose proof (crun_inv _ _ _ _ (cinit_inv nt now) H) as I. pose proof I as (L & C1 & C2 & C3).
  destruct (flag_len _ _ _ L P) as (F1 & _ & F3).
  assert (Q : nth_error (cpcs s) t = Some CNone).
  { destruct (nth_error (cpcs s) t) as [p|] eqn:E; [|apply nth_error_None in E; lia]. destruct p; [reflexivity| |]; exfalso; eapply (C3 t _ E); try discriminate; exact IN. }
  assert (R : ready s t = true) by (unfold ready; rewrite P, Q; reflexivity).
  destruct (proj1 (proj2 (proj2 L)) t IN) as [O _].
  cbn [cstep]. rewrite R. eexists. split; [reflexivity|]. pose proof (block_inv s t None I R) as BI. unfold block in *. rewrite O, Nat.eqb_refl in *.
  split; [cbn; apply nth_upd_lt; lia|]. split; [reflexivity|]. intros u IU. destruct BI as ((_ & _ & B & _) & _). destruct (B u IU) as [X _]. discriminate X.
Qed.

(** A broadcast wakes every blocked thread, and a signal at least one; nobody
    is blocked or let in by them. *)
Theorem C49_broadcast : forall debug s t s', ready s t = true -> cstep debug s (CBroadcast t) = Ok s' ->
  clatch s' = clatch s /\ forall u, (waiting s u <-> waiting s' u) /\ blocked_in (cpcs s') u = false.
Proof.
  intros debug s t s' R H. cbn [cstep] in H. rewrite R in H. injection H as <-. split; [reflexivity|]. intros u. unfold waiting, blocked_in. cbn. rewrite nth_error_map.
  destruct (nth_error (cpcs s) u) as [p|]; cbn; [|split; [split; intros (q & X & _); discriminate|reflexivity]].
  split; [|destruct p; reflexivity]. split; intros (q & X & N); eexists; (split; [reflexivity|]); intros Y.
  - apply (proj1 (wake_none _)) in Y. congruence.
  - rewrite Y in X. cbn in X. congruence.
Qed.
Theorem C49_signal : forall debug s t ws s', ready s t = true -> cstep debug s (CSignal t ws) = Ok s' ->
  clatch s' = clatch s /\ (forall u, waiting s u <-> waiting s' u) /\
  (forall u, blocked_in (cpcs s') u = true -> blocked_in (cpcs s) u = true) /\
  ((exists u, blocked_in (cpcs s) u = true) -> exists w, blocked_in (cpcs s) w = true /\ blocked_in (cpcs s') w = false).
Proof.
  intros debug s t ws s' R H. cbn [cstep] in H. rewrite R in H. injection H as <-. split; [reflexivity|]. cbn.
  set (W := if existsb (blocked_in (cpcs s)) ws then ws else match first_blocked (cpcs s) with Some w => [w] | None => [] end).
  unfold waiting; cbn. split; [|split].
  - intros u. rewrite wake_all_nth. destruct (nth_error (cpcs s) u) as [p|]; cbn; [|split; intros (q & X & _); discriminate].
    destruct (existsb (Nat.eqb u) W); (split; intros (q & X & N); eexists; (split; [reflexivity|]); try congruence).
    + intros Y. apply (proj1 (wake_none _)) in Y. congruence.
    + intros ->. cbn in X. congruence.
  - intros u. unfold blocked_in. rewrite wake_all_nth. destruct (nth_error (cpcs s) u) as [p|]; cbn; [|congruence].
    destruct (existsb (Nat.eqb u) W); destruct p; cbn; congruence.
  - intros (u & B). assert (X : exists w, In w W /\ blocked_in (cpcs s) w = true).
    { unfold W. destruct (existsb (blocked_in (cpcs s)) ws) eqn:E.
      - apply existsb_exists in E. exact E.
      - destruct (first_blocked_some _ u B) as (w & F & BW). rewrite F. exists w. cbn. auto. }
    destruct X as (w & IW & BW). exists w. split; [exact BW|]. unfold blocked_in. rewrite wake_all_nth.
    assert (EW : existsb (Nat.eqb w) W = true) by (apply existsb_exists; exists w; split; [exact IW|apply Nat.eqb_refl]). rewrite EW.
    destruct (nth_error (cpcs s) w) as [p|]; [|reflexivity]. cbn. destruct p; reflexivity.
Qed.

(** A thread that was woken stays so, whatever happens, until it returns. *)
Theorem C49_woken_stays : forall debug es s s' t x, nth_error (cpcs s) t = Some (CWoken x) -> crun debug s es = Ok s' ->
  ~ In (CReturn t) es -> nth_error (cpcs s') t = Some (CWoken x).
Proof.
  intros debug es. induction es as [|e es IH]; intros s s' t x W H N; [injection H as <-; exact W|].
  cbn [crun] in H. apply obind_ok in H as (s1 & E & H). apply (IH s1 s' t x); [|exact H|intros X; apply N; right; exact X].
  assert (NE : e <> CReturn t) by (intros ->; apply N; left; reflexivity). clear IH H N es.
  assert (U : forall u p, (forall y, nth_error (cpcs s) u <> Some (CWoken y)) -> nth_error (upd (cpcs s) u p) t = Some (CWoken x)).
  { intros u p Hu. rewrite nth_upd_ne; [exact W|]. intros ->. exact (Hu x W). }
  assert (B : forall u d, ready s u = true -> forall s0, cpcs s0 = cpcs s -> nth_error (cpcs (block s0 u d)) t = Some (CWoken x)).
  { intros u d R s0 E0. destruct (ready_inv s u R) as [_ Q]. unfold block. destruct (lowner (clatch s0)) as [v|]; [|rewrite E0; exact W].
    destruct (Nat.eqb v u); [|rewrite E0; exact W]. cbn. rewrite E0. apply U. intros y. congruence. }
  destruct e as [le|u latch|u ms|u ws|u|u|u|u|ms]; cbn [cstep] in E.
  - destruct (nth_error (cpcs s) (thread_of le)) as [[]|]; try (injection E as <-; exact W). apply obind_ok in E as (l & _ & E). injection E as <-. exact W.
  - destruct (ready s u) eqn:R; [|injection E as <-; exact W]. destruct latch; [|discriminate]. injection E as <-. apply B; auto.
  - destruct (ready s u) eqn:R; [|injection E as <-; exact W]. injection E as <-. apply B; auto.
  - destruct (ready s u) eqn:R; injection E as <-; [|exact W]. cbn. rewrite wake_all_nth, W. cbn. match goal with |- Some (if ?b then _ else _) = _ => destruct b; reflexivity end.
  - destruct (ready s u) eqn:R; injection E as <-; [|exact W]. cbn. rewrite nth_error_map, W. reflexivity.
  - destruct (nth_error (cpcs s) u) as [[]|] eqn:P; injection E as <-; try exact W. apply U. intros y. congruence.
  - destruct (nth_error (cpcs s) u) as [[|[d|]|]|] eqn:P; try (injection E as <-; exact W). destruct (d <=? cclock s); injection E as <-; [|exact W]. apply U. intros y. congruence.
  - assert (N : t <> u) by congruence. destruct (nth_error (cpcs s) u) as [[|d|y]|] eqn:P; try (injection E as <-; exact W).
    destruct (lowner (clatch s)); injection E as <-; [exact W|]. destruct y; cbn; rewrite nth_upd_ne by auto; exact W.
  - injection E as <-. exact W.
Qed.
(** It sleeps until the condition is signalled: a thread that waits without a
    time limit is still blocked after any events of which none signals,
    broadcasts, or wakes it spuriously. *)
Definition wakes (t : nat) (e : cevent) : bool :=
  match e with CSignal _ _ | CBroadcast _ => true | CSpurious u => Nat.eqb u t | _ => false end.
Theorem C49_blocked_stays : forall debug es s s' t, nth_error (cpcs s) t = Some (CBlocked None) -> crun debug s es = Ok s' ->
  existsb (wakes t) es = false -> nth_error (cpcs s') t = Some (CBlocked None).
Proof.
  intros debug es. induction es as [|e es IH]; intros s s' t W H N; [injection H as <-; exact W|].
  cbn [crun] in H. apply obind_ok in H as (s1 & E & H). cbn [existsb] in N. apply Bool.orb_false_elim in N as [NE N].
  apply (IH s1 s' t); [|exact H|exact N]. clear IH H N es.
  assert (U : forall u p, nth_error (cpcs s) u <> Some (CBlocked None) -> nth_error (upd (cpcs s) u p) t = Some (CBlocked None)).
  { intros u p Hu. rewrite nth_upd_ne; [exact W|]. intros ->. exact (Hu W). }
  assert (B : forall u d, ready s u = true -> forall s0, cpcs s0 = cpcs s -> nth_error (cpcs (block s0 u d)) t = Some (CBlocked None)).
  { intros u d R s0 E0. destruct (ready_inv s u R) as [_ Q]. unfold block. destruct (lowner (clatch s0)) as [v|]; [|rewrite E0; exact W].
    destruct (Nat.eqb v u); [|rewrite E0; exact W]. cbn. rewrite E0. apply U. congruence. }
  destruct e as [le|u latch|u ms|u ws|u|u|u|u|ms]; cbn [cstep wakes] in *; try discriminate NE.
  - destruct (nth_error (cpcs s) (thread_of le)) as [[]|]; try (injection E as <-; exact W). apply obind_ok in E as (l & _ & E). injection E as <-. exact W.
  - destruct (ready s u) eqn:R; [|injection E as <-; exact W]. destruct latch; [|discriminate]. injection E as <-. apply B; auto.
  - destruct (ready s u) eqn:R; [|injection E as <-; exact W]. injection E as <-. apply B; auto.
  - apply Nat.eqb_neq in NE. destruct (nth_error (cpcs s) u) as [[]|] eqn:P; injection E as <-; try exact W. cbn. rewrite nth_upd_ne by auto. exact W.
  - destruct (nth_error (cpcs s) u) as [[|[d|]|]|] eqn:P; try (injection E as <-; exact W). destruct (d <=? cclock s); injection E as <-; [|exact W]. apply U. congruence.
  - destruct (nth_error (cpcs s) u) as [[|d|y]|] eqn:P; try (injection E as <-; exact W).
    destruct (lowner (clatch s)); injection E as <-; [exact W|]. destruct y; cbn; apply U; congruence.
  - injection E as <-. exact W.
Qed.

(** A thread that waits goes on waiting until it returns. *)
Lemma waiting_stays debug es : forall s s' t, waiting s t -> crun debug s es = Ok s' -> ~ In (CReturn t) es -> waiting s' t.
Proof.
  induction es as [|e es IH]; intros s s' t W H N; [injection H as <-; exact W|].
  cbn [crun] in H. apply obind_ok in H as (s1 & E & H). apply (IH s1 s' t); [|exact H|intros X; apply N; right; exact X].
  assert (NE : e <> CReturn t) by (intros ->; apply N; left; reflexivity). clear IH H N es. pose proof W as (p0 & W0 & NP0).
  assert (U : forall s1 u p, cpcs s1 = upd (cpcs s) u p -> u <> t -> waiting s1 t).
  { intros s2 u p E2 Hu. exists p0. rewrite E2, nth_upd_ne by auto. auto. }
  assert (Eq : forall s1, cpcs s1 = cpcs s -> waiting s1 t) by (intros s2 E2; exists p0; rewrite E2; auto).
  assert (RT : forall u, ready s u = true -> u <> t) by (intros u R ->; destruct (ready_inv s t R) as [_ Q]; congruence).
  assert (B : forall u d, ready s u = true -> forall s0, cpcs s0 = cpcs s -> waiting (block s0 u d) t).
  { intros u d R s0 E0. unfold block. destruct (lowner (clatch s0)) as [v|]; [|apply Eq, E0].
    destruct (Nat.eqb v u); [|apply Eq, E0]. eapply U; [cbn; rewrite E0; reflexivity|apply RT, R]. }
  destruct e as [le|u latch|u ms|u ws|u|u|u|u|ms]; cbn [cstep] in E.
  - destruct (nth_error (cpcs s) (thread_of le)) as [[]|]; try (injection E as <-; exact W). apply obind_ok in E as (l & _ & E). injection E as <-. exact W.
  - destruct (ready s u) eqn:R; [|injection E as <-; exact W]. destruct latch; [|discriminate]. injection E as <-. apply B; auto.
  - destruct (ready s u) eqn:R; [|injection E as <-; exact W]. injection E as <-. apply B; auto.
  - destruct (ready s u) eqn:R; [|injection E as <-; exact W]. destruct (C49_signal debug s u ws s1 R) as (_ & X & _); [cbn [cstep]; rewrite R; exact E|]. apply X, W.
  - destruct (ready s u) eqn:R; [|injection E as <-; exact W]. destruct (C49_broadcast debug s u s1 R) as (_ & X); [cbn [cstep]; rewrite R; exact E|]. apply X, W.
  - destruct (Nat.eq_dec u t) as [->|Nu].
    + destruct (nth_error (cpcs s) t) as [[]|] eqn:P; injection E as <-; try exact W. exists (CWoken false). split; [|discriminate]. cbn. eapply nth_upd_eq; exact P.
    + destruct (nth_error (cpcs s) u) as [[]|] eqn:P; injection E as <-; try exact W. eapply U; [reflexivity|exact Nu].
  - destruct (nth_error (cpcs s) u) as [[|[d|]|]|] eqn:P; try (injection E as <-; exact W). destruct (d <=? cclock s); injection E as <-; [|exact W].
    destruct (Nat.eq_dec u t) as [->|Nu]; [|eapply U; [reflexivity|exact Nu]]. exists (CWoken true). split; [|discriminate]. cbn. eapply nth_upd_eq; exact P.
  - assert (N : u <> t) by congruence. destruct (nth_error (cpcs s) u) as [[|d|y]|] eqn:P; try (injection E as <-; exact W).
    destruct (lowner (clatch s)); injection E as <-; [exact W|]. destruct y; (eapply U; [reflexivity|exact N]).
  - injection E as <-. exact W.
Qed.

Lemma crun_app debug a : forall s b, crun debug s (a ++ b) = (do s1 <- crun debug s a; crun debug s1 b).
Proof. induction a as [|e a IH]; intros s b; [reflexivity|]. cbn [crun app]. destruct (cstep debug s e); cbn [obind]; auto. Qed.

(** No wakeup is lost: a thread inside the latch that waits, and a broadcast by
    any thread at any time after that, before or after any other events: if the
    thread has not come back, it is awake and only has to get the latch. *)
Theorem C49_no_lost_wakeup : forall debug nt now es s t u es1 es2 s', crun debug (cinit nt now) es = Ok s ->
  inside (clatch s) t -> nth_error (lpcs (clatch s)) t = Some LIdle ->
  (forall s1, crun debug s (CWait t true :: es1) = Ok s1 -> ready s1 u = true) ->
  crun debug s (CWait t true :: es1 ++ CBroadcast u :: es2) = Ok s' -> ~ In (CReturn t) (es1 ++ es2) ->
  exists x, nth_error (cpcs s') t = Some (CWoken x).
Proof.
  intros debug nt now es s t u es1 es2 s' H IN P RU HR N.
  destruct (C49_wait_blocks _ _ _ _ _ _ H IN P) as (s0 & E0 & B0 & _).
  cbn [crun] in HR, RU. rewrite E0 in HR, RU. cbn [obind] in HR, RU. rewrite crun_app in HR. apply obind_ok in HR as (s1 & E1 & HR).
  assert (W1 : waiting s1 t). { apply (waiting_stays debug es1 s0); [exists (CBlocked None); split; [exact B0|discriminate]|exact E1|]. intros X; apply N, in_or_app; auto. }
  specialize (RU s1 E1). cbn [crun] in HR. apply obind_ok in HR as (s2 & E2 & HR).
  destruct (C49_broadcast debug s1 u s2 RU E2) as (_ & X). destruct (X t) as [X1 X2]. destruct (proj1 X1 W1) as (p & Hp & NP).
  unfold blocked_in in X2. rewrite Hp in X2. destruct p as [|d|x]; [congruence|discriminate X2|].
  exists x. apply (C49_woken_stays debug es2 s2 s' t x Hp HR). intros Y; apply N, in_or_app; auto.
Qed.

(** And it can return whenever the latch is free. *)
Theorem C49_woken_returns : forall debug nt now es s t x, crun debug (cinit nt now) es = Ok s ->
  nth_error (cpcs s) t = Some (CWoken x) -> lowner (clatch s) = None ->
  exists s', cstep debug s (CReturn t) = Ok s' /\ ~ waiting s' t /\ inside (clatch s') t.
Proof.
  intros debug nt now es s t x H W O. pose proof (crun_inv _ _ _ _ (cinit_inv nt now) H) as (L & C1 & C2 & C3).
  destruct (C3 t _ W ltac:(discriminate)) as [PI _]. destruct (flag_len _ _ _ L PI) as (F1 & _ & F3).
  cbn [cstep]. rewrite W, O. eexists. split; [reflexivity|]. split.
  - intros (p & P & NP). assert (P' : nth_error (upd (cpcs s) t CNone) t = Some p) by (destruct x; exact P). rewrite nth_upd_lt in P' by lia. congruence.
  - unfold inside. destruct x; cbn; apply nth_upd_lt; exact F1.
Qed.

(** Threads that enter from outside, and leave and wait from inside, never hit
    an assertion. *)
Definition cdisciplined (s : cstate) (e : cevent) : Prop :=
  match e with
  | CLatch le => disciplined (clatch s) le
  | CWait t latch => latch = true
  | _ => True
  end.
Fixpoint csched (debug : bool) (s : cstate) (es : list cevent) : Prop :=
  match es with
  | [] => True
  | e :: r => cdisciplined s e /\ match cstep debug s e with Ok s' => csched debug s' r | _ => True end
  end.
Lemma dinv_idle l o t b r : DInv l -> (nth_error (lpcs l) t = Some LIdle) ->
  DInv {| lowner := o; lpcs := upd (lpcs l) t LIdle; linside := upd (linside l) t b; lresult := r |}.
Proof.
  intros D P u q Hu. cbn in Hu. apply nth_upd_inv in Hu as [(-> & -> & _)|(N & Hu)]; [exact Logic.I|].
  specialize (D u q Hu). unfold inside in *. cbn. rewrite nth_upd_ne by auto. exact D.
Qed.
Theorem C49_no_abort : forall debug nt now es, csched debug (cinit nt now) es -> exists s, crun debug (cinit nt now) es = Ok s.
Proof.
  intros debug nt now es. assert (G : forall s, CInv s -> DInv (clatch s) -> csched debug s es -> exists s', crun debug s es = Ok s').
  2:{ apply G; [apply cinit_inv|apply linit_dinv]. }
  induction es as [|e es IH]; intros s I D S; [eexists; reflexivity|]. destruct S as [S1 S2].
  assert (X : exists s', cstep debug s e = Ok s' /\ DInv (clatch s')).
  { pose proof I as (L & C1 & C2 & C3). destruct e as [le|t latch|t ms|t ws|t|t|t|t|ms]; cbn [cstep cdisciplined] in *.
    - destruct (nth_error (cpcs s) (thread_of le)) as [[]|]; try (eexists; split; [reflexivity|exact D]).
      destruct (dstep_ok debug _ _ L D S1) as (l & E & D'). rewrite E. cbn [obind]. eexists. split; [reflexivity|exact D'].
    - subst latch. destruct (ready s t) eqn:R; eexists; (split; [reflexivity|]); [|exact D]. destruct (ready_inv s t R) as [P _].
      unfold block. destruct (lowner (clatch s)) as [u|]; [|exact D]. destruct (Nat.eqb u t); [|exact D]. unfold lins, lset; cbn. apply dinv_idle; assumption.
    - destruct (ready s t) eqn:R; eexists; (split; [reflexivity|]); [|exact D]. destruct (ready_inv s t R) as [P _].
      unfold block. cbn [set_delay clatch]. destruct (lowner (clatch s)) as [u|]; [|exact D]. destruct (Nat.eqb u t); [|exact D]. unfold lins, lset; cbn. apply dinv_idle; assumption.
    - destruct (ready s t); eexists; (split; [reflexivity|exact D]).
    - destruct (ready s t); eexists; (split; [reflexivity|exact D]).
    - destruct (nth_error (cpcs s) t) as [[]|]; eexists; (split; [reflexivity|exact D]).
    - destruct (nth_error (cpcs s) t) as [[|[d|]|]|]; try (eexists; split; [reflexivity|exact D]). destruct (d <=? cclock s); eexists; (split; [reflexivity|exact D]).
    - destruct (nth_error (cpcs s) t) as [[|d|x]|] eqn:P; try (eexists; split; [reflexivity|exact D]).
      destruct (lowner (clatch s)); eexists; (split; [reflexivity|]); [exact D|]. destruct (C3 t _ P ltac:(discriminate)) as [PI _].
      destruct x; unfold lins, lset; cbn; apply dinv_idle; assumption.
    - eexists; split; [reflexivity|exact D]. }
  destruct X as (s' & E & D'). cbn [crun]. rewrite E in *. cbn [obind]. apply IH; [eapply cstep_inv; eassumption|exact D'|exact S2].
Qed.

(** "wait(delay_ms)" does not wait so long: whatever the delay, as long as it is
    less than the time since 1970, the wait is over at once, without a signal
    and without any time passing, and reports that the time is up. *)
Theorem C49_timeout_refuted : forall debug nt now es s t ms, crun debug (cinit nt now) es = Ok s ->
  inside (clatch s) t -> nth_error (lpcs (clatch s)) t = Some LIdle -> 0 <= ms < 2^63 -> ms <= cclock s ->
  exists s', crun debug s [CTimed t ms; CTimeout t; CReturn t] = Ok s' /\ ~ waiting s' t /\ inside (clatch s') t /\
    cclock s' = cclock s /\ nth_error (cdelay s') t = Some 0.
Proof.
  intros debug nt now es s t ms H IN P M LE. pose proof (crun_inv _ _ _ _ (cinit_inv nt now) H) as (L & C1 & C2 & C3).
  destruct (flag_len _ _ _ L P) as (F1 & _ & F3).
  assert (Q : nth_error (cpcs s) t = Some CNone).
  { destruct (nth_error (cpcs s) t) as [p|] eqn:E; [|apply nth_error_None in E; lia]. destruct p; [reflexivity| |]; exfalso; eapply (C3 t _ E); try discriminate; exact IN. }
  assert (R : ready s t = true) by (unfold ready; rewrite P, Q; reflexivity).
  destruct (proj1 (proj2 (proj2 L)) t IN) as [O _].
  assert (D : ms mod 2^64 / 1000 * 1000 + ms mod 2^64 mod 1000 = ms).
  { rewrite (Z.mod_small ms) by lia. pose proof (Z.div_mod ms 1000 ltac:(lia)). lia. }
  cbn [crun]. cbn [cstep]. rewrite R. cbn [obind]. rewrite D. unfold block. cbn [set_delay clatch]. rewrite O, Nat.eqb_refl. cbn [set_pc cpcs set_latch set_delay].
  assert (N1 : forall l : list cpc, length l = length (cpcs s) -> forall p, nth_error (upd l t p) t = Some p) by (intros; apply nth_upd_lt; lia).
  rewrite N1 by reflexivity. cbn [cclock set_pc set_latch set_delay]. destruct (Z.leb_spec ms (cclock s)); [|lia]. cbn [obind set_pc cpcs set_latch set_delay clatch].
  rewrite N1 by apply upd_length. cbn [lins lset lowner obind]. eexists. split; [reflexivity|]. split; [|split; [|split]].
  - intros (p & X & NP). cbn [cpcs set_delay set_pc set_latch] in X. rewrite N1 in X by (rewrite !upd_length; reflexivity). congruence.
  - unfold inside. cbn. apply nth_upd_lt. rewrite upd_length. exact F1.
  - reflexivity.
  - cbn. apply nth_upd_lt. rewrite upd_length. lia.
Qed.

(** wait() without a latch, which the declaration allows (Latch* = 0), uses a
    null pointer. *)
Theorem C49_no_latch_refuted : forall debug nt now t, (t < nt)%nat -> crun debug (cinit nt now) [CWait t false] = UB.
Proof.
  intros debug nt now t H. assert (R : ready (cinit nt now) t = true).
  { assert (E : forall A (x : A), nth_error (repeat x nt) t = Some x).
    { intros A x. destruct (nth_error (repeat x nt) t) as [y|] eqn:E; [apply nth_error_In, repeat_spec in E; congruence|]. apply nth_error_None in E. rewrite repeat_length in E. lia. }
    unfold ready. cbn. rewrite !E. reflexivity. }
  cbn [crun cstep]. rewrite R. reflexivity.
Qed.

(** A case: thread 0 waits, thread 1 enters, broadcasts and leaves, thread 0 is back inside. *)
Example C49_ex : let es := [CLatch (LCallEnter 0); CLatch (LStep 0); CWait 0 true; CLatch (LCallEnter 1); CLatch (LStep 1);
    CBroadcast 1; CLatch (LCallLeave 1); CLatch (LStep 1); CLatch (LStep 1); CReturn 0]%nat in
  csched true (cinit 2 1700000000000) es /\
  exists s, crun true (cinit 2 1700000000000) es = Ok s /\ inside (clatch s) 0 /\ ~ inside (clatch s) 1 /\ ~ waiting s 0 /\
  exists s1, crun true (cinit 2 1700000000000) (firstn 5 es) = Ok s1 /\ ready s1 1 = true /\ inside (clatch s1) 1 /\
    blocked_in (cpcs s1) 0 = true /\ exists s2, crun true s1 [CBroadcast 1] = Ok s2 /\ nth_error (cpcs s2) 0 = Some (CWoken false).
Proof.
  split; [cbn; unfold inside; cbn; repeat split; try discriminate; intros X; discriminate X|].
  eexists. split; [vm_compute; reflexivity|]. split; [reflexivity|]. split; [discriminate|]. split; [intros (p & E & N); cbn in E; congruence|].
  eexists. split; [vm_compute; reflexivity|]. split; [reflexivity|]. split; [reflexivity|]. split; [reflexivity|].
  eexists. split; [vm_compute; reflexivity|]. reflexivity.
Qed.

Print Assumptions C49_exclusive.
Print Assumptions C49_wait_blocks.
Print Assumptions C49_broadcast.
Print Assumptions C49_signal.
Print Assumptions C49_woken_stays.
Print Assumptions C49_woken_returns.
Print Assumptions C49_blocked_stays.
Print Assumptions C49_no_lost_wakeup.
Print Assumptions C49_no_abort.
Print Assumptions C49_timeout_refuted.
Print Assumptions C49_no_latch_refuted.
