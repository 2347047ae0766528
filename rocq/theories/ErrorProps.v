(** C67: errors are values. *)
From Verif Require Import Base RefModel RefProofs RefProps ErrNumModel ErrorModel ErrorSpec.

(** ** What a variable is about to refer to *)
Definition pend (p : option pc) (x : nat) (slot : option (option nat)) : option (option nat) :=
  match p with
  | Some (AddChk d o) => if (d =? x)%nat then Some (Some o) else slot
  | Some (Swap d v) => if (d =? x)%nat then Some v else slot
  | _ => slot
  end.
Definition holds (bs : list ebody) (w : said) (q : option (option nat)) : Prop :=
  match q with
  | Some (Some o) => nth_error bs o = Some (mkebody (s_num w) (s_text w) (s_params w))
  | Some None => w = no_error
  | None => True
  end.
Definition EInv (s : estate) (v : env) : Prop :=
  Inv (es_ref s) /\ Own (es_ref s) /\ length (es_bodies s) = length (objs (es_ref s)) /\
  forall x u, nth_error (owner (es_ref s)) x = Some u ->
    holds (es_bodies s) (v x) (pend (nth_error (pcs (es_ref s)) u) x (nth_error (slots (es_ref s)) x)).

Lemma owns_nth s t x : owns s t x = true <-> nth_error (owner s) x = Some t.
Proof.
  unfold owns. destruct (nth_error (owner s) x) as [u|]; [|split; discriminate].
  rewrite Nat.eqb_eq. split; congruence.
Qed.
Lemma pend_idle x q : pend (Some Idle) x q = q.
Proof. reflexivity. Qed.

(** A thread begins something on [dst]: nothing else changes. *)
Lemma begin_ok bs (v : env) r t p dst w : (forall x u, nth_error (owner r) x = Some u -> holds bs (v x) (pend (nth_error (pcs r) u) x (nth_error (slots r) x))) ->
  nth_error (pcs r) t = Some Idle -> nth_error (owner r) dst = Some t ->
  pc_dst p = Some dst -> holds bs w (pend (Some p) dst (nth_error (slots r) dst)) ->
  forall x u, nth_error (owner r) x = Some u -> holds bs (put v dst w x) (pend (nth_error (upd (pcs r) t p) u) x (nth_error (slots r) x)).
Proof.
  intros H Ht Hd Hp Hw x u Hx. unfold put. destruct (Nat.eqb_spec x dst) as [->|N].
  - assert (u = t) by congruence. subst u. rewrite (nth_upd_eq _ _ _ _ Ht). exact Hw.
  - specialize (H x u Hx). destruct (Nat.eq_dec u t) as [->|U].
    + rewrite (nth_upd_eq _ _ _ _ Ht). rewrite Ht in H. cbn [pend] in H.
      destruct p; try discriminate Hp; cbn [pc_dst] in Hp; assert (dst0 = dst) by congruence; subst; cbn [pend];
        rewrite (proj2 (Nat.eqb_neq dst x)) by congruence; exact H.
    + rewrite nth_upd_ne by congruence. exact H.
Qed.

Lemma marked_ok n : ErrNum1 n = marked n.
Proof. unfold ErrNum1, marked. destruct (n =? 0); [reflexivity|]. rewrite <- Z.lor_assoc. reflexivity. Qed.

Lemma estep_ok s v e : EInv s v -> exists s', estep s e = Ok s' /\ EInv s' (effect s e v).
Proof.
  intros (I & O & L & H). destruct s as [r bs]. cbn [es_ref es_bodies] in *.
  destruct e as [t dst n d p|t dst src|t dst|t x t'|t]; cbn [estep effect canb es_ref es_bodies]; unfold canb; cbn [es_ref].
  - destruct (idle r t && owns r t dst) eqn:G; [|exists (mkest r bs); split; [reflexivity|split; [exact I|]; split; [exact O|]; split; [exact L|exact H]]].
    destruct (step_inv r (New t dst) I) as (r' & E & I'). rewrite E. cbn [obind]. eexists. split; [reflexivity|].
    pose proof (step_own r _ r' O E) as O'. cbn [step] in E. rewrite G in E. apply andb_prop in G as [G1 G2]. apply idle_true in G1. apply owns_nth in G2.
    assert (r' = set_pc (add_obj r {| o_count := s32 (0 + 1); o_dels := 0 |}) t (AddChk dst (length (objs r)))) by congruence. subst r'.
    split; [exact I'|]. split; [exact O'|]. cbn [es_ref es_bodies]. split; [cbn [set_pc add_obj objs]; rewrite !app_length; cbn [length]; lia|].
    cbn [set_pc add_obj objs owner pcs slots]. apply begin_ok; auto.
    + intros x u Hx. specialize (H x u Hx). destruct (pend _ _ _) as [[o|]|]; cbn [holds] in *; auto.
      rewrite nth_error_app1; [exact H|]. apply nth_error_Some. congruence.
    + cbn [pend]. rewrite Nat.eqb_refl. cbn [holds]. rewrite nth_error_app2 by lia. rewrite L, Nat.sub_diag. cbn [nth_error s_num s_text s_params]. rewrite marked_ok. reflexivity.
  - destruct (step_inv r (Copy t dst src) I) as (r' & E & I'). rewrite E. cbn [obind]. eexists. split; [reflexivity|].
    pose proof (step_own r _ r' O E) as O'. cbn [step] in E.
    replace (idle r t && owns r t dst && (idle r t && owns r t src)) with (idle r t && owns r t dst && owns r t src) by (destruct (idle r t), (owns r t dst), (owns r t src); reflexivity).
    destruct (idle r t && owns r t dst && owns r t src) eqn:G.
    2: { assert (r' = r) by congruence. subst r'. split; [exact I|]; split; [exact O|]; split; [exact L|exact H]. }
    apply andb_prop in G as [G G3]. apply andb_prop in G as [G1 G2]. pose proof (owns_lt r t src I G3) as LT.
    apply idle_true in G1. apply owns_nth in G2. apply owns_nth in G3.
    pose proof (H src t G3) as HS. rewrite G1, pend_idle in HS.
    destruct (nth_error (slots r) src) as [[o|]|] eqn:ES; [| |apply nth_error_None in ES; lia].
    + unfold addref in E. destruct (access r o) as [ob| |]; cbn [obind] in E; try discriminate.
      match type of E with Ok ?q = _ => assert (r' = q) by congruence; subst r' end.
      split; [exact I'|]. split; [exact O'|]. cbn [es_ref es_bodies set_pc set_obj objs owner pcs slots]. rewrite upd_length. split; [exact L|].
      apply begin_ok; auto. cbn [pend]. rewrite Nat.eqb_refl. exact HS.
    + assert (r' = set_pc r t (Swap dst None)) by congruence. subst r'. split; [exact I'|]. split; [exact O'|].
      cbn [es_ref es_bodies set_pc objs owner pcs slots]. split; [exact L|]. apply begin_ok; auto. cbn [pend]. rewrite Nat.eqb_refl. exact HS.
  - destruct (step_inv r (Drop t dst) I) as (r' & E & I'). rewrite E. cbn [obind]. eexists. split; [reflexivity|].
    pose proof (step_own r _ r' O E) as O'. cbn [step] in E.
    destruct (idle r t && owns r t dst) eqn:G.
    2: { assert (r' = r) by congruence. subst r'. split; [exact I|]; split; [exact O|]; split; [exact L|exact H]. }
    apply andb_prop in G as [G1 G2]. apply idle_true in G1. apply owns_nth in G2.
    assert (r' = set_pc r t (Swap dst None)) by congruence. subst r'. split; [exact I'|]. split; [exact O'|].
    cbn [es_ref es_bodies set_pc objs owner pcs slots]. split; [exact L|]. apply begin_ok; auto. cbn [pend]. rewrite Nat.eqb_refl. reflexivity.
  - destruct (step_inv r (Give t x t') I) as (r' & E & I'). rewrite E. cbn [obind]. eexists. split; [reflexivity|].
    pose proof (step_own r _ r' O E) as O'. cbn [step] in E.
    destruct (idle r t && owns r t x && idle r t') eqn:G.
    2: { assert (r' = r) by congruence. subst r'. split; [exact I|]; split; [exact O|]; split; [exact L|exact H]. }
    apply andb_prop in G as [G G3]. apply andb_prop in G as [G1 G2]. apply idle_true in G1. apply owns_nth in G2. apply idle_true in G3.
    match type of E with Ok ?q = _ => assert (r' = q) by congruence; subst r' end. split; [exact I'|]. split; [exact O'|].
    cbn [es_ref es_bodies objs owner pcs slots]. split; [exact L|]. intros y u Hy.
    apply nth_upd_inv in Hy as [(-> & -> & _)|(N & Hy)]; [|apply H; exact Hy].
    specialize (H x t G2). rewrite G1, pend_idle in H. rewrite G3, pend_idle. exact H.
  - destruct (step_inv r (Step t) I) as (r' & E & I'). rewrite E. cbn [obind]. eexists. split; [reflexivity|].
    pose proof (step_own r _ r' O E) as O'. cbn [step] in E. split; [exact I'|]. split; [exact O'|]. cbn [es_ref es_bodies].
    assert (PC : forall p q (r1 : state), nth_error (pcs r) t = Some p -> objs r1 = objs r \/ length (objs r1) = length (objs r) -> owner r1 = owner r -> slots r1 = slots r -> pcs r1 = pcs r ->
      (forall x sl, pend (Some q) x sl = pend (Some p) x sl) -> r' = set_pc r1 t q ->
      length bs = length (objs r') /\ forall x u, nth_error (owner r') x = Some u -> holds bs (v x) (pend (nth_error (pcs r') u) x (nth_error (slots r') x))).
    { intros p q r1 Hp L1 L2 L3 L4 Q ->. cbn [set_pc objs owner pcs slots]. rewrite L2, L3, L4. split; [destruct L1 as [->|L1]; congruence|].
      intros x u Hx. specialize (H x u Hx). destruct (Nat.eq_dec u t) as [->|U].
      - rewrite (nth_upd_eq _ _ _ _ Hp), Q. rewrite Hp in H. exact H.
      - rewrite nth_upd_ne by congruence. exact H. }
    destruct (nth_error (pcs r) t) as [[|dst o|dst w|o|o|o]|] eqn:Hp.
    + assert (r' = r) by congruence. subst r'. auto.
    + destruct (access r o) as [ob| |]; cbn [obind] in E; try discriminate. unfold cassert in E. destruct (negb _); [|discriminate].
      apply (PC (AddChk dst o) (Swap dst (Some o)) r); auto; congruence.
    + pose proof (O t _ dst Hp eq_refl) as OW. apply owns_nth in OW.
      destruct (nth_error (slots r) dst) as [old|] eqn:ES; [|discriminate].
      assert (r' = set_pc (set_slot r dst w) t (match old with Some o => RelChk o | None => Idle end)) by (destruct old; congruence). subst r'.
      cbn [set_pc set_slot objs owner pcs slots]. split; [exact L|]. intros x u Hx. specialize (H x u Hx).
      destruct (Nat.eq_dec u t) as [->|U].
      * rewrite (nth_upd_eq _ _ _ _ Hp). rewrite Hp in H. cbn [pend] in H.
        assert (P : forall sl, pend (Some match old with Some o => RelChk o | None => Idle end) x sl = sl) by (intros; destruct old; reflexivity). rewrite P.
        destruct (Nat.eqb_spec dst x) as [<-|N]; [rewrite (nth_upd_eq _ _ _ _ ES); exact H|rewrite nth_upd_ne by congruence; exact H].
      * rewrite !nth_upd_ne; try congruence.
    + destruct (access r o) as [ob| |]; cbn [obind] in E; try discriminate. unfold cassert in E. destruct (_ >? _); [|discriminate].
      apply (PC (RelChk o) (RelDec o) r); auto; congruence.
    + destruct (access r o) as [ob| |]; cbn [obind] in E; try discriminate.
      match type of E with Ok (set_pc ?r1 t ?q) = _ => apply (PC (RelDec o) q r1) end; try reflexivity; try congruence.
      * right. cbn [set_obj objs]. apply upd_length.
      * intros x sl. destruct (_ =? 0); reflexivity.
    + destruct (access r o) as [ob| |]; cbn [obind] in E; try discriminate.
      match type of E with Ok (set_pc ?r1 t ?q) = _ => apply (PC (Del o) q r1) end; try reflexivity; try congruence.
      right. cbn [set_obj objs]. apply upd_length.
    + assert (r' = r) by congruence. subst r'. auto.
Qed.

Lemma erun_ok es : forall s v, EInv s v -> exists s', erun s es = Ok s' /\ EInv s' (effects s es v).
Proof.
  induction es as [|e es IH]; intros s v I; [exists s; auto|]. cbn [erun effects].
  destruct (estep_ok s v e I) as (s1 & -> & I1). cbn [obind]. apply IH, I1.
Qed.
Lemma einit_ok nt owners : Z.of_nat (length owners + nt) < 2^31 -> EInv (einit nt owners) (fun _ => no_error).
Proof.
  intros B. split; [apply init_inv, B|]. split; [apply init_own|]. split; [reflexivity|].
  intros x u Hx. cbn [einit es_ref es_bodies init slots pcs owner] in *.
  assert (P : forall sl, pend (nth_error (repeat Idle nt) u) x sl = sl).
  { intros sl. destruct (nth_error (repeat Idle nt) u) as [p|] eqn:E; [|reflexivity]. apply nth_error_In, repeat_spec in E. subst. reflexivity. }
  rewrite P. destruct (nth_error (repeat None (length owners)) x) as [q|] eqn:E; [|exact Logic.I].
  apply nth_error_In, repeat_spec in E. subst. reflexivity.
Qed.

Lemma reads_ok s v t x : EInv s v -> can s t x -> reads s x (v x).
Proof.
  intros (I & O & L & H) [C1 C2]. pose proof (owns_lt _ _ _ I C2) as LT. apply idle_true in C1. apply owns_nth in C2.
  specialize (H x t C2). rewrite C1, pend_idle in H. unfold reads, error_num, error_int, default_text, parameters, body_of.
  destruct (nth_error (slots (es_ref s)) x) as [[o|]|] eqn:E; [| |apply nth_error_None in E; lia]; cbn [holds] in H.
  - destruct (access_ok (es_ref s) o I (or_introl (slot_refs _ _ _ E))) as (ob & _ & A & _). rewrite A. cbn [obind]. rewrite H. cbn. auto.
  - rewrite H. cbn. auto.
Qed.

(** ** C67 *)

(** Whatever the threads do, in any interleaving: nothing fails, and every
    variable, read by the thread that owns it, says what was last put in it. *)
Theorem C67_values : forall nt owners es, Z.of_nat (length owners + nt) < 2^31 ->
  exists s, erun (einit nt owners) es = Ok s /\
  forall t x, can s t x -> reads s x (effects (einit nt owners) es (fun _ => no_error) x).
Proof.
  intros nt owners es B. destruct (erun_ok es _ _ (einit_ok nt owners B)) as (s & E & I).
  exists s. split; [exact E|]. intros t x C. eapply reads_ok; eauto.
Qed.

(** What other threads do never shows. *)
Theorem C67_independent : forall nt owners es s t x w es' s', Z.of_nat (length owners + nt) < 2^31 ->
  erun (einit nt owners) es = Ok s -> can s t x -> reads s x w ->
  Forall (fun e => thread_of e <> t) es' -> erun s es' = Ok s' -> reads s' x w.
Proof.
  intros nt owners es s t x w es' s' B E C R F E'.
  destruct (erun_ok es _ _ (einit_ok nt owners B)) as (s1 & E1 & I). assert (s1 = s) by congruence. subst s1. clear E1.
  set (v := effects _ es _) in *. assert (W : w = v x).
  { pose proof (reads_ok s v t x I C) as Q. destruct R as (R1 & _ & R2 & R3), Q as (Q1 & _ & Q2 & Q3). destruct w as [w1 w2 w3], (v x) as [x1 x2 x3]. cbn [s_num s_text s_params] in *. congruence. }
  clear R. rewrite W. clear W w. clearbody v. clear E es.
  revert s v I C E'. induction F as [|e es' Fe F IH]; intros s v I C E'; cbn [erun] in E'.
  - assert (s' = s) by congruence. subst. eapply reads_ok; eauto.
  - destruct (estep_ok s v e I) as (s1 & E1 & I1). rewrite E1 in E'. cbn [obind] in E'.
    assert (G : effect s e v x = v x /\ can s1 t x).
    { destruct C as [C1 C2]. destruct s as [r bs]. cbn [es_ref] in *. apply idle_true in C1. apply owns_nth in C2.
      assert (NO : forall u, u <> t -> owns r u x = false).
      { intros u U. destruct (owns r u x) eqn:Q; [apply owns_nth in Q; congruence|reflexivity]. }
      assert (PT : forall u, u <> t -> forall p r1, pcs r1 = pcs r -> owner r1 = owner r -> can (mkest (set_pc r1 u p) bs) t x).
      { intros u U p r1 P1 P2. split; cbn [es_ref].
        - unfold idle. cbn [pcs set_pc es_ref]. rewrite P1, nth_upd_ne, C1 by congruence. reflexivity.
        - apply owns_nth. cbn [owner set_pc]. rewrite P2. exact C2. }
      assert (C0 : can (mkest r bs) t x).
      { split; cbn [es_ref]; [unfold idle; rewrite C1; reflexivity|apply owns_nth; exact C2]. }
      assert (CB : forall a b1 b2, can (mkest a b1) t x -> can (mkest a b2) t x) by (intros a b1 b2 Q; exact Q).
      destruct e as [u dst n d p|u dst src|u dst|u y u'|u]; cbn [thread_of] in Fe; cbn [effect estep es_ref es_bodies] in *; unfold canb in *; cbn [es_ref] in *.
      - destruct (idle r u && owns r u dst) eqn:G; [|assert (s1 = mkest r bs) by congruence; subst; auto]. split.
        + unfold put. destruct (Nat.eqb_spec x dst) as [->|]; [|reflexivity]. rewrite (NO u Fe), andb_false_r in G. discriminate.
        + cbn [step] in E1. rewrite G in E1. cbn [obind] in E1. match type of E1 with Ok ?q = _ => assert (s1 = q) by congruence; subst s1 end.
          eapply CB. apply PT; auto.
      - split.
        + destruct (idle r u && owns r u dst) eqn:G; cbn [andb]; [|reflexivity]. destruct (idle r u && owns r u src); [|reflexivity].
          unfold put. destruct (Nat.eqb_spec x dst) as [->|]; [|reflexivity]. rewrite (NO u Fe), andb_false_r in G. discriminate.
        + cbn [step] in E1. destruct (idle r u && owns r u dst && owns r u src); cbn [obind] in E1; [|assert (s1 = mkest r bs) by congruence; subst; auto].
          destruct (nth_error (slots r) src) as [[o|]|]; cbn [obind] in E1.
          * unfold addref in E1. destruct (access r o); cbn [obind] in E1; try discriminate. match type of E1 with Ok ?q = _ => assert (s1 = q) by congruence; subst s1 end. apply PT; auto.
          * match type of E1 with Ok ?q = _ => assert (s1 = q) by congruence; subst s1 end. apply PT; auto.
          * assert (s1 = mkest r bs) by congruence. subst. auto.
      - split.
        + destruct (idle r u && owns r u dst) eqn:G; [|reflexivity].
          unfold put. destruct (Nat.eqb_spec x dst) as [->|]; [|reflexivity]. rewrite (NO u Fe), andb_false_r in G. discriminate.
        + cbn [step] in E1. destruct (idle r u && owns r u dst); cbn [obind] in E1; [|assert (s1 = mkest r bs) by congruence; subst; auto].
          match type of E1 with Ok ?q = _ => assert (s1 = q) by congruence; subst s1 end. apply PT; auto.
      - split; [reflexivity|]. cbn [step] in E1. destruct (idle r u && owns r u y && idle r u') eqn:G; cbn [obind] in E1; [|assert (s1 = mkest r bs) by congruence; subst; auto].
        match type of E1 with Ok ?q = _ => assert (s1 = q) by congruence; subst s1 end. split; cbn [es_ref].
        + unfold idle. cbn [pcs]. rewrite C1. reflexivity.
        + apply owns_nth. cbn [owner]. destruct (Nat.eq_dec y x) as [->|N]; [|rewrite nth_upd_ne by exact N; exact C2].
          rewrite (NO u Fe), andb_false_r in G. discriminate.
      - split; [reflexivity|]. cbn [step] in E1. destruct (nth_error (pcs r) u) as [[|dst o|dst w|o|o|o]|]; cbn [obind] in E1.
        all: try (assert (s1 = mkest r bs) by congruence; subst; exact C0).
        2: destruct (nth_error (slots r) dst) as [[old|]|]; cbn [obind] in E1; try discriminate.
        all: try (destruct (access r o); cbn [obind] in E1; try discriminate).
        all: try (unfold cassert in E1; match type of E1 with context [if ?b then _ else _] => destruct b; cbn [obind] in E1; try discriminate end).
        all: match type of E1 with Ok ?q = _ => assert (s1 = q) by congruence; subst s1 end; apply PT; auto. }
    destruct G as [G1 G2]. rewrite <- G1. eapply IH; eauto.
Qed.

(** A body is deleted at most once, not before its last variable is gone, and,
    when no operation is under way, it is there if and only if a variable
    refers to it. *)
Theorem C67_storage : forall nt owners es s, Z.of_nat (length owners + nt) < 2^31 -> erun (einit nt owners) es = Ok s ->
  length (objs (es_ref s)) = length (es_bodies s) /\
  forall o ob, nth_error (objs (es_ref s)) o = Some ob ->
    (o_dels ob <= 1)%nat /\
    (forall x, nth_error (slots (es_ref s)) x = Some (Some o) -> o_dels ob = 0%nat) /\
    ((forall t p, nth_error (pcs (es_ref s)) t = Some p -> p = Idle) ->
     (o_dels ob = 0%nat <-> exists x, nth_error (slots (es_ref s)) x = Some (Some o))).
Proof.
  intros nt owners es s B E. destruct (erun_ok es _ _ (einit_ok nt owners B)) as (s1 & E1 & I & _ & L & _).
  assert (s1 = s) by congruence. subst s1. split; [symmetry; exact L|]. intros o ob Ho.
  pose proof I as (_ & OK & _). specialize (OK o ob Ho).
  assert (SL : forall x, nth_error (slots (es_ref s)) x = Some (Some o) -> o_dels ob = 0%nat).
  { intros x Hx. apply slot_refs in Hx. destruct OK as [(D & _)|(_ & R & _)]; [exact D|lia]. }
  split; [destruct OK as [(D & _)|(D & _)]; lia|]. split; [exact SL|]. intros Q. split; [|intros (x & Hx); eauto].
  intros D. destruct OK as [(_ & _ & C)|(D' & _)]; [|lia].
  assert (Z0 : tokens (es_ref s) o = 0%nat /\ ndel (es_ref s) o = 0%nat).
  { split; (apply all_idle_zero; [|reflexivity]); intros p Hp; apply In_nth_error in Hp as (t & Hp); eauto. }
  assert (P : (handles (es_ref s) o > 0)%nat) by (unfold refs in C; lia). clear - P.
  unfold handles in P. induction (slots (es_ref s)) as [|q l IH]; cbn [sum fold_right] in P; [lia|].
  destruct q as [w|]; cbn [in_slot] in P.
  - destruct (Nat.eqb_spec w o) as [->|]; [exists 0%nat; reflexivity|]. destruct IH as (x & Hx); [exact P|exists (S x); exact Hx].
  - destruct IH as (x & Hx); [exact P|exists (S x); exact Hx].
Qed.

(** Zero is no error and everything else is one; making an error of the number
    of an error keeps it. *)
Theorem C67_number : forall n, (ErrNum1 n = 0 <-> n = 0) /\ ErrNum1 (ErrNum1 n) = ErrNum1 n.
Proof.
  intros n. rewrite !marked_ok. unfold marked. destruct (Z.eqb_spec n 0) as [->|N]; [split; [tauto|reflexivity]|].
  assert (NZ : Z.lor n 0xC000000 <> 0).
  { intros Q. apply Z.lor_eq_0_iff in Q. destruct Q as [Q _]. contradiction. }
  split; [split; [contradiction|contradiction]|]. rewrite (proj2 (Z.eqb_neq _ _) NZ), <- Z.lor_assoc. reflexivity.
Qed.

(** Two threads: one makes an error and hands a copy over, while the other
    drops its own. *)
Example C67_ex : exists s, erun (einit 2 [0; 0; 1]%nat)
    [EMake 0 0 5 100 200; EStep 0; EStep 0; EMake 1 2 7 101 0; ECopy 0 1 0; EStep 1; EStep 0; EStep 1; EStep 0;
     EGive 0 1 1; EDrop 1 2; EStep 1; EDrop 0 0; EStep 1; EStep 0; EStep 1; EStep 0; EStep 1; EStep 0] = Ok s /\
  can s 1 1 /\ reads s 1 (mksaid (5 + 2^27 + 2^26) 100 200) /\ can s 0 0 /\ reads s 0 no_error /\ can s 1 2 /\ reads s 2 no_error.
Proof. eexists. split; [vm_compute; reflexivity|]. repeat split. Qed.

Print Assumptions C67_values.
Print Assumptions C67_independent.
Print Assumptions C67_storage.
Print Assumptions C67_number.
