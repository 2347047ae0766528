(** skip_atom passes over exactly one spelled atom. *)
From Verif Require Import Base UTF8Model PegModel PegSpec PegText.

Scheme bare_ind6 := Induction for bare Sort Prop
  with prim_ind6 := Induction for prim Sort Prop
  with atom_ind6 := Induction for atom Sort Prop
  with branch_ind6 := Induction for branch Sort Prop
  with alts_ind6 := Induction for alts Sort Prop
  with expr_ind6 := Induction for expr Sort Prop.
Combined Scheme spelling_ind from bare_ind6, prim_ind6, atom_ind6, branch_ind6, alts_ind6, expr_ind6.

Definition ends (t : list Z) : Prop := t = [] \/ exists r, t = 41 :: r.

(** The matcher that goes with a dialect. *)
Definition lang_ok (D : dialect) (L : lang) : Prop :=
  match L with Plain => d_calls D = false | Gram _ => d_calls D = true end.

Lemma ends_first t : ends t -> first t = 0 \/ first t = 41.
Proof. intros [-> | [r ->]]; cbn; auto. Qed.

Lemma ends_nolabel t : ends t -> not_first (eq 58) t.
Proof. intros [-> | [r ->]]; cbn; lia. Qed.

Section Skip.
Variable D : dialect.
Variable L : lang.
Hypothesis HL : lang_ok D L.

Definition heads (s : list Z) : Prop :=
  first s <> 0 /\ first s <> 41 /\ first s <> 124 /\ first s <> 58.

Definition bare_skip (s t : list Z) : Prop := forall pat p, At pat p s ->
  heads s /\
  exists q, At pat q t /\
    forall lb q', evt (fun f => label_at f pat q) (lb, q') -> evt (fun f => skip_atom f L pat p) q'.
Definition prim_skip (s t : list Z) : Prop := forall pat p, At pat p s ->
  heads s /\ not_first (eq 58) t /\
  exists q, At pat q t /\ evt (fun f => skip_atom f L pat p) q.
Definition atom_skip (s t : list Z) : Prop := forall pat p, At pat p s ->
  heads s /\
  exists q, At pat q t /\
    forall alt q', evt (fun f => skip_until f L pat alt q) q' -> evt (fun f => skip_until f L pat alt p) q'.
Definition alts_skip (s t : list Z) : Prop := forall pat p, At pat p s ->
  exists q, At pat q t /\ evt (fun f => skip_until f L pat false p) q /\
    evt (fun f => skip_alternates f L pat p) q.
Definition expr_skip (s t : list Z) : Prop := forall pat p, At pat p s ->
  exists q, At pat q t /\ evt (fun f => skip_until f L pat false p) q.


(** One step of the loop. *)
Lemma until_step pat p s q alt q' : At pat p s ->
  first s <> 0 -> first s <> 41 -> (alt = true -> first s <> 124) ->
  evt (fun f => skip_atom f L pat p) q ->
  evt (fun f => skip_until f L pat alt q) q' -> evt (fun f => skip_until f L pat alt p) q'.
Proof.
  intros Hp N0 N1 N2 Ha Hu. apply evt_S. cbn [skip_until].
  rewrite (At_rd _ _ _ Hp). cbn [rbind].
  rewrite (proj2 (Z.eqb_neq _ _) N0), (proj2 (Z.eqb_neq _ _) N1). cbn [orb].
  destruct (alt && (first s =? 124)) eqn:E.
  { exfalso. apply andb_true_iff in E. destruct E as [E1 E2]. apply Z.eqb_eq in E2. destruct (N2 E1 E2). }
  eapply evt_bind; [exact Ha|exact Hu].
Qed.

Lemma until_stop pat p s alt : At pat p s -> (first s = 0 \/ first s = 41 \/ (alt = true /\ first s = 124)) ->
  evt (fun f => skip_until f L pat alt p) p.
Proof.
  intros Hp H. apply evt_S, evt_eq. intros f. cbn [skip_until]. rewrite (At_rd _ _ _ Hp). cbn [rbind].
  destruct H as [->|[->|[-> ->]]]; reflexivity.
Qed.

(** A simple one-character skip. *)
Lemma skip_simple c t pat p : At pat p (c :: t) ->
  ~ In c [92; 91; 40; 124; 38; 33] -> (d_calls D = true -> c <> 60) ->
  forall lb q', evt (fun f => label_at f pat (S p)) (lb, q') -> evt (fun f => skip_atom f L pat p) q'.
Proof.
  intros Hp N Nc lb q' Hl. apply evt_S. cbn [skip_atom].
  assert (E : forall x, In x [92; 91; 40; 124; 38; 33] -> (c =? x) = false).
  { intros x Hx. apply Z.eqb_neq. intros ->. auto. }
  rewrite (At_rd _ _ _ Hp). cbn [rbind first].
  rewrite (E 92), (E 91), (E 40), (E 124), (E 38), (E 33) by (cbn; tauto). cbn [orb]. cbv iota.
  eapply evt_bind with (a := S p).
  2:{ cbv beta. eapply evt_bind; [exact Hl|apply evt_const]. }
  destruct (extended c) eqn:X; [|apply evt_const].
  apply evt_eq. intros f. unfold skip_extended. unfold lang_ok in HL. destruct L; [reflexivity|].
  rewrite (At_rd _ _ _ Hp). cbn [rbind first]. rewrite (proj2 (Z.eqb_neq c 60)) by auto. reflexivity.
Qed.

Lemma skip_escape pat p s t q : At pat p s -> first s = 92 ->
  (exists c, literal_char pat p = Done (c, q)) -> At pat q t ->
  forall lb q', evt (fun f => label_at f pat q) (lb, q') -> evt (fun f => skip_atom f L pat p) q'.
Proof.
  intros Hp F (c & E) Hq lb q' Hl. apply evt_S. cbn [skip_atom].
  rewrite (At_rd _ _ _ Hp). cbn [rbind]. rewrite F.
  change (92 =? 92) with true. cbv iota. rewrite E. cbn [rbind snd].
  eapply evt_bind; [exact Hl|apply evt_const].
Qed.

Lemma skip_class_atom pat p s l t : At pat p (91 :: s) ->
  (items D l s t /\ not_first (eq 94) s \/ exists s', s = 94 :: s' /\ items D l s' t) ->
  exists q, At pat q t /\
  forall lb q', evt (fun f => label_at f pat q) (lb, q') -> evt (fun f => skip_atom f L pat p) q'.
Proof.
  intros Hp H.
  assert (X : exists (b : bool) (s' : list Z), At pat (if b then S (S p) else S p) s' /\ items D l s' t /\ (first s =? 94) = b).
  { pose proof (At_cons _ _ _ _ Hp) as Hp1. destruct H as [[Hi N]|(s' & -> & Hi)].
    - exists false, s. split; [exact Hp1|]. split; [exact Hi|]. destruct s; cbn [first not_first] in *; apply Z.eqb_neq; lia.
    - exists true, s'. split; [eapply At_cons; eauto|]. split; [exact Hi|reflexivity]. }
  destruct X as (b & s' & Hs' & Hi & Eb).
  destruct (skip_class_ok _ _ _ _ Hi _ _ Hs') as (q & Hq & Hend).
  exists (S q). split; [eapply At_cons; eauto|]. intros lb q' Hl. apply evt_S. cbn [skip_atom].
  rewrite (At_rd _ _ _ Hp). cbn [rbind first].
  change (91 =? 92) with false. change (91 =? 91) with true. cbv iota.
  rewrite (At_rd _ _ _ (At_cons _ _ _ _ Hp)). cbn [rbind]. rewrite Eb.
  eapply evt_bind with (a := S q).
  { eapply evt_bind; [exact Hq|]. apply evt_eq. intros f. rewrite (At_rd _ _ _ Hend). cbn [rbind first].
    change (93 =? 93) with true. reflexivity. }
  eapply evt_bind; [exact Hl|apply evt_const].
Qed.

Lemma skip_call_ok name : Forall namech name -> forall pat p t, At pat p (name ++ 62 :: t) ->
  evt (fun f => skip_call f pat p) (p + length name + 1)%nat.
Proof.
  induction 1 as [|c name Hc _ IH]; intros pat p t Hp; cbn [app length] in *; apply evt_S.
  - apply evt_eq. intros f. cbn [skip_call]. rewrite (At_rd _ _ _ Hp). cbn. f_equal. lia.
  - replace (p + S (length name) + 1)%nat with (S p + length name + 1)%nat by lia.
    cbn [skip_call]. rewrite (At_rd _ _ _ Hp). cbn [rbind first].
    unfold namech, letter in Hc.
    rewrite (proj2 (Z.eqb_neq c 0)), (proj2 (Z.eqb_neq c 62)) by lia.
    apply (IH pat (S p) t); eapply At_cons; eauto.
Qed.

Lemma skip_call_atom name pat p t : d_calls D = true -> Forall namech name ->
  At pat p (60 :: name ++ 62 :: t) ->
  At pat (S p + length name + 1) t /\
  forall lb q', evt (fun f => label_at f pat (S p + length name + 1)) (lb, q') ->
    evt (fun f => skip_atom f L pat p) q'.
Proof.
  intros Hd Hn Hp. pose proof (At_cons _ _ _ _ Hp) as Hp1. split.
  - apply At_app in Hp1. apply At_cons in Hp1. replace (S p + length name + 1)%nat with (S (S p + length name)) by lia. exact Hp1.
  - intros lb q' Hl. apply evt_S. cbn [skip_atom].
    unfold lang_ok in HL. destruct L as [|rules]; [congruence|].
    rewrite (At_rd _ _ _ Hp). cbn [rbind first].
    change (60 =? 92) with false. change (60 =? 91) with false. change (60 =? 40) with false.
    change (60 =? 124) with false. change (60 =? 38) with false. change (60 =? 33) with false.
    change (extended 60) with true. cbn [orb]. cbv iota. unfold skip_extended.
    rewrite (At_rd _ _ _ Hp). cbn [rbind first]. change (60 =? 60) with true. cbv iota.
    eapply evt_bind; [apply (skip_call_ok _ Hn _ _ _ Hp1)|].
    eapply evt_bind; [exact Hl|apply evt_const].
Qed.

Lemma prim_of_bare s t : bare_skip s t -> not_first (eq 58) t -> prim_skip s t.
Proof.
  intros H N pat p Hp. destruct (H pat p Hp) as (F & q & Hq & K). split; [exact F|]. split; [exact N|].
  exists q. split; [exact Hq|]. eapply K. apply evt_eq. apply (label_none _ _ _ Hq N).
Qed.

Lemma atom_of_prim s t : prim_skip s t -> atom_skip s t.
Proof.
  intros H pat p Hp. destruct (H pat p Hp) as (F & _ & q & Hq & K). split; [exact F|].
  exists q. split; [exact Hq|]. intros alt q' Hu. unfold heads in F.
  eapply until_step; [exact Hp|tauto|tauto|tauto|exact K|exact Hu].
Qed.

Lemma atom_of_op c s t : c = 63 \/ c = 42 \/ c = 43 -> prim_skip s t -> atom_skip (c :: s) t.
Proof.
  intros Hc H pat p Hp. split; [unfold heads; cbn; lia|].
  pose proof (At_cons _ _ _ _ Hp) as Hp1.
  destruct (H pat _ Hp1) as (F & _ & q & Hq & K). exists q. split; [exact Hq|]. intros alt q' Hu.
  unfold heads in F.
  eapply until_step with (q := S p); [exact Hp|cbn; lia|cbn; lia|cbn; lia| |].
  + eapply skip_simple; [exact Hp|cbn; lia|lia|]. apply evt_eq. apply (label_none _ _ _ Hp1).
    destruct s; cbn in *; lia.
  + eapply until_step; [exact Hp1|tauto|tauto|tauto|exact K|exact Hu].
Qed.

Lemma ahead_skip c s t : c = 38 \/ c = 33 -> prim_skip s t -> prim_skip (c :: s) t.
Proof.
  intros Hc H pat p Hp. split; [unfold heads; cbn; lia|].
  pose proof (At_cons _ _ _ _ Hp) as Hp1.
  destruct (H pat _ Hp1) as (F & N & q & Hq & K). split; [exact N|]. exists q. split; [exact Hq|].
  apply evt_S. cbn [skip_atom]. rewrite (At_rd _ _ _ Hp). cbn [rbind first].
  rewrite (proj2 (Z.eqb_neq c 92)), (proj2 (Z.eqb_neq c 91)), (proj2 (Z.eqb_neq c 40)),
    (proj2 (Z.eqb_neq c 124)) by lia.
  replace ((c =? 38) || (c =? 33)) with true by (destruct Hc as [-> | ->]; reflexivity).
  eapply evt_bind; [exact K|]. eapply evt_bind; [apply evt_eq, (label_none _ _ _ Hq N)|apply evt_const].
Qed.

(** One alternate, from its bar to the next one or the end. *)
Lemma bar_skip s t pat p : atom_skip s t -> ends t \/ first t = 124 -> At pat p (124 :: s) ->
  exists q, At pat q t /\ evt (fun f => skip_atom f L pat p) q.
Proof.
  intros H Ht Hp. pose proof (At_cons _ _ _ _ Hp) as Hp1.
  destruct (H pat _ Hp1) as (F & q & Hq & K). exists q. split; [exact Hq|].
  apply evt_S. cbn [skip_atom]. rewrite (At_rd _ _ _ Hp). cbn [rbind first].
  change (124 =? 92) with false. change (124 =? 91) with false. change (124 =? 40) with false.
  change (124 =? 124) with true. cbv iota.
  eapply evt_bind.
  - apply K. eapply until_stop; [exact Hq|]. destruct Ht as [Ht|Ht]; [apply ends_first in Ht; tauto|tauto].
  - eapply evt_bind; [apply evt_eq, (label_none _ _ _ Hq)|apply evt_const].
    destruct Ht as [Ht|Ht]; [apply ends_nolabel, Ht|]. destruct t; cbn in *; lia.
Qed.

Lemma group_skip s t : expr_skip s (41 :: t) -> bare_skip (40 :: s) t.
Proof.
  intros H pat p Hp. split; [unfold heads; cbn; lia|].
  destruct (H pat _ (At_cons _ _ _ _ Hp)) as (q & Hq & K).
  exists (S q). split; [eapply At_cons; eauto|]. intros lb q' Hl.
  apply evt_S. cbn [skip_atom]. rewrite (At_rd _ _ _ Hp). cbn [rbind first].
  change (40 =? 92) with false. change (40 =? 91) with false. change (40 =? 40) with true. cbv iota.
  eapply evt_bind with (a := S q).
  - eapply evt_bind; [exact K|]. apply evt_eq. intros f. rewrite (At_rd _ _ _ Hq). reflexivity.
  - eapply evt_bind; [exact Hl|apply evt_const].
Qed.

Lemma skip_all :
  (forall e s t, bare D e s t -> bare_skip s t) /\
  (forall e s t, prim D e s t -> prim_skip s t) /\
  (forall e s t, atom D e s t -> atom_skip s t) /\
  (forall e s t, branch D e s t -> atom_skip s t) /\
  (forall e s t, alts D e s t -> alts_skip s t) /\
  (forall e s t, expr D e s t -> expr_skip s t).
Proof.
  apply (spelling_ind D (fun _ s t _ => bare_skip s t) (fun _ s t _ => prim_skip s t)
    (fun _ s t _ => atom_skip s t) (fun _ s t _ => atom_skip s t) (fun _ s t _ => alts_skip s t)
    (fun _ s t _ => expr_skip s t)).
  - intros r pat p Hp. split; [unfold heads; cbn; lia|]. exists (S p).
    split; [eapply At_cons; eauto|]. apply (skip_simple _ _ _ _ Hp); cbn; lia.
  - intros r pat p Hp. split; [unfold heads; cbn; lia|]. exists (S p).
    split; [eapply At_cons; eauto|]. apply (skip_simple _ _ _ _ Hp); cbn; lia.
  - intros r pat p Hp. split; [unfold heads; cbn; lia|]. exists (S p).
    split; [eapply At_cons; eauto|]. apply (skip_simple _ _ _ _ Hp); cbn; lia.
  - intros c r Hc Ho Hk pat p Hp. unfold operators in Ho. cbn in Ho.
    split; [unfold heads; cbn; lia|]. exists (S p).
    split; [eapply At_cons; eauto|]. apply (skip_simple _ _ _ _ Hp); [cbn; lia|auto].
  - intros al c s r He pat p Hp.
    destruct (literal_escape _ _ _ _ _ _ He Hp) as (q & E & Hq).
    assert (F : first s = 92) by (inversion He; reflexivity).
    split; [unfold heads; rewrite F; lia|]. exists q. split; [exact Hq|].
    eapply skip_escape; eauto.
  - intros k r Hk pat p Hp. split; [unfold heads; cbn; lia|].
    pose proof (kind_literal _ _ _ _ Hp) as X. exists (S (S p)).
    split; [do 2 eapply At_cons; exact Hp|]. eapply skip_escape; [exact Hp|reflexivity| |do 2 eapply At_cons; exact Hp].
    eauto.
  - intros l s r Hi N pat p Hp. split; [unfold heads; cbn; lia|].
    eapply skip_class_atom; [exact Hp|left; split; eauto].
  - intros l s r Hi pat p Hp. split; [unfold heads; cbn; lia|].
    eapply skip_class_atom; [exact Hp|right; eauto].
  - intros e s r _ IH. apply group_skip, IH.
  - intros e s r _ IH N. apply prim_of_bare; assumption.
  - intros e s name r' r Hd _ IH Hn Hl pat p Hp.
    destruct (IH pat p Hp) as (F & q & Hq & K). split; [exact F|].
    destruct (label_some _ _ _ _ _ Hn Hl Hq) as (q' & E & Hq').
    split; [inversion Hl; subst; [assumption|]; destruct r as [|c r]; cbn in *; [exact I|intros <-; tauto]|].
    exists q'. split; [exact Hq'|]. eapply K. exact E.
  - intros e s r _ IH. apply ahead_skip; [lia|exact IH].
  - intros e s r _ IH. apply ahead_skip; [lia|exact IH].
  - intros name r Hd Hn _ N pat p Hp. split; [unfold heads; cbn; lia|]. split; [exact N|].
    destruct (skip_call_atom _ _ _ _ Hd Hn Hp) as (Hq & K). eexists. split; [exact Hq|].
    eapply K. apply evt_eq, (label_none _ _ _ Hq N).
  - intros name lb r' r Hd Hn _ Hl Hle pat p Hp. split; [unfold heads; cbn; lia|].
    destruct (skip_call_atom _ _ _ _ Hd Hn Hp) as (Hq & K).
    destruct (label_some _ _ _ _ _ Hl Hle Hq) as (q' & E & Hq').
    split; [inversion Hle; subst; [assumption|]; destruct r as [|c r]; cbn in *; [exact I|intros <-; tauto]|].
    exists q'. split; [exact Hq'|]. eapply K. exact E.
  - intros e s r _ IH. apply atom_of_prim, IH.
  - intros e s r _ IH. apply atom_of_op; [lia|exact IH].
  - intros e s r _ IH. apply atom_of_op; [lia|exact IH].
  - intros e s r _ IH. apply atom_of_op; [lia|exact IH].
  - intros e s r _ IH. exact IH.
  - intros a e s s' r _ IHa _ IHe pat p Hp.
    destruct (IHa pat p Hp) as (F & q & Hq & K). split; [exact F|].
    destruct (IHe pat q Hq) as (_ & q2 & Hq2 & K2). exists q2. split; [exact Hq2|]. auto.
  - intros e s r _ IH He pat p Hp.
    destruct (bar_skip _ _ _ _ IH (or_introl He) Hp) as (q & Hq & K). exists q. split; [exact Hq|].
    pose proof (ends_first _ He) as Hf. split.
    + eapply until_step; [exact Hp|cbn; lia|cbn; lia|discriminate|exact K|].
      eapply until_stop; [exact Hq|tauto].
    + apply evt_S. cbn [skip_alternates]. rewrite (At_rd _ _ _ Hp). cbn [rbind first].
      change (124 =? 124) with true. cbv iota. eapply evt_bind; [exact K|].
      apply evt_S, evt_eq. intros f. cbn [skip_alternates]. rewrite (At_rd _ _ _ Hq). cbn [rbind].
      rewrite (proj2 (Z.eqb_neq _ _)) by lia. reflexivity.
  - intros a b s s' r _ IHa _ IHb pat p Hp.
    destruct (bar_skip _ _ _ _ IHa (or_intror eq_refl) Hp) as (q & Hq & K).
    destruct (IHb pat q Hq) as (q2 & Hq2 & U2 & A2). exists q2. split; [exact Hq2|]. split.
    + eapply until_step; [exact Hp|cbn; lia|cbn; lia|discriminate|exact K|exact U2].
    + apply evt_S. cbn [skip_alternates]. rewrite (At_rd _ _ _ Hp). cbn [rbind first].
      change (124 =? 124) with true. cbv iota. eapply evt_bind; [exact K|exact A2].
  - intros r He pat p Hp. exists p. split; [exact Hp|]. apply ends_first in He.
    eapply until_stop; [exact Hp|tauto].
  - intros a e s s' r _ IHa _ IHe pat p Hp.
    destruct (IHa pat p Hp) as (F & q & Hq & K). destruct (IHe pat q Hq) as (q2 & Hq2 & U2).
    exists q2. split; [exact Hq2|]. auto.
  - intros e s r _ IH pat p Hp. destruct (IH pat p Hp) as (q & Hq & U & _). eauto.
Qed.
End Skip.
