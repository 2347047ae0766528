(** A functional form of the meaning of parsing expressions (PegSpec.eval). *)
From Verif Require Import Base UTF8Model PegSpec.

Section Eval.
Variable G : grammar.
Variable keep : sval -> bool.
Variable cs : list Z.

Notation eval := (eval G keep cs).
Notation record := (record keep).

Definition act_dec (a b : list Z * nat) : {a = b} + {a <> b}.
Proof. decide equality; [apply Nat.eq_dec|apply (list_eq_dec Z.eq_dec)]. Defined.

Definition busyb (w : env) (name : list Z) (n : nat) : bool :=
  match active w with
  | None => false
  | Some l => if in_dec act_dec (name, n) l then true else false
  end.

Lemma busyb_spec w name n : busyb w name n = true <-> busy w name n.
Proof.
  unfold busyb, busy. destruct (active w); [|split; [discriminate|contradiction]].
  destruct (in_dec _ _ _); split; auto; try discriminate; contradiction.
Qed.

Definition evaluator : Type :=
  env -> bool -> pe -> nat -> option (option (nat * list scap)).

Definition pstep (F : evaluator) : evaluator := fun w rp e n =>
  match e with
  | Bol => Some (if line_start cs n then Some (n, []) else None)
  | Eol => Some (if line_end cs n then Some (n, []) else None)
  | Char x => Some (match nth_error cs n with
                    | Some c => if in_set x c then Some (S n, []) else None
                    | None => None
                    end)
  | Opt e => match F w rp e n with
             | Some None => Some (Some (n, []))
             | r => r
             end
  | Star e => match F w true e n with
              | Some None => Some (Some (n, []))
              | Some (Some (m, l)) =>
                if (m =? n)%nat then Some (Some (n, l))
                else match F w rp (Star e) m with
                     | Some (Some (k, l')) => Some (Some (k, l ++ l'))
                     | _ => None
                     end
              | None => None
              end
  | Plus e => match F w true e n with
              | Some None => Some None
              | Some (Some (m, l)) =>
                match F w rp (Star e) m with
                | Some (Some (k, l')) => Some (Some (k, l ++ l'))
                | _ => None
                end
              | None => None
              end
  | Group e => F w rp e n
  | Eps => Some (Some (n, []))
  | Seq a b => match F w rp a n with
               | Some None => Some None
               | Some (Some (m, l)) =>
                 match F w rp b m with
                 | Some (Some (k, l')) => Some (Some (k, l ++ l'))
                 | r => r
                 end
               | None => None
               end
  | Or a b => match F w rp a n with
              | Some None => F w rp b n
              | r => r
              end
  | Ahead e => match F w rp e n with
               | Some (Some _) => Some (Some (n, []))
               | r => r
               end
  | Not e => match F w rp e n with
             | Some (Some _) => Some None
             | Some None => Some (Some (n, []))
             | None => None
             end
  | Label e name => match F w rp e n with
                    | Some (Some (m, l)) => Some (Some (m, l ++ record name (SText n m) rp))
                    | r => r
                    end
  | Call name lb =>
    match assoc G name with
    | None => Some None
    | Some (e, w') =>
      if busyb w name n then Some None else
      match F (enter w w' name n) false e n with
      | Some (Some (m, l)) =>
        let label := match lb with Some x => x | None => name end in
        let v := match l with [] => SText n m | _ => SNode l end in
        Some (Some (m, if mem label (wanted w) then record label v rp else []))
      | r => r
      end
    end
  end.

Fixpoint peval (h : nat) : evaluator :=
  match h with
  | O => fun _ _ _ _ => None
  | S h => pstep (peval h)
  end.

Ltac dp := match goal with
  | H : context [match ?F ?w ?rp ?e ?n with Some _ => _ | None => _ end] |- _ =>
      let T := type of (F w rp e n) in
      unify T (option (option (nat * list scap)));
      let E := fresh "E" in destruct (F w rp e n) as [[[? ?]|]|] eqn:E; try discriminate H
  | H : context [if (?a =? ?b)%nat then _ else _] |- _ =>
      destruct (Nat.eqb_spec a b); try discriminate H
  | H : context [match assoc ?g ?n with _ => _ end] |- _ =>
      let E := fresh "A" in destruct (assoc g n) as [[? ?]|] eqn:E; try discriminate H
  | H : context [if busyb ?w ?x ?n then _ else _] |- _ =>
      let E := fresh "B" in destruct (busyb w x n) eqn:E; try discriminate H
  end.

Lemma busyb_false w name n : busyb w name n = false <-> ~ busy w name n.
Proof. rewrite <- busyb_spec. destruct (busyb w name n); split; intros H; try congruence; try reflexivity; destruct (H eq_refl). Qed.

Lemma pstep_mono (F F' : evaluator) :
  (forall w rp e n r, F w rp e n = Some r -> F' w rp e n = Some r) ->
  forall w rp e n r, pstep F w rp e n = Some r -> pstep F' w rp e n = Some r.
Proof.
  intros IH w rp e n r H. destruct e; cbn [pstep] in H |- *; try exact H;
  repeat dp; subst;
    repeat match goal with
           | E : F _ _ _ _ = Some _ |- _ => apply IH in E; rewrite E; cbn [Nat.eqb]
           | N : ?a <> ?b |- context [(?a =? ?b)%nat] => rewrite (proj2 (Nat.eqb_neq a b) N)
           | |- context [(?a =? ?a)%nat] => rewrite Nat.eqb_refl
           end; try exact H; try reflexivity.
Qed.

Lemma peval_S h : forall w rp e n r, peval h w rp e n = Some r -> peval (S h) w rp e n = Some r.
Proof.
  induction h; intros w rp e n r H; [discriminate|].
  cbn [peval pstep] in *. eapply pstep_mono; [|exact H]. exact IHh.
Qed.

Lemma peval_mono h h' w rp e n r : (h <= h')%nat -> peval h w rp e n = Some r -> peval h' w rp e n = Some r.
Proof. induction 1; intros; auto using peval_S. Qed.

Lemma eval_peval w rp e n r : eval w rp e n r -> exists h, peval h w rp e n = Some r.
Proof.
  induction 1;
    repeat match goal with X : exists h, _ |- _ => destruct X as [? X] end;
    try (exists 1%nat; reflexivity).
  all: match goal with
       | A : peval ?h1 _ _ _ _ = _, B : peval ?h2 _ _ _ _ = _ |- _ =>
           exists (S (max h1 h2));
           apply (peval_mono _ (max h1 h2)) in A; [|lia];
           apply (peval_mono _ (max h1 h2)) in B; [|lia];
           cbn [peval pstep]; rewrite ?A, ?B;
           rewrite ?(proj2 (Nat.eqb_neq m n)) by assumption; rewrite ?A, ?B; try reflexivity
       | A : peval ?h1 _ _ _ _ = _, Q : assoc G _ = _, B : ~ busy _ _ _ |- _ =>
           apply busyb_false in B; exists (S h1); cbn [peval pstep]; rewrite Q, B, A; reflexivity
       | Q : assoc G _ = _, B : busy _ _ _ |- _ =>
           apply busyb_spec in B; exists 1%nat; cbn [peval pstep]; rewrite Q, B; reflexivity
       | A : peval ?h1 _ _ _ _ = _ |- _ => exists (S h1); cbn [peval pstep]; rewrite A, ?Nat.eqb_refl; reflexivity
       | Q : assoc G _ = _ |- _ => exists 1%nat; cbn; rewrite Q; reflexivity
       end.
Qed.

Lemma peval_eval h : forall w rp e n r, peval h w rp e n = Some r -> eval w rp e n r.
Proof.
  induction h; intros w rp e n r H; [discriminate|].
  destruct e; cbn [peval pstep] in H; repeat dp; try (injection H as <-); subst;
    repeat match goal with
           | E : peval h _ _ _ _ = Some _ |- _ => apply IHh in E
           | B : busyb _ _ _ = true |- _ => apply busyb_spec in B
           | B : busyb _ _ _ = false |- _ => apply busyb_false in B
           end; eauto using PegSpec.eval.
Qed.

(** The meaning is unique. *)
Lemma eval_det w rp e n r r' : eval w rp e n r -> eval w rp e n r' -> r = r'.
Proof.
  intros H H'. apply eval_peval in H, H'. destruct H as [h H], H' as [h' H'].
  apply (peval_mono _ (max h h')) in H; [|lia]. apply (peval_mono _ (max h h')) in H'; [|lia]. congruence.
Qed.

(** Matching does not go backwards or beyond the end. *)
Lemma eval_bounds w rp e n r : eval w rp e n r ->
  forall m l, r = Some (m, l) -> (n <= length cs)%nat -> (n <= m <= length cs)%nat.
Proof.
  induction 1; intros m0 l0 E0 Hn; try discriminate;
    try (match type of E0 with context [line_start] => destruct (line_start cs n) end);
    try (match type of E0 with context [line_end] => destruct (line_end cs n) end); try discriminate;
    try (injection E0 as <- <-); try lia;
    try (match goal with IH : forall m l, _ = Some (m, l) -> _ |- _ => specialize (IH _ _ eq_refl ltac:(lia)); lia end);
    try (match goal with IH : forall m l, Some (?a, ?b) = Some (m, l) -> _, IH' : forall m l, Some (?c, ?d) = Some (m, l) -> _ |- _ =>
       first [ specialize (IH _ _ eq_refl ltac:(lia)); specialize (IH' _ _ eq_refl ltac:(lia)); lia
             | specialize (IH' _ _ eq_refl ltac:(lia)); specialize (IH _ _ eq_refl ltac:(lia)); lia ] end).
  - destruct (nth_error cs n) eqn:E; [|discriminate]. destruct (in_set x z); [|discriminate].
    injection E0 as <- <-. assert (n < length cs)%nat by (apply nth_error_Some; congruence). lia.
  - match goal with IH : forall m l, r = Some (m, l) -> _ |- _ => eapply IH; eauto end.
  - match goal with IH : forall m l, r = Some (m, l) -> _ |- _ => eapply IH; eauto end.
Qed.

Lemma peval_bounds h w rp e n m l : peval h w rp e n = Some (Some (m, l)) ->
  (n <= length cs)%nat -> (n <= m <= length cs)%nat.
Proof. intros H. apply peval_eval in H. eapply eval_bounds; eauto. Qed.

(** Repetition cannot fail. *)
Lemma star_some h w rp e n r : peval h w rp (Star e) n = Some r -> exists m l, r = Some (m, l).
Proof.
  destruct h; [discriminate|]. cbn [peval pstep]. intros H. repeat dp; injection H as <-; eauto.
Qed.

(** The least height. *)
Lemma peval_least h w rp e n r : peval h w rp e n = Some r ->
  exists h0, (h0 <= h)%nat /\ peval h0 w rp e n = Some r /\
    forall h', (h' < h0)%nat -> peval h' w rp e n = None.
Proof.
  intros H. induction h; [discriminate|].
  destruct (peval h w rp e n) as [r'|] eqn:E.
  - assert (r' = r) by (apply peval_S in E; congruence). subst.
    destruct (IHh eq_refl) as (h0 & L & H0 & M). exists h0. auto.
  - exists (S h). split; [lia|]. split; [exact H|]. intros h' Hh'.
    destruct (peval h' w rp e n) as [r'|] eqn:E'; [|reflexivity].
    apply (peval_mono h' h) in E'; [congruence|lia].
Qed.

(** Expressions without calls always have a meaning. *)
Fixpoint callfree (e : pe) : Prop :=
  match e with
  | Bol | Eol | Char _ | Eps => True
  | Opt e | Star e | Plus e | Group e | Ahead e | Not e | Label e _ => callfree e
  | Seq a b | Or a b => callfree a /\ callfree b
  | Call _ _ => False
  end.

Lemma star_total e : (forall w rp n, (n <= length cs)%nat -> exists r, eval w rp e n r) ->
  forall d w rp n, (length cs - n <= d)%nat -> (n <= length cs)%nat ->
  exists m l, eval w rp (Star e) n (Some (m, l)).
Proof.
  intros H. induction d; intros w rp n Hd Hn.
  - destruct (H w true n Hn) as [[[m l]|] E].
    + pose proof (eval_bounds _ _ _ _ _ E m l eq_refl Hn). assert (m = n) by lia. subst.
      do 2 eexists. apply ev_star_empty; eauto.
    + do 2 eexists. apply ev_star_stop; eauto.
  - destruct (H w true n Hn) as [[[m l]|] E].
    + pose proof (eval_bounds _ _ _ _ _ E m l eq_refl Hn). destruct (Nat.eq_dec m n) as [->|N].
      * do 2 eexists. apply ev_star_empty; eauto.
      * destruct (IHd w rp m ltac:(lia) ltac:(lia)) as (k & l' & E').
        do 2 eexists. eapply ev_star_more; eauto.
    + do 2 eexists. apply ev_star_stop; eauto.
Qed.

Lemma callfree_total e : callfree e -> forall w rp n, (n <= length cs)%nat -> exists r, eval w rp e n r.
Proof.
  induction e; cbn [callfree]; intros C w rp n Hn; try (now eexists; econstructor).
  - destruct (IHe C w rp n Hn) as [[[m l]|] E]; eexists; [apply ev_opt_some|apply ev_opt_none]; eauto.
  - destruct (star_total e (IHe C) _ w rp n (Nat.le_refl _) Hn) as (m & l & E). eauto.
  - destruct (IHe C w true n Hn) as [[[m l]|] E].
    + pose proof (eval_bounds _ _ _ _ _ E m l eq_refl Hn).
      destruct (star_total e (IHe C) _ w rp m (Nat.le_refl _) ltac:(lia)) as (k & l' & E').
      eexists. eapply ev_plus; eauto.
    + eexists. apply ev_plus_fail; eauto.
  - destruct (IHe C w rp n Hn) as [r E]. eexists. apply ev_group; eauto.
  - destruct C as [C1 C2]. destruct (IHe1 C1 w rp n Hn) as [[[m l]|] E].
    + pose proof (eval_bounds _ _ _ _ _ E m l eq_refl Hn).
      destruct (IHe2 C2 w rp m ltac:(lia)) as [[[k l']|] E'].
      * eexists. eapply ev_seq; eauto.
      * eexists. eapply ev_seq_fail2; eauto.
    + eexists. apply ev_seq_fail1; eauto.
  - destruct C as [C1 C2]. destruct (IHe1 C1 w rp n Hn) as [[[m l]|] E].
    + eexists. apply ev_or_first; eauto.
    + destruct (IHe2 C2 w rp n Hn) as [r E']. eexists. apply ev_or_second; eauto.
  - destruct (IHe C w rp n Hn) as [[[m l]|] E]; eexists; [eapply ev_ahead_some|apply ev_ahead_none]; eauto.
  - destruct (IHe C w rp n Hn) as [[[m l]|] E]; eexists; [eapply ev_not_some|apply ev_not_none]; eauto.
  - destruct (IHe C w rp n Hn) as [[[m l]|] E]; eexists; [eapply ev_label|apply ev_label_none]; eauto.
Qed.

(** ** Left recursion *)

(** What a standard derivation says still holds when rules are being matched,
    if none of those that started here has a lower derivation. *)
Definition higher (h n : nat) (acts : list (list Z * nat)) : Prop :=
  Forall (fun a => (snd a <= n)%nat /\ (snd a = n -> forall e w h', assoc G (fst a) = Some (e, w) ->
            (h' < h)%nat -> peval h' (mkenv w None) false e n = None)) acts.

Lemma higher_mono h h' n n' acts : (h' <= h)%nat -> (n <= n')%nat -> higher h n acts -> higher h' n' acts.
Proof.
  intros Hh Hn. apply Forall_impl. intros a [A B]. split; [lia|]. intros E e w k Ha Hk.
  assert (n' = n) by lia. subst. apply (B eq_refl e w k); auto; lia.
Qed.

Lemma standard_active h : forall wd rp e n r acts, (n <= length cs)%nat -> higher h n acts ->
  peval h (mkenv wd None) rp e n = Some r -> peval h (mkenv wd (Some acts)) rp e n = Some r.
Proof.
  induction h as [h IH] using lt_wf_ind. intros wd rp e n r acts Hn Hh H.
  destruct h as [|h]; [discriminate|].
  assert (SUB : forall rp e m r, (n <= m <= length cs)%nat ->
            peval h (mkenv wd None) rp e m = Some r -> peval h (mkenv wd (Some acts)) rp e m = Some r).
  { intros. apply IH; auto; [lia|]. eapply higher_mono; [| |exact Hh]; lia. }
  assert (BD : forall rp e m l, peval h (mkenv wd None) rp e n = Some (Some (m, l)) -> (n <= m <= length cs)%nat).
  { intros. eapply peval_bounds; eauto. }
  Local Ltac go SUB BD H :=
    repeat dp;
    repeat match goal with
      | E : peval _ _ _ _ _ = Some (Some (?m, _)) |- _ =>
          match goal with X : (_ <= m <= length _)%nat |- _ => fail 1 | _ => pose proof (BD _ _ _ _ E) end
      end;
    repeat match goal with
      | E : _ = Some _ |- _ => apply SUB in E; [rewrite E|lia]
      | N : ?a <> ?b |- context [(?a =? ?b)%nat] => rewrite (proj2 (Nat.eqb_neq a b) N)
      | |- context [(?a =? ?a)%nat] => rewrite Nat.eqb_refl
      end; try exact H.
  destruct e; cbn [peval pstep] in H |- *; try exact H; try (go SUB BD H; fail).
  - destruct (peval h (mkenv wd None) true e n) as [[[m l]|]|] eqn:E1; try discriminate H.
    + pose proof (BD _ _ _ _ E1) as Hm. apply SUB in E1; [|lia]. rewrite E1.
      destruct (m =? n)%nat; [exact H|].
      destruct (peval h (mkenv wd None) rp (Star e) m) as [[[k l']|]|] eqn:E2; try discriminate H.
      apply SUB in E2; [|lia]. rewrite E2. exact H.
    + apply SUB in E1; [|lia]. rewrite E1. exact H.
  - apply SUB; [lia|exact H].
  - destruct (peval h (mkenv wd None) rp e1 n) as [[[m l]|]|] eqn:E1; try discriminate H.
    + apply SUB in E1; [|lia]. rewrite E1. exact H.
    + apply SUB in E1; [|lia]. rewrite E1. apply SUB; [lia|exact H].
  - destruct (assoc G name) as [[e w']|] eqn:A; [|exact H]. cbn [busyb active] in H |- *.
    unfold busyb in *. cbn [active] in *. unfold enter in *. cbn [active] in *.
    destruct (peval h (mkenv w' None) false e n) as [r1|] eqn:E1; [|discriminate].
    destruct (in_dec act_dec (name, n) acts) as [I|I].
    { exfalso. unfold higher in Hh. rewrite Forall_forall in Hh. destruct (Hh _ I) as [_ K]. cbn [fst snd] in K.
      specialize (K eq_refl e w' h A ltac:(lia)). congruence. }
    destruct (peval_least _ _ _ _ _ _ E1) as (h0 & L0 & E0 & Least).
    assert (X : peval h0 (mkenv w' (Some ((name, n) :: acts))) false e n = Some r1).
    { apply IH; auto; [lia|]. apply Forall_cons; [|eapply higher_mono; [| |exact Hh]; lia].
      cbn [fst snd]. split; [lia|]. intros _ e2 w2 h2 A2 H2. assert (e2 = e) by congruence.
      assert (w2 = w') by congruence. subst. apply Least, H2. }
    apply (peval_mono _ h) in X; [|lia]. rewrite X. exact H.
Qed.

(** So a standard meaning is the meaning with left recursion failing, too. *)
Lemma eval_active wd rp e n r : (n <= length cs)%nat ->
  eval (mkenv wd None) rp e n r -> eval (mkenv wd (Some [])) rp e n r.
Proof.
  intros Hn H. apply eval_peval in H. destruct H as [h H]. apply (peval_eval h).
  apply standard_active; auto. constructor.
Qed.

(** The rule itself may be active already. *)
Lemma eval_active_rule wd e n r name : (n <= length cs)%nat -> assoc G name = Some (e, wd) ->
  eval (mkenv wd None) false e n r -> eval (mkenv wd (Some [(name, n)])) false e n r.
Proof.
  intros Hn A H. apply eval_peval in H. destruct H as [h H]. 
  destruct (peval_least _ _ _ _ _ _ H) as (h0 & L0 & E0 & Least). apply (peval_eval h0).
  apply standard_active; auto. apply Forall_cons; [|constructor].
  cbn [fst snd]. split; [lia|]. intros _ e2 w2 h2 A2 H2. assert (e2 = e) by congruence.
  assert (w2 = wd) by congruence. subst. apply Least, H2.
Qed.

(** ** With left recursion failing, every grammar has a meaning *)
Definition free (acts : list (list Z * nat)) (n : nat) : nat :=
  length (filter (fun x => negb (if in_dec act_dec (x, n) acts then true else false)) (map fst G)).

Lemma free_le acts n : (free acts n <= length G)%nat.
Proof.
  unfold free. rewrite <- (map_length fst G). generalize (map fst G). intros l.
  induction l as [|x l IH]; cbn; [lia|]. destruct (negb _); cbn; lia.
Qed.

Lemma assoc_in name x : assoc G name = Some x -> In name (map fst G).
Proof.
  generalize G. intros g. induction g as [|[n a] g IH]; cbn; [discriminate|].
  destruct (list_eq_dec Z.eq_dec n name); auto.
Qed.

Lemma free_enter acts name n : In name (map fst G) -> ~ In (name, n) acts ->
  (free ((name, n) :: acts) n < free acts n)%nat.
Proof.
  unfold free. generalize (map fst G). intros l I N.
  assert (W : forall l, (length (filter (fun x => negb (if in_dec act_dec (x, n) ((name, n) :: acts) then true else false)) l)
             <= length (filter (fun x => negb (if in_dec act_dec (x, n) acts then true else false)) l))%nat).
  { intros l0. induction l0 as [|x l0 IH]; cbn [filter]; [lia|].
    destruct (in_dec act_dec (x, n) ((name, n) :: acts)) as [A|A], (in_dec act_dec (x, n) acts) as [B|B];
      cbn [negb length]; try lia. exfalso. apply A. right. exact B. }
  induction l as [|x l IH]; [destruct I|]. cbn [filter].
  destruct (in_dec act_dec (x, n) ((name, n) :: acts)) as [A|A], (in_dec act_dec (x, n) acts) as [B|B]; cbn [negb length].
  - destruct I as [->|I]; [contradiction|]. apply IH, I.
  - specialize (W l). lia.
  - exfalso. apply A. right. exact B.
  - destruct I as [->|I]; [exfalso; apply A; left; reflexivity|]. specialize (IH I). lia.
Qed.

Lemma active_total k : forall acts n, ((length cs - n) * (length G + 1) + free acts n <= k)%nat ->
  (n <= length cs)%nat ->
  forall e wd rp, exists r, eval (mkenv wd (Some acts)) rp e n r.
Proof.
  induction k as [k IHk] using lt_wf_ind. intros acts n Hk Hn.
  assert (LATER : forall m e wd rp, (n < m <= length cs)%nat -> exists r, eval (mkenv wd (Some acts)) rp e m r).
  { intros m e wd rp Hm. pose proof (free_le acts m) as F.
    apply (IHk ((length cs - m) * (length G + 1) + free acts m)%nat); [|lia|lia].
    assert ((length cs - n) = S (length cs - n - 1))%nat by lia.
    assert (length cs - m <= length cs - n - 1)%nat by lia.
    assert ((length cs - m) * (length G + 1) <= (length cs - n - 1) * (length G + 1))%nat by (apply Nat.mul_le_mono_r; lia).
    rewrite H in Hk. cbn [Nat.mul] in Hk. lia. }
  assert (STAR : forall e wd rp m, (n < m <= length cs)%nat ->
            exists p l, eval (mkenv wd (Some acts)) rp (Star e) m (Some (p, l))).
  { intros e wd rp m Hm. destruct (LATER m (Star e) wd rp Hm) as [r E].
    pose proof E as E'. apply eval_peval in E'. destruct E' as [h E']. apply star_some in E'.
    destruct E' as (p & l & ->). eauto. }
  assert (BD : forall e wd rp m l, eval (mkenv wd (Some acts)) rp e n (Some (m, l)) -> (n <= m <= length cs)%nat).
  { intros. eapply eval_bounds; eauto. }
  induction e; intros wd rp; try (now eexists; econstructor).
  - destruct (IHe wd rp) as [[[m l]|] E]; eexists; [apply ev_opt_some|apply ev_opt_none]; eauto.
  - destruct (IHe wd true) as [[[m l]|] E]; [|eexists; apply ev_star_stop; eauto].
    pose proof (BD _ _ _ _ _ E). destruct (Nat.eq_dec m n) as [->|N]; [eexists; apply ev_star_empty; eauto|].
    destruct (STAR e wd rp m ltac:(lia)) as (p & l' & E'). eexists. eapply ev_star_more; eauto.
  - destruct (IHe wd true) as [[[m l]|] E]; [|eexists; apply ev_plus_fail; eauto].
    pose proof (BD _ _ _ _ _ E). destruct (Nat.eq_dec m n) as [->|N].
    + eexists. eapply ev_plus; [exact E|]. apply ev_star_empty. exact E.
    + destruct (STAR e wd rp m ltac:(lia)) as (p & l' & E'). eexists. eapply ev_plus; eauto.
  - destruct (IHe wd rp) as [r E]. eexists. apply ev_group; eauto.
  - destruct (IHe1 wd rp) as [[[m l]|] E]; [|eexists; apply ev_seq_fail1; eauto].
    pose proof (BD _ _ _ _ _ E).
    assert (X : exists r, eval (mkenv wd (Some acts)) rp e2 m r).
    { destruct (Nat.eq_dec m n) as [->|N]; [apply IHe2|apply LATER; lia]. }
    destruct X as [[[p l']|] E']; eexists; [eapply ev_seq|eapply ev_seq_fail2]; eauto.
  - destruct (IHe1 wd rp) as [[[m l]|] E]; [eexists; apply ev_or_first; eauto|].
    destruct (IHe2 wd rp) as [r E']. eexists. apply ev_or_second; eauto.
  - destruct (IHe wd rp) as [[[m l]|] E]; eexists; [eapply ev_ahead_some|apply ev_ahead_none]; eauto.
  - destruct (IHe wd rp) as [[[m l]|] E]; eexists; [eapply ev_not_some|apply ev_not_none]; eauto.
  - destruct (IHe wd rp) as [[[m l]|] E]; eexists; [eapply ev_label|apply ev_label_none]; eauto.
  - destruct (assoc G name) as [[e w']|] eqn:A; [|eexists; apply ev_call_unknown; auto].
    destruct (in_dec act_dec (name, n) acts) as [I|I].
    { eexists. eapply ev_call_busy; eauto. }
    assert (NB : ~ busy (mkenv wd (Some acts)) name n) by exact I.
    pose proof (free_enter acts name n (assoc_in _ _ A) I) as F.
    destruct (IHk ((length cs - n) * (length G + 1) + free ((name, n) :: acts) n)%nat ltac:(lia)
                ((name, n) :: acts) n ltac:(lia) Hn e w' false) as [[[m l]|] E];
      eexists; [eapply ev_call|eapply ev_call_none]; eauto.
Qed.

Lemma meaning_total acts n e wd rp : (n <= length cs)%nat -> exists r, eval (mkenv wd (Some acts)) rp e n r.
Proof. intros Hn. eapply active_total; eauto. Qed.

End Eval.
