From Verif Require Import Base ThreadModel.

Definition finb (s : tm) (t : nat) : bool :=
  match tobj s t with Some x => match th_phase x with Finished => true | _ => false end | None => false end.
Definition nfin (s : tm) : nat := length (filter (finb s) (tmap s)).

Definition TInv (s : tm) : Prop :=
  NoDup (tmap s) /\
  (forall t, In t (tmap s) -> tobj s t <> None) /\
  (forall t x, tobj s t = Some x -> (th_state x = TEnded <-> th_phase x = Finished)) /\
  ended s = Z.of_nat (nfin s).

Lemma finb_spec s t : finb s t = true <-> finished s t.
Proof.
  unfold finb, finished. destruct (tobj s t) as [x|]; [|split; [discriminate|intros (x & H & _); discriminate]].
  destruct (th_phase x) eqn:E; split; try discriminate; try (intros (y & H & H2); congruence); eauto.
Qed.

Lemma in_map_spec s t : in_map s t = true <-> In t (tmap s).
Proof.
  unfold in_map. rewrite existsb_exists. split.
  - intros (u & H & E). apply Nat.eqb_eq in E. subst. exact H.
  - intros H. exists t. rewrite Nat.eqb_refl. auto.
Qed.

Lemma erase_in t u l : In u (erase t l) <-> In u l /\ u <> t.
Proof.
  unfold erase. rewrite filter_In. split; intros [A B]; split; auto.
  - destruct (Nat.eqb_spec u t); [discriminate|assumption].
  - destruct (Nat.eqb_spec u t); [congruence|reflexivity].
Qed.
Lemma erase_nodup t l : NoDup l -> NoDup (erase t l).
Proof. apply NoDup_filter. Qed.

Lemma filter_ext_len {A} (f g : A -> bool) l : (forall x, In x l -> f x = g x) -> length (filter f l) = length (filter g l).
Proof.
  induction l as [|a l IH]; intros H; [reflexivity|]. cbn [filter]. rewrite (H a) by (left; reflexivity).
  destruct (g a); cbn [length]; rewrite IH; auto; intros x Hx; apply H; right; exact Hx.
Qed.

Lemma erase_filter (f : nat -> bool) t l : NoDup l -> In t l -> f t = true ->
  S (length (filter f (erase t l))) = length (filter f l).
Proof.
  induction l as [|a l IH]; intros N I F; [destruct I|]. inversion N as [|? ? N1 N2]; subst.
  unfold erase in *. cbn [filter]. destruct (Nat.eqb_spec a t) as [->|Na]; cbn [negb].
  - rewrite F. cbn [length]. f_equal. f_equal. f_equal.
    clear IH N I. induction l as [|b l IH]; [reflexivity|]. cbn [filter]. destruct (Nat.eqb_spec b t); cbn [negb].
    + subst. destruct N1. left; reflexivity.
    + rewrite IH; [reflexivity| |inversion N2; assumption]. intros H; apply N1; right; exact H.
  - destruct I as [->|I]; [congruence|]. cbn [filter]. destruct (f a); cbn [length]; rewrite <- (IH N2 I F); reflexivity.
Qed.

Lemma filter_one (f g : nat -> bool) t l : NoDup l -> (forall u, u <> t -> f u = g u) ->
  g t = false -> f t = true ->
  length (filter f l) = ((if existsb (Nat.eqb t) l then 1 else 0) + length (filter g l))%nat.
Proof.
  intros N E G F. induction l as [|a l IH]; [reflexivity|]. inversion N as [|? ? N1 N2]; subst. specialize (IH N2).
  cbn [filter existsb]. destruct (Nat.eqb_spec t a) as [<-|Na]; cbn [orb].
  - rewrite F, G. cbn [length]. rewrite IH.
    assert (X : existsb (Nat.eqb t) l = false).
    { destruct (existsb (Nat.eqb t) l) eqn:E2; [|reflexivity]. apply existsb_exists in E2 as (b & Hb & Eb).
      apply Nat.eqb_eq in Eb. subst. contradiction. }
    rewrite X. lia.
  - rewrite (E a) by congruence. destruct (g a); cbn [length]; rewrite IH; lia.
Qed.

Lemma tinv_erase s t : TInv s -> In t (tmap s) -> finb s t = true ->
  TInv {| tmap := erase t (tmap s); tobj := tobj s; ended := ended s - 1 |}.
Proof.
  intros (N & O & S & C) I F. unfold TInv; simpl. split; [apply erase_nodup; exact N|].
  split; [intros u Hu; apply erase_in in Hu as [Hu _]; auto|]. split; [exact S|].
  unfold nfin in *. simpl. assert (E := erase_filter (finb s) t (tmap s) N I F).
  change (finb {| tmap := erase t (tmap s); tobj := tobj s; ended := ended s - 1 |}) with (finb s). lia.
Qed.

Lemma tstep_inv s e s' r : TInv s -> clean e -> tstep s e = Ok (s', r) -> TInv s'.
Proof.
  intros I C H. assert (I0 := I). destruct I as (N & O & S & CN). destruct e as [t g|t|t|t|first|t|t]; cbn [tstep] in H.
  - destruct (tobj s t) eqn:E; [injection H as <- <-; exact I0|]. injection H as <- <-.
    assert (NI : ~ In t (tmap s)) by (intros X; exact (O t X E)).
    split; [|split; [|split]]; simpl.
    +
      rewrite <- (rev_involutive (tmap s ++ [t])). apply NoDup_rev. rewrite rev_app_distr. simpl. constructor.
      * rewrite <- in_rev. exact NI.
      * apply NoDup_rev. exact N.
    + intros u Hu. unfold tset. destruct (Nat.eqb_spec u t); [discriminate|]. apply O.
      apply in_app_or in Hu as [Hu|[Hu|[]]]; [exact Hu|congruence].
    + intros u x. unfold tset. destruct (Nat.eqb_spec u t) as [->|Nu]; [|apply S].
      intros Hx. injection Hx as <-. simpl. destruct g; simpl in C; split; try discriminate; contradiction.
    + rewrite CN. unfold nfin; simpl. rewrite filter_app, app_length. cbn [filter].
      match goal with |- context [if finb ?st t then _ else _] => assert (Z0 : finb st t = false) by (unfold finb; simpl; unfold tset; rewrite Nat.eqb_refl; reflexivity) end.
      rewrite Z0. cbn [length]. rewrite Nat.add_0_r.
      f_equal. apply filter_ext_len. intros u Hu. unfold finb; simpl. unfold tset. destruct (Nat.eqb_spec u t); [congruence|reflexivity].
  - destruct (tobj s t) as [x|] eqn:E; [|injection H as <- <-; exact I0].
    destruct (th_phase x) eqn:P; injection H as <- <-; try exact I0.
    split; [exact N|]. simpl. split; [|split].
    + intros u Hu. unfold tset. destruct (Nat.eqb_spec u t); [discriminate|apply O; exact Hu].
    + intros u y. unfold tset. destruct (Nat.eqb_spec u t) as [->|Nu]; [|apply S].
      intros Hx. injection Hx as <-. simpl. split; discriminate.
    + rewrite CN. unfold nfin; simpl. f_equal. apply filter_ext_len. intros u Hu. unfold finb; simpl. unfold tset.
      destruct (Nat.eqb_spec u t) as [->|Nu]; [|reflexivity]. rewrite E, P. reflexivity.
  - destruct C.
  - destruct (tobj s t) as [x|] eqn:E; [|injection H as <- <-; exact I0].
    destruct (th_phase x) eqn:P; injection H as <- <-; try exact I0.
    split; [exact N|]. simpl. split; [|split].
    + intros u Hu. unfold tset. destruct (Nat.eqb_spec u t); [discriminate|apply O; exact Hu].
    + intros u y. unfold tset. destruct (Nat.eqb_spec u t) as [->|Nu]; [|apply S].
      intros Hx. injection Hx as <-. simpl. tauto.
    + unfold nfin; simpl.
      rewrite (filter_one (finb (mark_ended s t Finished)) (finb s) t (tmap s) N).
      * unfold in_map. destruct (existsb (Nat.eqb t) (tmap s)); unfold nfin in CN; lia.
      * intros u Nu. unfold finb; simpl. unfold tset. destruct (Nat.eqb_spec u t); [congruence|reflexivity].
      * unfold finb. rewrite E, P. reflexivity.
      * unfold finb; simpl. unfold tset. rewrite Nat.eqb_refl. reflexivity.
  - unfold join_any in H. destruct (first && _); [injection H as <- <-; exact I0|].
    destruct (ended s =? 0); [injection H as <- <-; exact I0|].
    destruct (find (is_ended s) (tmap s)) as [t|] eqn:F; injection H as <- <-; [|exact I0].
    apply find_some in F as [F1 F2]. apply tinv_erase; [exact I0|exact F1|].
    unfold is_ended in F2. unfold finb. destruct (tobj s t) as [x|] eqn:E; [|discriminate].
    destruct (S t x E) as [S1 _]. destruct (th_state x); try discriminate. rewrite (S1 eq_refl). reflexivity.
  - destruct (tobj s t) as [x|] eqn:E; [|injection H as <- <-; exact I0].
    destruct (th_phase x) eqn:P; try (injection H as <- <-; exact I0).
    destruct (in_map s t) eqn:M; injection H as <- <-; [|exact I0]. apply in_map_spec in M.
    apply tinv_erase; [exact I0|exact M|]. unfold finb. rewrite E, P. reflexivity.
  - destruct (tobj s t) as [x|] eqn:E; [|injection H as <- <-; exact I0].
    unfold cassert in H. destruct (th_state x) eqn:P; try discriminate.
    destruct (in_map s t) eqn:M; injection H as <- <-; [|exact I0]. apply in_map_spec in M.
    apply tinv_erase; [exact I0|exact M|]. unfold finb. rewrite E. destruct (S t x E) as [S1 _]. rewrite (S1 P). reflexivity.
Qed.

Lemma trun_inv es : forall s s' rs, TInv s -> Forall clean es -> trun s es = Ok (s', rs) -> TInv s'.
Proof.
  induction es as [|e es IH]; intros s s' rs I F H; [injection H as <- <-; exact I|].
  inversion F as [|? ? F1 F2]; subst. cbn [trun] in H. apply obind_ok in H as ([s1 r] & E & H).
  apply obind_ok in H as ([s2 rs'] & E2 & H). injection H as <- <-. cbn [fst] in *.
  eapply IH; [|exact F2|exact E2]. eapply tstep_inv; eassumption.
Qed.

Lemma tinit_inv : TInv tinit.
Proof. split; [constructor|]. split; [intros t []|]. split; [intros t x H; discriminate|reflexivity]. Qed.

Lemma count_exact s : TInv s ->
  (ended s = 0 <-> forall t, In t (tmap s) -> ~ finished s t).
Proof.
  intros (N & O & S & C). rewrite C. unfold nfin. split.
  - intros H t Ht F. apply finb_spec in F. assert (X : In t (filter (finb s) (tmap s))) by (apply filter_In; auto).
    destruct (filter (finb s) (tmap s)); [destruct X|simpl in H; lia].
  - intros H. destruct (filter (finb s) (tmap s)) as [|t l] eqn:E; [reflexivity|exfalso].
    assert (X : In t (filter (finb s) (tmap s))) by (rewrite E; left; reflexivity).
    apply filter_In in X as [X1 X2]. apply finb_spec in X2. exact (H t X1 X2).
Qed.

Lemma join_any_spec s first s' r : TInv s -> (first = true -> (2 <= length (tmap s))%nat) ->
  join_any s first = (s', r) ->
  ((exists t, registered s t /\ finished s t) /\
     exists t, r = RGot t /\ registered s t /\ finished s t /\
       (forall u, registered s' u <-> registered s u /\ u <> t) /\ (forall u, tobj s' u = tobj s u)) \/
  ((forall t, registered s t -> ~ finished s t) /\ r = RWait /\ s' = s).
Proof.
  intros I L H. assert (CE := count_exact s I). destruct I as (N & O & S & C).
  unfold join_any in H. replace (first && (length (tmap s) <=? 1)%nat) with false in H.
  2:{ destruct first; [|reflexivity]. specialize (L eq_refl). destruct (Nat.leb_spec (length (tmap s)) 1); [lia|reflexivity]. }
  destruct (Z.eqb_spec (ended s) 0) as [E|E].
  - right. injection H as <- <-. split; [apply CE; exact E|auto].
  - left. destruct (find (is_ended s) (tmap s)) as [t|] eqn:F.
    + apply find_some in F as [F1 F2].
      assert (Ft : finished s t).
      { apply finb_spec. unfold is_ended in F2. unfold finb. destruct (tobj s t) as [x|] eqn:Ex; [|discriminate].
        destruct (S t x Ex) as [S1 _]. destruct (th_state x); try discriminate. rewrite (S1 eq_refl). reflexivity. }
      injection H as <- <-. split; [exists t; auto|]. exists t. split; [reflexivity|]. split; [exact F1|]. split; [exact Ft|].
      split; [|reflexivity]. intros u. unfold registered; simpl. apply erase_in.
    + exfalso. apply E. apply CE. intros t Ht (x & Ex & Px).
      assert (X := find_none _ _ F t Ht). unfold is_ended in X. rewrite Ex in X. destruct (S t x Ex) as [_ S2].
      rewrite (S2 Px) in X. discriminate.
Qed.

(** Ids are never registered twice: once collected, never returned again. *)
Lemma tstep_reg s e s' r t : tstep s e = Ok (s', r) -> tobj s t <> None -> tobj s' t <> None /\ (~ In t (tmap s) -> ~ In t (tmap s')).
Proof.
  intros H K.
  assert (TS : forall u x, tset s u x t <> None) by (intros u x; unfold tset; destruct (Nat.eqb t u); [discriminate|exact K]).
  assert (ER : forall u, ~ In t (tmap s) -> ~ In t (erase u (tmap s))) by (intros u A B; apply erase_in in B as [B _]; auto).
  destruct e as [u g|u|u|u|first|u|u]; cbn [tstep] in H.
  - destruct (tobj s u) eqn:E; injection H as <- <-; [auto|]. simpl. split; [apply TS|].
    intros A B. apply in_app_or in B as [B|[B|[]]]; [auto|]. subst. congruence.
  - destruct (tobj s u) as [x|]; [destruct (th_phase x)|]; injection H as <- <-; simpl; auto.
  - destruct (tobj s u) as [x|]; [destruct (th_phase x)|]; try destruct (in_map s u); injection H as <- <-; simpl; auto.
  - destruct (tobj s u) as [x|]; [destruct (th_phase x)|]; injection H as <- <-; simpl; auto.
  - unfold join_any in H. destruct (first && _); [injection H as <- <-; simpl; auto|].
    destruct (ended s =? 0); [injection H as <- <-; simpl; auto|].
    destruct (find (is_ended s) (tmap s)); injection H as <- <-; simpl; auto.
  - destruct (tobj s u) as [x|]; [destruct (th_phase x)|]; try destruct (in_map s u); injection H as <- <-; simpl; auto.
  - destruct (tobj s u) as [x|]; [|injection H as <- <-; simpl; auto]. unfold cassert in H.
    destruct (th_state x); try discriminate. destruct (in_map s u); injection H as <- <-; simpl; auto.
Qed.

Lemma trun_never es : forall s s' rs t, trun s es = Ok (s', rs) -> tobj s t <> None -> ~ In t (tmap s) -> ~ In (RGot t) rs.
Proof.
  induction es as [|e es IH]; intros s s' rs t H K N; [injection H as <- <-; intros []|].
  cbn [trun] in H. apply obind_ok in H as ([s1 r] & E & H). apply obind_ok in H as ([s2 rs'] & E2 & H).
  injection H as <- <-. cbn [fst snd] in *. destruct (tstep_reg s e s1 r t E K) as [K1 N1].
  intros [A|A]; [|exact (IH s1 s2 rs' t E2 K1 (N1 N) A)]. subst r.
  destruct e as [u g|u|u|u|first|u|u]; cbn [tstep] in E;
    try (destruct (tobj s u) as [x|]; try destruct (th_phase x); try destruct (in_map s u); inversion E; fail).
  - unfold join_any in E. destruct (first && _); [inversion E|]. destruct (ended s =? 0); [inversion E|].
    destruct (find (is_ended s) (tmap s)) as [v|] eqn:F; inversion E; subst. apply find_some in F as [F _]. contradiction.
  - destruct (tobj s u) as [x|]; [|inversion E]. unfold cassert in E. destruct (th_state x); try discriminate.
    destruct (in_map s u); inversion E.
Qed.

Lemma map_known es : forall s s' rs, (forall t, In t (tmap s) -> tobj s t <> None) -> trun s es = Ok (s', rs) ->
  forall t, In t (tmap s') -> tobj s' t <> None.
Proof.
  induction es as [|e es IH]; intros s s' rs K H; [injection H as <- <-; exact K|].
  cbn [trun] in H. apply obind_ok in H as ([s1 r] & E & H). apply obind_ok in H as ([s2 rs'] & E2 & H).
  injection H as <- <-. cbn [fst snd] in *. eapply IH; [|exact E2]. intros t Ht.
  destruct (tobj s t) eqn:Q; [exact (proj1 (tstep_reg s e s1 r t E ltac:(congruence)))|].
  assert (NI : ~ In t (tmap s)) by (intros X; exact (K t X Q)).
  destruct e as [u g|u|u|u|first|u|u]; cbn [tstep] in E.
  - destruct (tobj s u) eqn:Eu; injection E as <- <-; [contradiction|]. simpl in Ht.
    apply in_app_or in Ht as [Ht|[Ht|[]]]; [contradiction|]. subst. simpl. unfold tset. rewrite Nat.eqb_refl. discriminate.
  - destruct (tobj s u) as [x|]; [destruct (th_phase x)|]; injection E as <- <-; simpl in Ht; contradiction.
  - destruct (tobj s u) as [x|]; [destruct (th_phase x)|]; try destruct (in_map s u); injection E as <- <-; simpl in Ht; contradiction.
  - destruct (tobj s u) as [x|]; [destruct (th_phase x)|]; injection E as <- <-; simpl in Ht; contradiction.
  - unfold join_any in E. destruct (first && _); [injection E as <- <-; contradiction|].
    destruct (ended s =? 0); [injection E as <- <-; contradiction|].
    destruct (find (is_ended s) (tmap s)); injection E as <- <-; simpl in Ht; [apply erase_in in Ht as [Ht _]|]; contradiction.
  - destruct (tobj s u) as [x|]; [destruct (th_phase x)|]; try destruct (in_map s u); injection E as <- <-; simpl in Ht;
      try contradiction. apply erase_in in Ht as [Ht _]; contradiction.
  - destruct (tobj s u) as [x|]; [|injection E as <- <-; contradiction]. unfold cassert in E.
    destruct (th_state x); try discriminate. destruct (in_map s u); injection E as <- <-; simpl in Ht; [apply erase_in in Ht as [Ht _]|]; contradiction.
Qed.
