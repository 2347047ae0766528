(** Nested arrays: every operation does to the values what the specification says. *)
From Verif Require Import Base RefModel RefProofs NestModel NestSpec NestProofs NestEdit.

(** The array is [s'] with elements [l'] now; values outside are kept. *)
Definition Kept (h : heap) (R : list nat) (h' : heap) (s' : slice) (l' : list elem) : Prop :=
  Inv h' (owned (Arr s') ++ R) /\ elements h' s' = Some l' /\
  forall f e t, (incl (owned e) R \/ In e l') -> denote f h e = Some t -> denote f h' e = Some t.

Lemma mine_sized h R b x : Mine h R b x -> (b_num x <= length (b_cells x))%nat.
Proof. intros ((_ & _ & S) & L & _). exact (S b x L). Qed.
Lemma sub_in {A} (l : list A) m n a : In a (firstn m (skipn n l)) -> In a l.
Proof.
  intros H. rewrite <- (firstn_skipn n l). apply in_or_app. right. rewrite <- (firstn_skipn m (skipn n l)). apply in_or_app. left. exact H.
Qed.
Lemma kept_mine h R h' b x s' l' : Mine h' R b x -> frame b h h' -> s_body s' = Some b -> (s_off s' + s_len s' <= b_num x)%nat ->
  firstn (s_len s') (skipn (s_off s') (b_cells x)) = l' -> Kept h R h' s' l'.
Proof.
  intros M F B LE E. split; [|split].
  - rewrite (owned_arr _ _ B). apply M.
  - rewrite (elements_live h' s' b x B); [rewrite E; reflexivity|apply M|exact LE|eapply mine_sized; eauto].
  - intros f e t H. apply (mine_denote h h' R b x); auto. destruct H as [H|H]; [right; exact H|left]. rewrite <- E in H. eapply sub_in; eauto.
Qed.
Lemma kept_same h R s' l' : Inv h (owned (Arr s') ++ R) -> elements h s' = Some l' -> Kept h R h s' l'.
Proof. intros I E. split; [exact I|]. split; [exact E|]. auto. Qed.

Lemma elements_stays h h' s l : stays h h' -> (forall b, s_body s = Some b -> exists y, live h' b y) -> elements h s = Some l -> elements h' s = Some l.
Proof.
  intros S HL E. unfold elements in *. destruct (s_body s) as [b|]; [|exact E]. destruct (HL b eq_refl) as (y & L). destruct (S b y L) as (x & Lx & E1 & E2).
  unfold live in *. rewrite L. rewrite Lx in E. rewrite E1, E2. exact E.
Qed.
Lemma elements_frame h h' b s l : frame b h h' -> (forall c, s_body s = Some c -> c <> b /\ exists y, live h' c y) -> elements h s = Some l -> elements h' s = Some l.
Proof.
  intros S HL E. unfold elements in *. destruct (s_body s) as [c|]; [|exact E]. destruct (HL c eq_refl) as (N & y & L). destruct (S c y N L) as (x & Lx & E1 & E2).
  unfold live in *. rewrite L. rewrite Lx in E. rewrite E1, E2. exact E.
Qed.

(** The operand of [push] and [set] is copied first. *)
Lemma copy_start h R s l e : Inv h (owned (Arr s) ++ R) -> elements h s = Some l -> (forall c, In c (owned e) -> exists y, live h c y) ->
  exists h', copy h e = Ok h' /\ Inv h' (owned (Arr s) ++ owned e ++ R) /\ elements h' s = Some l /\ stays h h' /\ (good_start h s -> good_start h' s).
Proof.
  intros I E HL. destruct (copies_ok (owned e) h _ I HL) as (h' & E1 & I1 & S1 & K1 & K2 & _). exists h'. split; [exact E1|].
  split; [revert I1; apply inv_perm; intros c; rewrite !cnt_app; lia|]. split; [|split; [exact S1|]].
  - apply (elements_stays h); auto. intros b B. destruct (elements_body _ _ _ _ B E) as (x & L & _). eauto.
  - intros G b x B L RX. destruct (in_dec Nat.eq_dec b (owned e)) as [H|H].
    + exfalso. destruct I1 as [I1 _]. specialize (I1 b). unfold live in L. rewrite L, !cnt_app, (owned_arr _ _ B), cnt_cons in I1.
      destruct (Nat.eq_dec b b); [|contradiction]. apply cnt_in in H. lia.
    + destruct (elements_body _ _ _ _ B E) as (y & Ly & _). pose proof (K1 b y H Ly) as Ly'. rewrite (live_det _ _ _ _ L Ly') in RX. exact (G b y B Ly RX).
Qed.

Lemma push_ok h R s l e : Inv h (owned (Arr s) ++ R) -> elements h s = Some l -> good_start h s -> (forall c, In c (owned e) -> exists y, live h c y) ->
  exists h' s', push h s e = Ok (h', s') /\ Kept h R h' s' (l ++ [e]).
Proof.
  intros I E G HL. unfold push. destruct (copy_start h R s l e I E HL) as (h1 & E1 & I1 & EL1 & S1 & G1). rewrite E1. cbn [obind].
  destruct (unshare_ok h1 (owned e ++ R) s l 1 I1 EL1) as (h2 & b & x & s2 & E2 & M2 & F2 & B2 & L2 & EL2 & O2). rewrite E2. cbn [obind].
  specialize (O2 (G1 G)). destruct (elements_body _ _ _ _ B2 EL2) as (x' & L' & H1 & H2 & EQ).
  assert (x' = x) by (destruct M2 as (_ & L & _); eapply live_det; eauto). subst x'. rewrite O2, skipn_O in EQ.
  destruct (body_insert_ok h2 (owned e ++ R) b x (s_len s2) (s_len s2) [e] M2) as (h3 & l3 & E3 & M3 & F3 & N3 & V3); try lia.
  { intros a c [<-|[]] Hc. left. apply in_or_app. left. exact Hc. }
  rewrite E3. cbn [obind]. destruct (drop_mine _ _ _ _ _ M3) as (h4 & E4 & M4 & S4). rewrite E4. cbn [obind].
  eexists h4, _. split; [reflexivity|]. eapply kept_mine; [exact M4| | exact B2| |].
  - eapply frame_trans; [apply stays_frame, S1|]. eapply frame_trans; [exact F2|]. eapply frame_trans; [exact F3|]. apply stays_frame, S4.
  - cbn [s_off s_len b_num length]. lia.
  - cbn [s_off s_len b_cells]. rewrite O2, skipn_O. cbn [length] in V3. rewrite Nat.add_1_r in V3. rewrite V3.
    rewrite skipn_all2 by (rewrite firstn_length; lia). rewrite app_nil_r, <- EQ. reflexivity.
Qed.

Lemma upd_sub (l : list elem) n m i e : (i < m)%nat -> (n + m <= length l)%nat ->
  firstn m (skipn n (upd l (n + i) e)) = upd (firstn m (skipn n l)) i e.
Proof.
  intros H1 H2. apply nth_ext_eq. intros j. rewrite nth_firstn, nth_skipn, !nth_upd_any, nth_firstn, nth_skipn by (rewrite ?firstn_length, ?skipn_length; lia).
  destruct (Nat.ltb_spec j m), (Nat.eqb_spec (n + j) (n + i)), (Nat.eqb_spec j i); try lia; reflexivity.
Qed.

(** [elem_mut]: the array is alone on its storage, the cell is element [i]. *)
Lemma elem_mut_ok h R s l i : Inv h (owned (Arr s) ++ R) -> elements h s = Some l ->
  if (i <? length l)%nat then
    exists h' b x s', elem_mut h s i = Ok (h', s', b, (s_off s' + i)%nat) /\ Mine h' R b x /\ frame b h h' /\ s_body s' = Some b /\
      (i < s_len s')%nat /\ (s_off s' + s_len s' <= b_num x)%nat /\ (b_num x <= length (b_cells x))%nat /\ l = firstn (s_len s') (skipn (s_off s') (b_cells x))
  else elem_mut h s i = Abort.
Proof.
  intros I E. unfold elem_mut. destruct (elements_view _ _ _ E) as [_ LL]. rewrite LL. destruct (Nat.ltb_spec i (s_len s)) as [LT|]; [|reflexivity].
  destruct (s_body s) as [b0|] eqn:B; [|unfold elements in E; rewrite B in E; destruct (Nat.eqb_spec (s_len s) 0); [lia|discriminate]].
  cbn [andb cassert]. destruct (unshare_ok h R s l 0 I E) as (h2 & b & x & s2 & E2 & M2 & F2 & B2 & L2 & EL2 & _). rewrite E2. cbn [obind].
  destruct (elements_body _ _ _ _ B2 EL2) as (x' & L' & H1 & H2 & EQ).
  assert (x' = x) by (destruct M2 as (_ & L & _); eapply live_det; eauto). subst x'.
  exists h2, b, x, s2. split; [reflexivity|]. split; [exact M2|]. split; [exact F2|]. split; [exact B2|]. split; [lia|]. auto.
Qed.

Lemma set_ok h R s l i e : Inv h (owned (Arr s) ++ R) -> elements h s = Some l -> (forall c, In c (owned e) -> exists y, live h c y) ->
  if (i <? length l)%nat then exists h' s', set h s i e = Ok (h', s') /\ Kept h R h' s' (upd l i e) else set h s i e = Abort.
Proof.
  intros I E HL. unfold set. destruct (copy_start h R s l e I E HL) as (h1 & E1 & I1 & EL1 & S1 & _). rewrite E1. cbn [obind].
  pose proof (elem_mut_ok h1 _ s l i I1 EL1) as EM. destruct (i <? length l)%nat; [|rewrite EM; reflexivity].
  destruct EM as (h2 & b & x & s2 & E2 & M2 & F2 & B2 & H0 & H1 & H2 & EQ). rewrite E2. cbn [obind].
  destruct (assign_cell_ok h2 _ b x (s_off s2 + i) e M2) as (h3 & E3 & M3 & F3); [lia| |].
  { intros c Hc. apply (mine_root _ _ _ _ c M2). apply in_or_app. left. exact Hc. }
  rewrite E3. cbn [obind]. destruct (drop_mine _ _ _ _ _ M3) as (h4 & E4 & M4 & S4). rewrite E4. cbn [obind].
  eexists h4, s2. split; [reflexivity|]. eapply kept_mine; [exact M4| | exact B2| |].
  - eapply frame_trans; [apply stays_frame, S1|]. eapply frame_trans; [exact F2|]. eapply frame_trans; [exact F3|]. apply stays_frame, S4.
  - cbn [b_num]. lia.
  - cbn [b_cells]. rewrite EQ. apply upd_sub; lia.
Qed.

Lemma set_left_ok h R s l i e y : Inv h (owned (Arr s) ++ R) -> elements h s = Some l -> incl (owned e) R -> (forall h s, y h s = Ok e) ->
  if (i <? length l)%nat then exists h' s', set_left h s i y = Ok (h', s') /\ Kept h R h' s' (upd l i e) else set_left h s i y = Abort.
Proof.
  intros I E HL HY. unfold set_left.
  pose proof (elem_mut_ok h _ s l i I E) as EM. destruct (i <? length l)%nat; [|rewrite EM; reflexivity].
  destruct EM as (h2 & b & x & s2 & E2 & M2 & F2 & B2 & H0 & H1 & H2 & EQ). rewrite E2. cbn [obind]. rewrite HY. cbn [obind].
  destruct (assign_cell_ok h2 _ b x (s_off s2 + i) e M2) as (h3 & E3 & M3 & F3); [lia| |].
  { intros c Hc. apply (mine_root _ _ _ _ c M2). apply HL, Hc. }
  rewrite E3. cbn [obind].
  eexists h3, s2. split; [reflexivity|]. eapply kept_mine; [exact M3| | exact B2| |].
  - eapply frame_trans; [exact F2|exact F3].
  - cbn [b_num]. lia.
  - cbn [b_cells]. rewrite EQ. apply upd_sub; lia.
Qed.

Lemma set_num_elem_ok h R s l i z : Inv h (owned (Arr s) ++ R) -> elements h s = Some l ->
  match nth_error l i with
  | Some (Num _) => exists h' s', set_num_elem h s i z = Ok (h', s') /\ Kept h R h' s' (upd l i (Num z))
  | _ => set_num_elem h s i z = Abort
  end.
Proof.
  intros I E. unfold set_num_elem.
  pose proof (elem_mut_ok h _ s l i I E) as EM. destruct (Nat.ltb_spec i (length l)) as [LT|LT];
    [|rewrite EM; rewrite (nth_none l i LT); reflexivity].
  destruct EM as (h2 & b & x & s2 & E2 & M2 & F2 & B2 & H0 & H1 & H2 & EQ). rewrite E2. cbn [obind].
  unfold load. rewrite (get_live h2 b x) by apply M2. cbn [obind].
  assert (NE : nth_error l i = nth_error (b_cells x) (s_off s2 + i)).
  { rewrite EQ, nth_firstn, nth_skipn. destruct (Nat.ltb_spec i (s_len s2)); [reflexivity|lia]. }
  rewrite NE. destruct (nth_error (b_cells x) (s_off s2 + i)) as [old|] eqn:N; [|apply nth_error_None in N; lia]. cbn [obind].
  destruct old as [|z0|?]; try reflexivity.
  destruct (store_mine h2 R R b x (s_off s2 + i) (Num z0) (Num z) M2 N) as (h3 & E3 & M3 & F3); [reflexivity|].
  rewrite E3. cbn [obind]. eexists h3, s2. split; [reflexivity|]. eapply kept_mine; [exact M3| | exact B2| |].
  - eapply frame_trans; [exact F2|exact F3].
  - cbn [b_num]. lia.
  - cbn [b_cells]. rewrite EQ. apply upd_sub; lia.
Qed.

Lemma opt_eqb_eq a b : opt_eqb a b = true -> a = b.
Proof. destruct a, b; cbn; try discriminate; [|reflexivity]. intros H. apply Nat.eqb_eq in H. congruence. Qed.
Lemma owned_body s s' : s_body s = s_body s' -> owned (Arr s) = owned (Arr s').
Proof. destruct s as [[?|] ? ?], s' as [[?|] ? ?]; cbn; congruence. Qed.

(** Neighbours in the same storage. *)
Lemma join_ok h s t l m u : elements h s = Some l -> elements h t = Some m -> s_body s = s_body t -> (s_off s + s_len s = s_off t)%nat ->
  s_body u = s_body s -> s_off u = s_off s -> s_len u = (s_len s + s_len t)%nat -> elements h u = Some (l ++ m).
Proof.
  intros E E' B O BU OU LU. destruct (s_body s) as [b|] eqn:BS.
  - destruct (elements_body _ _ _ _ BS E) as (x & L & H1 & H2 & ->). destruct (elements_body h t b m (eq_sym B) E') as (x' & L' & H3 & H4 & ->).
    rewrite (live_det _ _ _ _ L' L) in *. rewrite (elements_live h u b x BU L) by lia. f_equal. rewrite OU, LU, <- O.
    apply nth_ext_eq. intros j. rewrite nth_app, !nth_firstn, !nth_skipn, firstn_length, skipn_length.
    replace (Nat.min (s_len s) (length (b_cells x) - s_off s)) with (s_len s) by lia.
    destruct (Nat.ltb_spec j (s_len s)), (Nat.ltb_spec j (s_len s + s_len t)); try lia; try reflexivity;
      (destruct (Nat.ltb_spec (j - s_len s) (s_len t)); try lia); [|reflexivity]. f_equal. lia.
  - unfold elements in *. rewrite BS in E. rewrite <- B in E'. rewrite BU, LU. destruct (Nat.eqb_spec (s_len s) 0) as [->|]; [|discriminate].
    destruct (Nat.eqb_spec (s_len t) 0) as [->|]; [|discriminate]. injection E as <-. injection E' as <-. reflexivity.
Qed.

Lemma insert_ok h R s l pos t m : Inv h (owned (Arr s) ++ R) -> elements h s = Some l -> elements h t = Some m -> incl (owned (Arr t)) R ->
  good_start h s -> (pos <= length l)%nat ->
  exists h' s', insert h s pos t = Ok (h', s') /\ Inv h' (owned (Arr s') ++ R) /\ elements h' s' = Some (firstn pos l ++ m ++ skipn pos l) /\
    (forall f e u, (incl (owned e) R \/ In e (firstn pos l ++ m ++ skipn pos l)) -> denote f h e = Some u -> denote f h' e = Some u).
Proof.
  intros I E E' HT G LP. destruct (elements_view _ _ _ E) as [_ LL]. destruct (elements_view _ _ _ E') as [_ LM].
  assert (KS : forall h' s', Kept h R h' s' (firstn pos l ++ m ++ skipn pos l) -> Inv h' (owned (Arr s') ++ R) /\ elements h' s' = Some (firstn pos l ++ m ++ skipn pos l) /\
    (forall f e u, (incl (owned e) R \/ In e (firstn pos l ++ m ++ skipn pos l)) -> denote f h e = Some u -> denote f h' e = Some u)) by (intros ? ? K; exact K).
  unfold insert.
  destruct (opt_eqb (s_body s) (s_body t) && Nat.eqb pos (s_len s) && Nat.eqb (s_off s + pos) (s_off t)) eqn:C1.
  { apply andb_true_iff in C1. destruct C1 as [C1 C3]. apply andb_true_iff in C1. destruct C1 as [C1 C2]. apply opt_eqb_eq in C1. apply Nat.eqb_eq in C2, C3.
    eexists h, _. split; [reflexivity|]. apply KS, kept_same.
    - rewrite (owned_body _ s) by reflexivity. exact I.
    - rewrite firstn_all2, skipn_all2, app_nil_r by lia. eapply (join_ok h s t); eauto. lia. }
  destruct (opt_eqb (s_body s) (s_body t) && Nat.eqb pos 0 && Nat.eqb (s_off t + s_len t) (s_off s)) eqn:C2.
  { apply andb_true_iff in C2. destruct C2 as [C2 C4]. apply andb_true_iff in C2. destruct C2 as [C2 C3]. apply opt_eqb_eq in C2. apply Nat.eqb_eq in C3, C4.
    eexists h, _. split; [reflexivity|]. apply KS, kept_same.
    - rewrite (owned_body _ s) by reflexivity. exact I.
    - subst pos. cbn [firstn skipn app]. eapply (join_ok h t s); eauto; cbn [s_body s_off s_len]; lia. }
  destruct (unshare_ok h R s l (s_len t) I E) as (h2 & b & x & s2 & E2 & M2 & F2 & B2 & L2 & EL2 & O2). rewrite E2. cbn [obind]. specialize (O2 G).
  assert (TB : forall c, s_body t = Some c -> c <> b /\ exists y, live h2 c y).
  { intros c Hc. apply (mine_root _ _ _ _ c M2). apply HT. rewrite (owned_arr _ _ Hc). left. reflexivity. }
  pose proof (elements_frame h h2 b t m F2 TB E') as ET2. rewrite (proj1 (elements_view _ _ _ ET2)). cbn [obind].
  destruct (elements_body _ _ _ _ B2 EL2) as (x' & L' & H1 & H2 & EQ).
  assert (x' = x) by (destruct M2 as (_ & L & _); eapply live_det; eauto). subst x'. rewrite O2, skipn_O in EQ.
  destruct (body_insert_ok h2 R b x pos (s_len s2) m M2) as (h3 & l3 & E3 & M3 & F3 & N3 & V3); try lia.
  { intros a c Ha Hc. destruct (s_body t) as [q|] eqn:BT; [|unfold elements in E'; rewrite BT in E'; destruct (Nat.eqb (s_len t) 0); [|discriminate]; injection E' as <-; contradiction].
    destruct (TB q eq_refl) as (_ & y & Ly). right. exists q, y. split; [apply HT; rewrite (owned_arr _ _ BT); left; reflexivity|]. split; [exact Ly|].
    eapply owned_kids; [|exact Hc]. eapply elements_in; eauto. }
  rewrite E3. cbn [obind]. eexists h3, _. split; [reflexivity|]. apply KS. eapply kept_mine; [exact M3| | exact B2| |].
  - eapply frame_trans; [exact F2|exact F3].
  - cbn [s_off s_len b_num]. lia.
  - cbn [s_off s_len b_cells]. rewrite O2, skipn_O, <- LM, V3. f_equal. { rewrite EQ, firstn_firstn. f_equal. lia. } f_equal. rewrite EQ. reflexivity.
Qed.

Lemma remove_ok h R s l pos n : Inv h (owned (Arr s) ++ R) -> elements h s = Some l ->
  (pos = 0%nat \/ (pos + n = length l)%nat \/ good_start h s) ->
  if (pos + n <=? length l)%nat then exists h' s', remove h s pos n = Ok (h', s') /\ Kept h R h' s' (firstn pos l ++ skipn (pos + n) l)
  else remove h s pos n = Abort.
Proof.
  intros I E G. destruct (elements_view _ _ _ E) as [_ LL]. unfold remove. rewrite LL in *. destruct (Nat.leb_spec (pos + n) (s_len s)) as [LE|]; [|reflexivity]. cbn [cassert].
  assert (SUB : forall u k, s_body u = s_body s -> s_off u = (s_off s + k)%nat -> (k + s_len u <= s_len s)%nat ->
    elements h u = Some (firstn (s_len u) (skipn k l))).
  { intros u k BU OU LU. destruct (s_body s) as [b|] eqn:B.
    - destruct (elements_body _ _ _ _ B E) as (x & L & H1 & H2 & ->). rewrite (elements_live h u b x BU L) by lia. f_equal. rewrite OU.
      apply nth_ext_eq. intros j. rewrite !nth_firstn, !nth_skipn, nth_firstn, nth_skipn. destruct (Nat.ltb_spec j (s_len u)); [|reflexivity].
      destruct (Nat.ltb_spec (k + j) (s_len s)); [|lia]. f_equal. lia.
    - unfold elements in *. rewrite B in E. rewrite BU. destruct (Nat.eqb_spec (s_len s) 0); [|discriminate]. injection E as <-. rewrite (proj2 (Nat.eqb_eq _ _)) by lia.
      f_equal. replace (s_len u) with 0%nat by lia. reflexivity. }
  assert (OW : forall u, s_body u = s_body s -> Inv h (owned (Arr u) ++ R)) by (intros u BU; rewrite (owned_body u s BU); exact I).
  destruct (Nat.eqb pos (s_len s) || Nat.eqb n 0) eqn:C1.
  { assert (n = 0%nat) by (apply orb_true_iff in C1; destruct C1 as [C|C]; apply Nat.eqb_eq in C; lia). subst n. rewrite Nat.add_0_r, firstn_skipn.
    eexists h, s. split; [reflexivity|]. apply kept_same; auto. }
  apply orb_false_iff in C1. destruct C1 as [C1 C2]. apply Nat.eqb_neq in C1, C2.
  destruct (Nat.eqb_spec (pos + n) (s_len s)) as [C3|C3].
  { eexists h, _. split; [reflexivity|]. apply kept_same; [apply OW; reflexivity|]. rewrite (SUB _ 0%nat); cbn [s_body s_off s_len]; try lia; try reflexivity.
    rewrite skipn_O, (skipn_all2 l) by lia. rewrite app_nil_r. do 2 f_equal. lia. }
  destruct (Nat.eqb_spec pos 0) as [C4|C4].
  { eexists h, _. split; [reflexivity|]. apply kept_same; [apply OW; reflexivity|]. rewrite (SUB _ n); cbn [s_body s_off s_len]; try lia; try reflexivity.
    subst pos. cbn [firstn app Nat.add]. rewrite firstn_all2; [reflexivity|]. rewrite skipn_length. lia. }
  destruct G as [G|[G|G]]; [contradiction|contradiction|].
  destruct (unshare_ok h R s l 0 I E) as (h2 & b & x & s2 & E2 & M2 & F2 & B2 & L2 & EL2 & O2). rewrite E2. cbn [obind]. specialize (O2 G).
  destruct (elements_body _ _ _ _ B2 EL2) as (x' & L' & H1 & H2 & EQ).
  assert (x' = x) by (destruct M2 as (_ & L & _); eapply live_det; eauto). subst x'. rewrite O2, skipn_O in EQ.
  destruct (body_remove_ok h2 R b x pos n (s_len s2) M2) as (h3 & l3 & E3 & M3 & F3 & N3 & V3); try lia.
  rewrite E3. cbn [obind]. eexists h3, _. split; [reflexivity|]. eapply kept_mine; [exact M3| | exact B2| |].
  - eapply frame_trans; [exact F2|exact F3].
  - cbn [s_off s_len b_num]. lia.
  - cbn [s_off s_len b_cells]. rewrite O2, skipn_O, V3. f_equal; [|rewrite EQ; reflexivity]. rewrite EQ, firstn_firstn. f_equal. lia.
Qed.

Lemma cut_ok h R s l pos n : Inv h (owned (Arr s) ++ R) -> elements h s = Some l ->
  (exists h' s', cut h s pos n = Ok (h', s') /\ Inv h' (owned (Arr s') ++ owned (Arr s) ++ R) /\ elements h' s' = Some (firstn n (skipn pos l)) /\ stays h h') \/
  cut h s pos n = Abort.
Proof.
  intros I E. destruct (elements_view _ _ _ E) as [_ LL]. unfold cut. destruct ((s_len s <=? pos)%nat || Nat.eqb n 0) eqn:C.
  - left. eexists h, _. split; [reflexivity|]. split; [exact I|]. split; [|apply stays_refl]. cbn. f_equal. apply orb_true_iff in C. destruct C as [C|C].
    + apply Nat.leb_le in C. rewrite skipn_all2 by lia. rewrite firstn_nil. reflexivity.
    + apply Nat.eqb_eq in C. subst n. reflexivity.
  - apply orb_false_iff in C. destruct C as [C1 C2]. apply Nat.leb_gt in C1. apply Nat.eqb_neq in C2.
    destruct (s_body s) as [b|] eqn:B; [|unfold elements in E; rewrite B in E; destruct (Nat.eqb_spec (s_len s) 0); [lia|discriminate]].
    destruct (elements_body _ _ _ _ B E) as (x & L & H1 & H2 & EQ). rewrite (get_live _ _ _ L). cbn [obind].
    destruct (s_off s + pos + min n (s_len s - pos) <? b_num x)%nat; [|right; reflexivity]. left. cbn [cassert].
    destruct (add_ref_ok h _ b x I L) as (h1 & E1 & I1 & S1 & L1 & _). rewrite E1. cbn [obind]. eexists h1, _. split; [reflexivity|].
    split; [exact I1|]. split; [|exact S1]. rewrite (elements_live h1 (mkslice (Some b) (s_off s + pos) (min n (s_len s - pos))) b _ eq_refl L1); cbn [s_off s_len b_num b_cells]; try lia. f_equal. rewrite EQ.
    apply nth_ext_eq. intros j. rewrite !nth_firstn, !nth_skipn, nth_firstn, nth_skipn.
    destruct (Nat.ltb_spec j (min n (s_len s - pos))), (Nat.ltb_spec j n), (Nat.ltb_spec (pos + j) (s_len s)); try lia; try reflexivity. f_equal. lia.
Qed.

(** ** States *)
Definition vals (f : nat) (h : heap) : list elem -> list tree -> Prop := Forall2 (fun v t => denote f h v = Some t).
Lemma vals_mono f f' h l r : (f <= f')%nat -> vals f h l r -> vals f' h l r.
Proof. intros H. apply F2_impl. intros a b _. apply denote_mono. exact H. Qed.

Definition oowned (o : option elem) : list nat := match o with Some v => owned v | None => [] end.
Definition var_roots (vs : list (option elem)) : list nat := flat_map oowned vs.
Lemma var_roots_upd vs x o o' c : nth_error vs x = Some o ->
  (cnt c (var_roots (upd vs x o')) + cnt c (oowned o) = cnt c (var_roots vs) + cnt c (oowned o'))%nat.
Proof.
  revert x. induction vs as [|y vs IH]; intros [|x] H; cbn in H; try discriminate.
  - injection H as ->. cbn [upd var_roots flat_map]. rewrite !cnt_app. lia.
  - cbn [upd var_roots flat_map]. rewrite !cnt_app. specialize (IH x H). unfold var_roots in IH. lia.
Qed.
Lemma var_roots_in vs x v : nth_error vs x = Some (Some v) -> incl (owned v) (var_roots vs).
Proof. intros H b Hb. unfold var_roots. apply in_flat_map. exists (Some v). split; [eapply nth_error_In; eauto|exact Hb]. Qed.
Lemma roots_without vs x y w : y <> x -> nth_error vs y = Some (Some w) -> incl (owned w) (var_roots (upd vs x None)).
Proof. intros N Y. apply (var_roots_in (upd vs x None) y). rewrite nth_upd_ne by congruence. exact Y. Qed.
Lemma roots_split vs x v c : nth_error vs x = Some (Some v) ->
  cnt c (var_roots vs) = (cnt c (owned v) + cnt c (var_roots (upd vs x None)))%nat.
Proof. intros H. pose proof (var_roots_upd vs x (Some v) None c H) as Q. cbn [oowned] in Q. change (cnt c []) with 0%nat in Q. lia. Qed.
Lemma roots_put vs x o w c : nth_error vs x = Some o ->
  cnt c (var_roots (upd vs x (Some w))) = (cnt c (owned w) + cnt c (var_roots (upd vs x None)))%nat.
Proof.
  intros H. pose proof (var_roots_upd vs x o None c H) as Q. pose proof (var_roots_upd vs x o (Some w) c H) as Q'.
  cbn [oowned] in *. change (cnt c []) with 0%nat in *. lia.
Qed.

Definition SInv (st : state) : Prop := Inv (st_heap st) (var_roots (st_vars st)).

Lemma var_ok st e x : shows st e ->
  match e x with
  | Some t => exists v f, nth_error (st_vars st) x = Some (Some v) /\ var st x = Ok v /\ denote f (st_heap st) v = Some t
  | None => var st x = Abort
  end.
Proof.
  intros S. specialize (S x). unfold var. destruct (nth_error (st_vars st) x) as [[v|]|] eqn:E.
  - destruct S as (t & -> & f & D). exists v, f. auto.
  - rewrite S. reflexivity.
  - rewrite S. reflexivity.
Qed.
Lemma vars_ok st e xs : shows st e ->
  match all_some (map e xs) with
  | Some ts => exists vs f, vars st xs = Ok vs /\ vals f (st_heap st) vs ts /\ forall v, In v vs -> incl (owned v) (var_roots (st_vars st))
  | None => vars st xs = Abort
  end.
Proof.
  intros S. induction xs as [|x xs IH]; cbn [map all_some vars].
  - exists [], 0%nat. split; [reflexivity|]. split; [constructor|contradiction].
  - pose proof (var_ok st e x S) as V. destruct (e x) as [t|].
    + destruct V as (v & f & N & V & D). rewrite V. cbn [obind]. destruct (all_some (map e xs)) as [ts|].
      * destruct IH as (vs & f' & E & W & J). rewrite E. cbn [obind]. exists (v :: vs), (max f f'). split; [reflexivity|]. split.
        -- constructor; [apply (denote_mono f); [lia|exact D]|apply (vals_mono f'); [lia|exact W]].
        -- intros u [<-|Hu]; [eapply var_roots_in; eauto|apply J, Hu].
      * rewrite IH. reflexivity.
    + rewrite V. reflexivity.
Qed.

Lemma put_ok st e x h' o t : shows st e -> (x < length (st_vars st))%nat ->
  (forall y v, y <> x -> nth_error (st_vars st) y = Some (Some v) -> forall u, means (st_heap st) v u -> means h' v u) ->
  match o with Some v => exists u, t = Some u /\ means h' v u | None => t = None end ->
  shows (mkstate h' (upd (st_vars st) x o)) (put e x t).
Proof.
  intros S L K H y. cbn [st_vars st_heap]. rewrite nth_upd_any by exact L. unfold put. destruct (Nat.eqb_spec y x) as [->|N].
  - destruct o; exact H.
  - specialize (S y). destruct (nth_error (st_vars st) y) as [[v|]|] eqn:E; [|exact S|exact S].
    destruct S as (u & Ey & M). exists u. split; [exact Ey|]. eapply K; eauto.
Qed.

Lemma node_inv f h s ts : denote f h (Arr s) = Some (Node ts) -> exists f' l, elements h s = Some l /\ vals f' h l ts.
Proof.
  destruct f as [|f]; [discriminate|]. cbn [denote]. destruct (elements h s) as [l|]; [|discriminate].
  destruct (all_some (map (denote f h) l)) as [r|] eqn:A; [|discriminate]. intros E. exists f, l. split; [reflexivity|]. injection E as <-. apply all_some_F2, A.
Qed.
Lemma node_means f h s l ts : elements h s = Some l -> vals f h l ts -> means h (Arr s) (Node ts).
Proof. intros E V. exists (S f). cbn [denote]. rewrite E. apply all_some_F2 in V. rewrite V. reflexivity. Qed.

(** A variable that is an array, and one that is not. *)
Lemma list_of_ok st e x : shows st e ->
  match list_of e x with
  | Some ts => exists s f l, nth_error (st_vars st) x = Some (Some (Arr s)) /\ var st x = Ok (Arr s) /\ elements (st_heap st) s = Some l /\ vals f (st_heap st) l ts
  | None => (do v <- var st x; arr v) = Abort
  end.
Proof.
  intros S. pose proof (var_ok st e x S) as V. unfold list_of. destruct (e x) as [t|]; [|rewrite V; reflexivity].
  destruct V as (v & f & N & V & D). destruct v as [|z|s].
  - destruct f; [discriminate|]. cbn in D. injection D as <-. rewrite V. reflexivity.
  - destruct f; [discriminate|]. cbn in D. injection D as <-. rewrite V. reflexivity.
  - destruct t as [|z|ts]; try (destruct f; [discriminate|]; cbn in D; destruct (elements (st_heap st) s); [|discriminate]; destruct (all_some _); discriminate).
    destruct (node_inv _ _ _ _ D) as (f' & l & E & W). exists s, f', l. auto.
Qed.

Lemma on_array_ok st e x k F : SInv st -> shows st e ->
  (forall s l f ts, nth_error (st_vars st) x = Some (Some (Arr s)) -> list_of e x = Some ts ->
     Inv (st_heap st) (owned (Arr s) ++ var_roots (upd (st_vars st) x None)) -> elements (st_heap st) s = Some l -> vals f (st_heap st) l ts ->
     match F ts with
     | Some ts' => exists h' s' l' f', k s = Ok (h', s') /\ Kept (st_heap st) (var_roots (upd (st_vars st) x None)) h' s' l' /\ vals f' (st_heap st) l' ts'
     | None => k s = Abort
     end) ->
  match bind (list_of e x) (fun l => bind (F l) (fun l' => Some (put e x (Some (Node l'))))) with
  | Some e' => exists st', on_array st x k = Ok st' /\ shows st' e' /\ SInv st' /\ length (st_vars st') = length (st_vars st)
  | None => on_array st x k = Abort
  end.
Proof.
  intros I S H. unfold on_array. pose proof (list_of_ok st e x S) as V. destruct (list_of e x) as [ts|] eqn:LO; cbn [bind].
  - destruct V as (s & f & l & N & V & E & W). rewrite V. cbn [obind arr].
    assert (I0 : Inv (st_heap st) (owned (Arr s) ++ var_roots (upd (st_vars st) x None))).
    { revert I. apply inv_perm. intros c. rewrite cnt_app, (roots_split _ _ _ c N). lia. }
    specialize (H s l f ts N eq_refl I0 E W). destruct (F ts) as [ts'|]; cbn [bind]; [|rewrite H; reflexivity].
    destruct H as (h' & s' & l' & f' & EK & (I' & E' & K) & W'). rewrite EK. cbn [obind fst snd]. eexists. split; [reflexivity|]. split; [|split].
    + apply put_ok; auto.
      * apply nth_error_Some. congruence.
      * intros y v Ny Hy u [g D]. exists g. apply K; [|exact D]. left. eapply roots_without; eauto.
      * exists (Node ts'). split; [reflexivity|]. apply (node_means f' h' s' l'); [exact E'|]. revert W'. apply F2_impl. intros a b Ha. apply K. right. exact Ha.
    + unfold SInv. cbn [st_heap st_vars]. revert I'. apply inv_perm. intros c. rewrite (roots_put _ _ _ (Arr s') c N), cnt_app. reflexivity.
    + cbn [st_vars]. apply upd_length.
  - destruct (var st x) as [v| |] eqn:Q; cbn [obind] in V |- *; [|reflexivity|discriminate V]. destruct v; cbn [arr obind] in *; try reflexivity. discriminate V.
Qed.

Lemma stays_means st h' roots v u : Inv h' roots -> stays (st_heap st) h' -> incl (owned v) roots -> means (st_heap st) v u -> means h' v u.
Proof.
  intros I S H [f D]. exists f. apply (denote_stays (st_heap st) h' roots I S); [|exact D]. intros c Hc. apply (inv_root h' roots c I), H, Hc.
Qed.
Lemma F2_nth {A B} (P : A -> B -> Prop) l r i b : Forall2 P l r -> nth_error r i = Some b -> exists a, nth_error l i = Some a /\ P a b.
Proof. intros F. revert i. induction F as [|a b0 l r Hab F IH]; intros [|i] H; cbn in *; try discriminate; [injection H as <-; eauto|apply IH, H]. Qed.
Lemma F2_firstn {A B} (P : A -> B -> Prop) l r n : Forall2 P l r -> Forall2 P (firstn n l) (firstn n r).
Proof. intros F. revert n. induction F; intros [|n]; cbn; constructor; auto. Qed.
Lemma F2_skipn {A B} (P : A -> B -> Prop) l r n : Forall2 P l r -> Forall2 P (skipn n l) (skipn n r).
Proof. intros F. revert n. induction F; intros [|n]; cbn; auto. Qed.
Lemma F2_upd {A B} (P : A -> B -> Prop) l r i a b : Forall2 P l r -> (i < length r)%nat -> P a b -> Forall2 P (upd l i a) (firstn i r ++ b :: skipn (S i) r).
Proof.
  intros F. revert i. induction F as [|x y l r Hxy F IH]; intros [|i] H Hab; cbn [length] in H; try lia; cbn [upd firstn skipn app]; constructor; auto.
  apply IH; [lia|exact Hab].
Qed.

Lemma construct_ok st e i : SInv st -> shows st e ->
  match expected e i with
  | Some t => (exists h' v, construct st i = Ok (h', v) /\ Inv h' (owned v ++ var_roots (st_vars st)) /\
                (forall w u, incl (owned w) (var_roots (st_vars st)) -> means (st_heap st) w u -> means h' w u) /\ means h' v t) \/
              ((exists y pos n, i = ISlice y pos n) /\ construct st i = Abort)
  | None => construct st i = Abort
  end.
Proof.
  intros I S. destruct i as [|z| |ys|y|y i|y pos n]; cbn [expected construct].
  - left. exists (st_heap st), Nil. split; [reflexivity|]. split; [exact I|]. split; [auto|]. exists 1%nat. reflexivity.
  - left. exists (st_heap st), (Num z). split; [reflexivity|]. split; [exact I|]. split; [auto|]. exists 1%nat. reflexivity.
  - left. eexists (st_heap st), _. split; [reflexivity|]. split; [exact I|]. split; [auto|]. exists 1%nat. reflexivity.
  - pose proof (vars_ok st e ys S) as V. destruct (all_some (map e ys)) as [ts|]; cbn [bind]; [|rewrite V; reflexivity]. left.
    destruct V as (vs & f & V & W & J). rewrite V. cbn [obind].
    destruct (copies_ok (flat_map owned vs) (st_heap st) _ I) as (h1 & E1 & I1 & S1 & _ & _ & _).
    { intros b Hb. apply in_flat_map in Hb. destruct Hb as (v & Hv & Hb). apply (inv_root _ _ b I), (J v Hv), Hb. }
    rewrite E1. cbn [obind]. destruct (new_body_ok h1 _ (length vs) vs I1) as (M2 & F2 & _).
    destruct (new_body h1 (length vs) vs) as [h2 b] eqn:NB. cbn [fst snd] in *. eexists h2, _. split; [reflexivity|].
    assert (FR : frame b (st_heap st) h2) by (eapply frame_trans; [apply stays_frame, S1|exact F2]).
    set (s := mkslice (Some b) 0 (length vs)).
    assert (K : Kept (st_heap st) (var_roots (st_vars st)) h2 s vs).
    { eapply kept_mine; [exact M2|exact FR|reflexivity|cbn; lia|]. cbn [s s_len s_off b_cells]. rewrite skipn_O, padded_firstn, firstn_all by lia. reflexivity. }
    destruct K as (I2 & E2 & K2). split; [exact I2|]. split.
    + intros w u Hw [g D]. exists g. apply K2; auto.
    + apply (node_means f h2 s vs); [exact E2|]. revert W. apply F2_impl. intros a t Ha. apply K2. right. exact Ha.
  - pose proof (var_ok st e y S) as V. destruct (e y) as [t|]; [|rewrite V; reflexivity]. left. destruct V as (v & f & N & V & D). rewrite V. cbn [obind].
    destruct (copies_ok (owned v) (st_heap st) _ I) as (h1 & E1 & I1 & S1 & _ & _ & _).
    { intros b Hb. apply (inv_root _ _ b I), (var_roots_in _ _ _ N), Hb. }
    unfold copy. rewrite E1. cbn [obind]. exists h1, v. split; [reflexivity|]. split; [exact I1|]. split.
    + intros w u Hw. apply (stays_means st h1 _ w u I1 S1). apply incl_appr, Hw.
    + apply (stays_means st h1 _ v t I1 S1); [apply incl_appl, incl_refl|exists f; exact D].
  - pose proof (list_of_ok st e y S) as V. destruct (list_of e y) as [ts|]; cbn [bind].
    + destruct V as (s & f & l & N & V & E & W). rewrite V. cbn [obind arr]. unfold element. destruct (elements_view _ _ _ E) as [VW LL].
      pose proof (F2_length _ _ _ W) as LE. destruct (nth_error ts i) as [t|] eqn:NT.
      * left. assert (i < length ts)%nat by (apply nth_error_Some; congruence). rewrite (proj2 (Nat.ltb_lt i (s_len s))) by lia. cbn [cassert].
        rewrite VW. cbn [obind]. destruct (F2_nth _ _ _ _ _ W NT) as (a & NA & D). rewrite NA. cbn [obind].
        destruct (copies_ok (owned a) (st_heap st) _ I) as (h1 & E1 & I1 & S1 & _ & _ & _).
        { intros b Hb. destruct (s_body s) as [q|] eqn:B; [|unfold elements in E; rewrite B in E; destruct (Nat.eqb (s_len s) 0); [|discriminate]; injection E as <-; destruct i; discriminate].
          destruct (elements_body _ _ _ _ B E) as (x & L & _). eapply inv_kid; [exact I|exact L|]. eapply owned_kids; [|exact Hb].
          eapply elements_in; eauto. eapply nth_error_In; eauto. }
        unfold copy. rewrite E1. cbn [obind]. exists h1, a. split; [reflexivity|]. split; [exact I1|]. split.
        -- intros w u Hw. apply (stays_means st h1 _ w u I1 S1). apply incl_appr, Hw.
        -- apply (stays_means st h1 _ a t I1 S1); [apply incl_appl, incl_refl|exists f; exact D].
      * apply nth_error_None in NT. destruct (Nat.ltb_spec i (s_len s)); [lia|]. reflexivity.
    + destruct (var st y) as [v| |] eqn:Q; cbn [obind] in V |- *; [|reflexivity|discriminate V]. destruct v; cbn [arr obind] in *; try reflexivity. discriminate V.
  - pose proof (list_of_ok st e y S) as V. destruct (list_of e y) as [ts|]; cbn [bind].
    + destruct V as (s & f & l & N & V & E & W). rewrite V. cbn [obind arr].
      assert (I0 : Inv (st_heap st) (owned (Arr s) ++ var_roots (upd (st_vars st) y None))).
      { revert I. apply inv_perm. intros c. rewrite cnt_app, (roots_split _ _ _ c N). lia. }
      destruct (cut_ok _ _ s l pos n I0 E) as [(h1 & s1 & E1 & I1 & EL & S1)|E1]; [|right; split; [eauto|]; rewrite E1; reflexivity].
      left. rewrite E1. cbn [obind fst snd]. eexists h1, _. split; [reflexivity|].
      assert (I2 : Inv h1 (owned (Arr s1) ++ var_roots (st_vars st))).
      { revert I1. apply inv_perm. intros c. rewrite !cnt_app, (roots_split _ _ _ c N). lia. }
      split; [exact I2|]. assert (KP : forall w u, incl (owned w) (owned (Arr s1) ++ var_roots (st_vars st)) -> means (st_heap st) w u -> means h1 w u).
      { intros w u Hw. apply (stays_means st h1 _ w u I2 S1 Hw). }
      split; [intros w u Hw; apply KP, incl_appr, Hw|].
      apply (node_means f h1 s1 (firstn n (skipn pos l))); [exact EL|]. eapply F2_impl; [|apply F2_firstn, F2_skipn, W]. intros a t Ha D.
      apply (denote_stays (st_heap st) h1 _ I2 S1); [|exact D]. intros c Hc.
      destruct (s_body s) as [q|] eqn:B; [|unfold elements in E; rewrite B in E; destruct (Nat.eqb (s_len s) 0); [|discriminate]; injection E as <-; apply sub_in in Ha; contradiction].
      destruct (elements_body _ _ _ _ B E) as (x & L & _ & _ & EQ).
      destruct (stays_live _ _ _ q x I2 S1) with (2 := L) as (x' & L' & _ & CX).
      { apply in_or_app. right. apply (var_roots_in _ _ _ N). rewrite (owned_arr _ _ B). left. reflexivity. }
      eapply inv_kid; [exact I2|exact L'|]. eapply owned_kids; [|exact Hc]. rewrite CX. apply sub_in in Ha. rewrite EQ in Ha. eapply sub_in; eauto.
    + destruct (var st y) as [v| |] eqn:Q; cbn [obind] in V |- *; [|reflexivity|discriminate V]. destruct v; cbn [arr obind] in *; try reflexivity. discriminate V.
Qed.

Lemma start_good st x s : at_start st x -> nth_error (st_vars st) x = Some (Some (Arr s)) -> good_start (st_heap st) s.
Proof. intros A N b y B L RX. exact (A s b y N B L RX). Qed.

Lemma step_ok st e o : SInv st -> shows st e -> op_ok st e o ->
  match effect (length (st_vars st)) e o with
  | Some e' => (exists st', step st o = Ok st' /\ shows st' e' /\ SInv st' /\ length (st_vars st') = length (st_vars st)) \/
               (is_slice o = true /\ step st o = Abort)
  | None => step st o = Abort
  end.
Proof.
  intros I S OK.
  assert (LIVE : forall y v, nth_error (st_vars st) y = Some (Some v) -> forall c, In c (owned v) -> exists q, live (st_heap st) c q).
  { intros y v N c Hc. apply (inv_root _ _ c I), (var_roots_in _ _ _ N), Hc. }
  assert (ARR : forall x k F, (forall s l f ts, nth_error (st_vars st) x = Some (Some (Arr s)) -> list_of e x = Some ts ->
     Inv (st_heap st) (owned (Arr s) ++ var_roots (upd (st_vars st) x None)) -> elements (st_heap st) s = Some l -> vals f (st_heap st) l ts ->
     match F ts with
     | Some ts' => exists h' s' l' f', k s = Ok (h', s') /\ Kept (st_heap st) (var_roots (upd (st_vars st) x None)) h' s' l' /\ vals f' (st_heap st) l' ts'
     | None => k s = Abort
     end) ->
    match bind (list_of e x) (fun l => bind (F l) (fun l' => Some (put e x (Some (Node l'))))) with
    | Some e' => (exists st', on_array st x k = Ok st' /\ shows st' e' /\ SInv st' /\ length (st_vars st') = length (st_vars st)) \/
                 (is_slice o = true /\ on_array st x k = Abort)
    | None => on_array st x k = Abort
    end).
  { intros x k F H. pose proof (on_array_ok st e x k F I S H) as Q. destruct (bind (list_of e x) _); [left; exact Q|exact Q]. }
  destruct o as [x i|x y|x|x y|x i y|x i y|x i z|x pos y|x pos n|x]; cbn [effect step op_ok] in *.
  - unfold free_var. pose proof (S x) as Sx. destruct (Nat.ltb_spec x (length (st_vars st))) as [L|L].
    + destruct (nth_error (st_vars st) x) as [[v|]|] eqn:N.
      * destruct Sx as (t & -> & _). reflexivity.
      * rewrite Sx. pose proof (construct_ok st e i I S) as K. destruct (expected e i) as [t|]; cbn [bind]; [|rewrite K; reflexivity].
        destruct K as [(h' & v & E & I' & X & M)|((y & pos & n & ->) & E)]; [left|right; split; [reflexivity|rewrite E; reflexivity]].
        rewrite E. cbn [obind fst snd]. eexists. split; [reflexivity|]. split; [|split].
        -- apply put_ok; auto; [|eauto]. intros y w _ Hy u. apply X. eapply var_roots_in; eauto.
        -- unfold SInv. cbn [st_heap st_vars]. revert I'. apply inv_perm. intros c.
           pose proof (var_roots_upd (st_vars st) x None (Some v) c N) as Q. cbn [oowned] in Q. change (cnt c []) with 0%nat in Q.
           rewrite !cnt_app. lia.
        -- cbn [st_vars]. apply upd_length.
      * apply nth_error_None in N. lia.
    + rewrite (proj2 (nth_error_None (st_vars st) x)) by lia. reflexivity.
  - pose proof (var_ok st e x S) as V. destruct (e x) as [tx|]; cbn [bind]; [|rewrite V; reflexivity].
    destruct V as (v & fx & N & V & _). rewrite V. cbn [obind].
    pose proof (var_ok st e y S) as W. destruct (e y) as [t|]; cbn [bind]; [|rewrite W; reflexivity].
    destruct W as (w & f & NY & W & D). rewrite W. cbn [obind]. left.
    destruct (copies_ok (owned w) (st_heap st) _ I) as (h1 & E1 & I1 & S1 & _ & _ & _); [apply (LIVE y w NY)|].
    unfold copy. rewrite E1. cbn [obind].
    destruct (drop_ok h1 (owned v) (owned w ++ var_roots (upd (st_vars st) x None))) as (h2 & E2 & I2 & S2).
    { revert I1. apply inv_perm. intros c. rewrite !cnt_app, (roots_split _ _ _ c N). lia. }
    rewrite E2. cbn [obind]. eexists. split; [reflexivity|]. pose proof (stays_trans _ _ _ S1 S2) as S3. split; [|split].
    + apply put_ok; auto; [apply nth_error_Some; congruence| |].
      * intros q u Nq Hq p. apply (stays_means st h2 _ u p I2 S3). apply incl_appr. eapply roots_without; eauto.
      * exists t. split; [reflexivity|]. apply (stays_means st h2 _ w t I2 S3); [apply incl_appl, incl_refl|exists f; exact D].
    + unfold SInv. cbn [st_heap st_vars]. revert I2. apply inv_perm. intros c. rewrite (roots_put _ _ _ w c N), cnt_app. reflexivity.
    + cbn [st_vars]. apply upd_length.
  - pose proof (var_ok st e x S) as V. destruct (e x) as [tx|]; cbn [bind]; [|rewrite V; reflexivity].
    destruct V as (v & fx & N & V & _). rewrite V. cbn [obind]. left.
    destruct (drop_ok (st_heap st) (owned v) (var_roots (upd (st_vars st) x None))) as (h2 & E2 & I2 & S2).
    { revert I. apply inv_perm. intros c. rewrite !cnt_app, (roots_split _ _ _ c N). lia. }
    rewrite E2. cbn [obind]. eexists. split; [reflexivity|]. split; [|split; [exact I2|cbn [st_vars]; apply upd_length]].
    apply put_ok; auto; [apply nth_error_Some; congruence|]. intros q u Nq Hq p. apply (stays_means st h2 _ u p I2 S2). eapply roots_without; eauto.
  - pose proof (var_ok st e y S) as V. destruct (e y) as [t|]; cbn [bind]; [|rewrite V; reflexivity].
    destruct V as (v & fy & N & V & D). rewrite V. cbn [obind]. apply (ARR x _ (fun l => Some (l ++ [t]))). intros s l f ts NX _ I0 E W.
    destruct (push_ok _ _ s l v I0 E (start_good _ _ _ OK NX) (LIVE y v N)) as (h' & s' & E1 & K). exists h', s', (l ++ [v]), (max f fy).
    split; [exact E1|]. split; [exact K|]. apply Forall2_app; [apply (vals_mono f); [lia|exact W]|]. constructor; [apply (denote_mono fy); [lia|exact D]|constructor].
  - pose proof (var_ok st e y S) as V. destruct (e y) as [t|]; cbn [bind]; [|rewrite V; reflexivity].
    destruct V as (v & fy & N & V & D). rewrite V. cbn [obind].
    apply (ARR x _ (fun l => if (i <? length l)%nat then Some (firstn i l ++ t :: skipn (Datatypes.S i) l) else None)). intros s l f ts NX _ I0 E W.
    pose proof (set_ok _ _ s l i v I0 E (LIVE y v N)) as Q. rewrite (F2_length _ _ _ W) in Q. destruct (Nat.ltb_spec i (length ts)); [|exact Q].
    destruct Q as (h' & s' & E1 & K). exists h', s', (upd l i v), (max f fy). split; [exact E1|]. split; [exact K|].
    apply F2_upd; [apply (vals_mono f); [lia|exact W]|lia|]. apply (denote_mono fy); [lia|exact D].
  - pose proof (var_ok st e y S) as V. destruct (e y) as [t|]; cbn [bind]; [|rewrite V; reflexivity].
    destruct V as (v & fy & N & V & D). rewrite V. cbn [obind].
    apply (ARR x _ (fun l => if (i <? length l)%nat then Some (firstn i l ++ t :: skipn (Datatypes.S i) l) else None)). intros s l f ts NX _ I0 E W.
    pose proof (set_left_ok _ _ s l i v (fun h s => Ok (if Nat.eqb x y then Arr s else v)) I0 E) as Q. rewrite (F2_length _ _ _ W) in Q.
    specialize (Q (roots_without _ x y v (not_eq_sym OK) N)).
    assert (HY : forall (h : heap) s, Ok (if Nat.eqb x y then Arr s else v) = Ok v) by (intros _ ?; rewrite (proj2 (Nat.eqb_neq x y) OK); reflexivity).
    specialize (Q HY). destruct (Nat.ltb_spec i (length ts)); [|exact Q].
    destruct Q as (h' & s' & E1 & K). exists h', s', (upd l i v), (max f fy). split; [exact E1|]. split; [exact K|].
    apply F2_upd; [apply (vals_mono f); [lia|exact W]|lia|]. apply (denote_mono fy); [lia|exact D].
  - apply (ARR x _ (fun l => match nth_error l i with Some (Number _) => Some (firstn i l ++ Number z :: skipn (Datatypes.S i) l) | _ => None end)).
    intros s l f ts NX _ I0 E W. pose proof (set_num_elem_ok _ _ s l i z I0 E) as Q. destruct (nth_error ts i) as [t|] eqn:NT.
    + destruct (F2_nth _ _ _ _ _ W NT) as (a & NA & D). rewrite NA in Q. destruct f as [|f]; [discriminate|]. cbn [denote] in D.
      destruct a as [|z0|s0].
      * injection D as <-. exact Q.
      * injection D as <-. destruct Q as (h' & s' & E1 & K). exists h', s', (upd l i (Num z)), (Datatypes.S f). split; [exact E1|]. split; [exact K|].
        apply F2_upd; [exact W|apply nth_error_Some; congruence|reflexivity].
      * destruct (elements (st_heap st) s0); [|discriminate]. destruct (all_some _); [|discriminate]. injection D as <-. exact Q.
    + apply nth_error_None in NT. rewrite (nth_none l i) in Q by (rewrite (F2_length _ _ _ W); exact NT). exact Q.
  - pose proof (list_of_ok st e y S) as V. destruct (list_of e y) as [m|] eqn:LY; cbn [bind].
    + destruct V as (t & fy & ly & N & V & EY & WY). rewrite V. cbn [obind arr]. destruct OK as (OK1 & OK2 & OK3).
      apply (ARR x _ (fun l => Some (firstn pos l ++ m ++ skipn pos l))). intros s l f ts NX LX I0 E W.
      destruct (insert_ok _ _ s l pos t ly I0 E EY (roots_without _ x y _ (not_eq_sym OK2) N) (start_good _ _ _ OK1 NX)) as (h' & s' & E1 & K).
      { rewrite (F2_length _ _ _ W). apply OK3, LX. }
      exists h', s', (firstn pos l ++ ly ++ skipn pos l), (max f fy). split; [exact E1|]. split; [exact K|].
      apply (vals_mono f (max f fy)) in W; [|lia]. apply (vals_mono fy (max f fy)) in WY; [|lia].
      apply Forall2_app; [apply F2_firstn, W|]. apply Forall2_app; [exact WY|apply F2_skipn, W].
    + destruct (var st y) as [v| |] eqn:Q; cbn [obind] in V |- *; [|reflexivity|discriminate V]. destruct v; cbn [arr obind] in *; try reflexivity. discriminate V.
  - apply (ARR x _ (fun l => if (pos + n <=? length l)%nat then Some (firstn pos l ++ skipn (pos + n) l) else None)). intros s l f ts NX LX I0 E W.
    pose proof (remove_ok _ _ s l pos n I0 E) as Q. rewrite (F2_length _ _ _ W) in Q.
    assert (G : pos = 0%nat \/ (pos + n)%nat = length ts \/ good_start (st_heap st) s).
    { destruct OK as [OK|[OK|OK]]; [auto|right; left; apply OK, LX|right; right; apply (start_good st x); auto]. }
    specialize (Q G). destruct (pos + n <=? length ts)%nat; [|exact Q].
    destruct Q as (h' & s' & E1 & K). eexists h', s', _, f. split; [exact E1|]. split; [exact K|]. apply Forall2_app; [apply F2_firstn, W|apply F2_skipn, W].
  - apply (ARR x _ (fun l => match l with [] => None | _ => Some (removelast l) end)). intros s l f ts NX LX I0 E W.
    destruct (elements_view _ _ _ E) as [_ LL]. pose proof (F2_length _ _ _ W) as LT. destruct ts as [|t ts].
    + cbn [length] in LT. rewrite <- LL, LT. reflexivity.
    + cbn [length] in LT. pose proof (remove_ok _ _ s l (s_len s - 1) 1 I0 E) as Q.
      assert (G : (s_len s - 1 + 1)%nat = length l) by lia. specialize (Q (or_intror (or_introl G))). rewrite G, Nat.leb_refl in Q.
      destruct Q as (h' & s' & E1 & K). rewrite (proj2 (Nat.ltb_lt 0 (s_len s))) by lia. cbn [cassert].
      unfold remove in E1. rewrite G, LL, Nat.leb_refl in E1. cbn [cassert] in E1. destruct (Nat.eqb_spec (s_len s - 1) (s_len s)); [lia|]. cbn [orb Nat.eqb] in E1.
      rewrite Nat.eqb_refl in E1. assert (h' = st_heap st) by congruence. assert (s' = mkslice (s_body s) (s_off s) (s_len s - 1)) by congruence. subst h' s'.
      eexists _, _, _, f. split; [reflexivity|]. split; [exact K|]. rewrite skipn_all, app_nil_r, removelast_firstn_len.
      replace (pred (length (t :: ts))) with (s_len s - 1)%nat by (cbn [length]; lia). apply F2_firstn, W.
Qed.

Lemma start_ok n : SInv (start n) /\ shows (start n) (fun _ => None).
Proof.
  split.
  - unfold SInv, start. cbn [st_heap st_vars].
    assert (Z : var_roots (repeat None n) = []) by (induction n; cbn; auto). rewrite Z. split; [|split].
    + intros b. destruct b; cbn; auto.
    + exists (fun _ => 0%nat). intros b x k L. destruct b; discriminate.
    + intros b x L. destruct b; discriminate.
  - intros x. cbn [start st_vars]. destruct (nth_error (repeat None n) x) as [[v|]|] eqn:E; auto.
    apply nth_error_In, repeat_spec in E. discriminate.
Qed.
