(** Nested arrays: reference counts are exact, there are no cycles, values are kept. *)
From Verif Require Import Base RefModel RefProofs NestModel NestSpec.

(** ** Counting references *)
Definition cnt (b : nat) (l : list nat) : nat := count_occ Nat.eq_dec l b.
Definition okids (o : option body) : list nat := match o with Some x => kids x | None => [] end.
Definition all_kids (h : heap) : list nat := flat_map okids h.
Definition live (h : heap) (b : nat) (x : body) : Prop := nth_error h b = Some (Some x).

Lemma cnt_app b l l' : cnt b (l ++ l') = (cnt b l + cnt b l')%nat.
Proof. apply count_occ_app. Qed.
Lemma cnt_cons b c l : cnt b (c :: l) = ((if Nat.eq_dec c b then 1 else 0) + cnt b l)%nat.
Proof. unfold cnt. cbn. destruct (Nat.eq_dec c b); lia. Qed.
Lemma cnt_nil b : cnt b [] = 0%nat.
Proof. reflexivity. Qed.
Lemma cnt_in b l : In b l -> (1 <= cnt b l)%nat.
Proof. intros H. apply (count_occ_In Nat.eq_dec) in H. unfold cnt. lia. Qed.
Lemma in_cnt b l : (1 <= cnt b l)%nat -> In b l.
Proof. intros H. apply (count_occ_In Nat.eq_dec). unfold cnt in H. lia. Qed.

(** The count of each body is the number of references to it. *)
Definition Counts (h : heap) (roots : list nat) : Prop := forall b,
  match nth_error h b with
  | Some (Some x) => (1 <= b_refs x)%nat /\ b_refs x = (cnt b roots + cnt b (all_kids h))%nat
  | _ => cnt b roots = 0%nat /\ cnt b (all_kids h) = 0%nat
  end.
(** There are no cycles: bodies can be ranked. *)
Definition Ranked (h : heap) : Prop := exists rk : nat -> nat, forall b x k, live h b x -> In k (kids x) -> (rk k < rk b)%nat.
Definition Sized (h : heap) : Prop := forall b x, live h b x -> (b_num x <= length (b_cells x))%nat.
Definition Inv (h : heap) (roots : list nat) : Prop := Counts h roots /\ Ranked h /\ Sized h.

Lemma inv_perm h r r' : (forall b, cnt b r = cnt b r') -> Inv h r -> Inv h r'.
Proof. intros H [I D]. split; [|exact D]. intros b. specialize (I b). rewrite <- H. exact I. Qed.
Lemma inv_live h roots b : Inv h roots -> (1 <= cnt b roots + cnt b (all_kids h))%nat -> exists x, live h b x.
Proof.
  intros [I _] H. specialize (I b). unfold live. destruct (nth_error h b) as [[x|]|]; [eauto|lia|lia].
Qed.
Lemma inv_root h roots b : Inv h roots -> In b roots -> exists x, live h b x.
Proof. intros I H. apply (inv_live h roots b I). apply cnt_in in H. lia. Qed.
Lemma kids_in h b x k : live h b x -> In k (kids x) -> In k (all_kids h).
Proof. intros L H. unfold all_kids. apply in_flat_map. exists (Some x). split; [eapply nth_error_In; exact L|exact H]. Qed.
Lemma inv_kid h roots b x k : Inv h roots -> live h b x -> In k (kids x) -> exists y, live h k y.
Proof. intros I L H. apply (inv_live h roots k I). pose proof (cnt_in _ _ (kids_in _ _ _ _ L H)). lia. Qed.
Lemma get_live h b x : live h b x -> get h b = Ok x.
Proof. unfold get, live. intros ->. reflexivity. Qed.
Lemma live_lt h b x : live h b x -> (b < length h)%nat.
Proof. intros L. apply nth_error_Some. unfold live in L. congruence. Qed.
Lemma live_det h b x y : live h b x -> live h b y -> x = y.
Proof. unfold live. congruence. Qed.

Lemma all_kids_upd h b o o' c : nth_error h b = Some o ->
  (cnt c (all_kids (upd h b o')) + cnt c (okids o) = cnt c (all_kids h) + cnt c (okids o'))%nat.
Proof.
  revert b. induction h as [|y h IH]; intros [|b] H; cbn in H; try discriminate.
  - injection H as ->. cbn [upd all_kids flat_map]. rewrite !cnt_app. lia.
  - cbn [upd all_kids flat_map]. rewrite !cnt_app. specialize (IH b H). unfold all_kids in IH. lia.
Qed.
Lemma all_refs_upd h b x o' : live h b x ->
  (all_refs (upd h b o') + b_refs x = all_refs h + match o' with Some y => b_refs y | None => 0 end)%nat.
Proof.
  unfold all_refs, live. revert b. induction h as [|y h IH]; intros [|b] H; cbn in H; try discriminate.
  - injection H as ->. cbn. lia.
  - specialize (IH b H). cbn [upd map list_sum fold_right] in *. unfold list_sum in IH. lia.
Qed.

Lemma live_upd h b o c x : live (upd h b o) c x -> (c = b /\ o = Some x) \/ (c <> b /\ live h c x).
Proof. unfold live. intros H. apply nth_upd_inv in H. destruct H as [(-> & X & _)|[N X]]; [left; split; congruence|right; auto]. Qed.
Lemma live_upd_eq h b y x : live h b y -> live (upd h b (Some x)) b x.
Proof. intros L. unfold live. eapply nth_upd_eq. exact L. Qed.
Lemma live_upd_ne h b o c x : c <> b -> live h c x -> live (upd h b o) c x.
Proof. intros N L. unfold live. rewrite nth_upd_ne by congruence. exact L. Qed.

(** A body that has a reference from outside and only one is in no other body. *)
Lemma alone h roots b x : Inv h roots -> live h b x -> b_refs x = 1%nat -> In b roots -> cnt b roots = 1%nat /\ cnt b (all_kids h) = 0%nat.
Proof. intros [I _] L R H. specialize (I b). unfold live in L. rewrite L in I. apply cnt_in in H. lia. Qed.

(** *** Without references from outside there are no bodies. *)
Lemma inv_empty h b x : Inv h [] -> live h b x -> False.
Proof.
  intros (I & (rk & D) & _) L.
  assert (UP : forall c y, live h c y -> exists q p, live h q p /\ (rk c < rk q)%nat).
  { intros c y Lc. specialize (I c) as Ic. unfold live in Lc. rewrite Lc, cnt_nil in Ic.
    assert (P : In c (all_kids h)) by (apply in_cnt; lia).
    unfold all_kids in P. apply in_flat_map in P. destruct P as ([p|] & HP & HK); [|contradiction]. cbn [okids] in HK.
    apply In_nth_error in HP. destruct HP as (q & Lq). exists q, p. split; [exact Lq|]. exact (D q p c Lq HK). }
  assert (MX : forall n c y, live h c y -> exists q p, live h q p /\ (n <= rk q)%nat).
  { induction n as [|n IH]; intros c y Lc; [exists c, y; split; [exact Lc|lia]|].
    destruct (IH c y Lc) as (q & p & Lq & Hq). destruct (UP q p Lq) as (q' & p' & Lq' & Hq'). exists q', p'. split; [exact Lq'|lia]. }
  assert (BD : forall (l : list (option body)) k, exists n, forall q, (q < k)%nat -> (rk q <= n)%nat).
  { intros _. induction k as [|k (n & IH)]; [exists 0%nat; lia|]. exists (max n (rk k)). intros q Hq.
    destruct (Nat.eq_dec q k) as [->|N]; [lia|]. specialize (IH q ltac:(lia)). lia. }
  destruct (BD h (length h)) as (n & Hn). destruct (MX (S n) b x L) as (q & p & Lq & Hq).
  specialize (Hn q (live_lt _ _ _ Lq)). lia.
Qed.

(** ** What stays: every body of [h'] but [b] was there in [h]. *)
Definition frame (b : nat) (h h' : heap) : Prop := forall c x', c <> b -> live h' c x' ->
  exists x, live h c x /\ b_num x' = b_num x /\ b_cells x' = b_cells x.
Lemma frame_refl b h : frame b h h.
Proof. intros c x _ L. eauto. Qed.
Lemma frame_trans b h1 h2 h3 : frame b h1 h2 -> frame b h2 h3 -> frame b h1 h3.
Proof.
  intros A B c x N L. destruct (B c x N L) as (y & Ly & E1 & E2). destruct (A c y N Ly) as (z & Lz & E3 & E4).
  exists z. split; [exact Lz|]. split; congruence.
Qed.
(** Nothing at all has changed. *)
Definition stays (h h' : heap) : Prop := forall c x', live h' c x' ->
  exists x, live h c x /\ b_num x' = b_num x /\ b_cells x' = b_cells x.
Lemma stays_frame b h h' : stays h h' -> frame b h h'.
Proof. intros S c x _ L. exact (S c x L). Qed.
Lemma stays_refl h : stays h h.
Proof. intros c x L. eauto. Qed.
Lemma stays_trans h1 h2 h3 : stays h1 h2 -> stays h2 h3 -> stays h1 h3.
Proof.
  intros A B c x L. destruct (B c x L) as (y & Ly & E1 & E2). destruct (A c y Ly) as (z & Lz & E3 & E4).
  exists z. split; [exact Lz|]. split; congruence.
Qed.

Lemma all_some_map {A B} (f g : A -> option B) l r :
  (forall a b, In a l -> f a = Some b -> g a = Some b) -> all_some (map f l) = Some r -> all_some (map g l) = Some r.
Proof.
  revert r. induction l as [|a l IH]; intros r H E; cbn in *; [exact E|].
  destruct (f a) as [b|] eqn:F; [|discriminate]. rewrite (H a b (or_introl eq_refl) F).
  destruct (all_some (map f l)) as [q|]; [|discriminate]. rewrite (IH q); auto.
Qed.
Lemma all_some_F2 {A B} (f : A -> option B) l r :
  all_some (map f l) = Some r <-> Forall2 (fun a b => f a = Some b) l r.
Proof.
  revert r. induction l as [|a l IH]; intros r; cbn.
  - split; [intros H; injection H as <-; constructor|intros H; inversion H; reflexivity].
  - split.
    + destruct (f a) as [b|] eqn:F; [|discriminate]. destruct (all_some (map f l)) as [q|]; [|discriminate].
      intros H. injection H as <-. constructor; [exact F|]. apply IH. reflexivity.
    + intros H. inversion H as [|? b ? q Hb Hq]; subst. rewrite Hb. apply IH in Hq. rewrite Hq. reflexivity.
Qed.
Lemma F2_impl {A B} (P Q : A -> B -> Prop) l r : (forall a b, In a l -> P a b -> Q a b) -> Forall2 P l r -> Forall2 Q l r.
Proof.
  intros H F. induction F as [|a b l r Hab F IH]; constructor; [apply H; [left; reflexivity|exact Hab]|].
  apply IH. intros x y Hx. apply H. right. exact Hx.
Qed.
Lemma F2_length {A B} (P : A -> B -> Prop) l r : Forall2 P l r -> length l = length r.
Proof. induction 1; cbn; congruence. Qed.

Lemma denote_mono f f' h v t : (f <= f')%nat -> denote f h v = Some t -> denote f' h v = Some t.
Proof.
  intros Hf. revert v t. revert f' Hf. induction f as [|f IH]; intros f' Hf v t H; [discriminate|].
  destruct f' as [|f']; [lia|]. cbn [denote] in *. destruct v as [|z|s]; try exact H.
  destruct (elements h s) as [l|]; [|discriminate]. destruct (all_some (map (denote f h) l)) as [ts|] eqn:S; [|discriminate].
  rewrite (all_some_map _ (denote f' h) _ _) with (2 := S); [exact H|]. intros a b _. apply IH. lia.
Qed.
Lemma means_det h v t t' : means h v t -> means h v t' -> t = t'.
Proof.
  intros [f H] [f' H']. apply (denote_mono f (max f f')) in H; [|lia]. apply (denote_mono f' (max f f')) in H'; [|lia]. congruence.
Qed.

Lemma elements_in h s l e b x : elements h s = Some l -> s_body s = Some b -> live h b x -> In e l -> In e (b_cells x).
Proof.
  unfold elements, live. intros E B L. rewrite B, L in E. destruct (_ && _); [|discriminate]. injection E as <-. intros H.
  rewrite <- (firstn_skipn (s_off s) (b_cells x)). apply in_or_app. right.
  rewrite <- (firstn_skipn (s_len s) (skipn (s_off s) (b_cells x))). apply in_or_app. left. exact H.
Qed.
Lemma owned_kids x e k : In e (b_cells x) -> In k (owned e) -> In k (kids x).
Proof. intros A B. unfold kids. apply in_flat_map. eauto. Qed.
Lemma owned_arr s b : s_body s = Some b -> owned (Arr s) = [b].
Proof. destruct s as [[?|] ? ?]; cbn; congruence. Qed.
Lemma owned_null s : s_body s = None -> owned (Arr s) = [].
Proof. destruct s as [[?|] ? ?]; cbn; congruence. Qed.

(** Values that do not depend on [b] are kept. *)
Lemma denote_frame b h h' roots : Inv h' roots -> frame b h h' -> cnt b (all_kids h') = 0%nat ->
  forall f e t, (forall c, In c (owned e) -> c <> b /\ exists x, live h' c x) -> denote f h e = Some t -> denote f h' e = Some t.
Proof.
  intros I F Z. induction f as [|f IH]; intros e t HO H; [discriminate|]. cbn [denote] in *. destruct e as [|z|s]; try exact H.
  destruct (s_body s) as [b0|] eqn:B; [|assert (EE : elements h' s = elements h s) by (unfold elements; rewrite B; reflexivity); rewrite EE;
      unfold elements in *; rewrite B in H |- *; destruct (Nat.eqb (s_len s) 0); [exact H|discriminate]].
  destruct (HO b0) as (N & x' & L'); [rewrite (owned_arr _ _ B); left; reflexivity|].
  destruct (F b0 x' N L') as (x & L & E1 & E2).
  assert (EE : elements h' s = elements h s) by (unfold elements, live in *; rewrite B, L, L', E1, E2; reflexivity).
  rewrite EE. destruct (elements h s) as [l|] eqn:EL; [|discriminate].
  destruct (all_some (map (denote f h) l)) as [ts|] eqn:S; [|discriminate].
  rewrite (all_some_map _ (denote f h') _ _) with (2 := S); [exact H|].
  intros a u Ha. apply IH. intros c Hc.
  assert (K : In c (kids x')). { apply (owned_kids x' a); [|exact Hc]. rewrite E2. exact (elements_in _ _ _ _ _ _ EL B L Ha). }
  split; [|eapply inv_kid; eauto]. intros ->. pose proof (cnt_in _ _ (kids_in _ _ _ _ L' K)). lia.
Qed.
Lemma denote_stays h h' roots : Inv h' roots -> stays h h' ->
  forall f e t, (forall c, In c (owned e) -> exists x, live h' c x) -> denote f h e = Some t -> denote f h' e = Some t.
Proof.
  intros I F f e t HO. apply (denote_frame (length h') h h' roots I).
  - apply stays_frame, F.
  - destruct I as [I _]. specialize (I (length h')). rewrite (proj2 (nth_error_None h' (length h'))) in I by lia. lia.
  - intros c Hc. destruct (HO c Hc) as (x & L). split; [|eauto]. pose proof (live_lt _ _ _ L). lia.
Qed.

(** *** Releasing *)
Lemma release_ok f : forall h todo roots, (all_refs h < f)%nat -> Inv h (todo ++ roots) ->
  exists h', release f h todo = Ok h' /\ Inv h' roots /\ stays h h'.
Proof.
  induction f as [|f IH]; intros h todo roots Hf I; [lia|].
  destruct todo as [|b rest]; cbn [release].
  { exists h. split; [reflexivity|]. split; [exact I|apply stays_refl]. }
  destruct (inv_root h _ b I) as (x & L); [left; reflexivity|].
  rewrite (get_live _ _ _ L). cbn [obind].
  destruct I as (I & (rk & DN) & SZ). pose proof (I b) as Ib. unfold live in L. rewrite L in Ib. destruct Ib as [R1 R2].
  assert (Cb : cnt b ((b :: rest) ++ roots) = S (cnt b (rest ++ roots))).
  { cbn [app]. rewrite cnt_cons. destruct (Nat.eq_dec b b); [lia|contradiction]. }
  assert (Cn : forall c, c <> b -> cnt c ((b :: rest) ++ roots) = cnt c (rest ++ roots)).
  { intros c N. cbn [app]. rewrite cnt_cons. destruct (Nat.eq_dec b c); [congruence|lia]. }
  rewrite Cb in R2. clear Cb.
  destruct (b_refs x) as [|[|n]] eqn:RX; [lia| |].
  - destruct (IH (upd h b None) (kids x ++ rest) roots) as (h' & E & I' & S).
    + pose proof (all_refs_upd h b x None L) as Q. rewrite RX in Q. lia.
    + split; [|split].
      * intros c. pose proof (all_kids_upd h b (Some x) None c L) as K. cbn [okids] in K. rewrite cnt_nil in K.
        rewrite <- app_assoc, cnt_app. destruct (Nat.eq_dec c b) as [->|N].
        -- rewrite (nth_upd_eq _ _ _ _ L). lia.
        -- rewrite nth_upd_ne by congruence. specialize (I c). rewrite (Cn c N) in I. destruct (nth_error h c) as [[y|]|]; lia.
      * exists rk. intros c y k Lc. apply live_upd in Lc. destruct Lc as [[_ X]|[_ X]]; [discriminate|apply (DN c y k X)].
      * intros c y Lc. apply live_upd in Lc. destruct Lc as [[_ X]|[_ X]]; [discriminate|apply (SZ c y X)].
    + exists h'. split; [exact E|]. split; [exact I'|]. intros c y Hy. destruct (S c y Hy) as (z & Lz & Dz).
      apply live_upd in Lz. destruct Lz as [[_ X]|[_ X]]; [discriminate|]. exists z. auto.
  - set (x2 := mkbody (S n) (b_num x) (b_cells x)).
    destruct (IH (set_body h b x2) rest roots) as (h' & E & I' & S).
    + pose proof (all_refs_upd h b x (Some x2) L) as Q. rewrite RX in Q. unfold x2 in Q. cbn [b_refs] in Q. unfold set_body, x2. lia.
    + unfold set_body. split; [|split].
      * intros c. pose proof (all_kids_upd h b (Some x) (Some x2) c L) as K. cbn [okids] in K. change (kids x2) with (kids x) in K.
        destruct (Nat.eq_dec c b) as [->|N].
        -- rewrite (nth_upd_eq _ _ _ _ L). cbn [x2 b_refs]. lia.
        -- rewrite nth_upd_ne by congruence. specialize (I c). rewrite (Cn c N) in I. destruct (nth_error h c) as [[y|]|]; lia.
      * exists rk. intros c y k Lc. apply live_upd in Lc. destruct Lc as [[-> X]|[_ X]]; [injection X as <-; apply (DN b x k L)|apply (DN c y k X)].
      * intros c y Lc. apply live_upd in Lc. destruct Lc as [[-> X]|[_ X]]; [injection X as <-; apply (SZ b x L)|apply (SZ c y X)].
    + exists h'. split; [exact E|]. split; [exact I'|]. intros c y Hy. destruct (S c y Hy) as (z & Lz & Dz).
      apply live_upd in Lz. destruct Lz as [[-> X]|[_ X]].
      * injection X as <-. exists x. split; [exact L|]. exact Dz.
      * exists z. auto.
Qed.
Lemma drop_ok h todo roots : Inv h (todo ++ roots) -> exists h', drop h todo = Ok h' /\ Inv h' roots /\ stays h h'.
Proof. intros I. apply release_ok; [lia|exact I]. Qed.

(** A body that keeps one reference is as it was. *)
Lemma stays_live h h' roots b x : Inv h' roots -> stays h h' -> In b roots -> live h b x ->
  exists x', live h' b x' /\ b_num x' = b_num x /\ b_cells x' = b_cells x.
Proof.
  intros I S H L. destruct (inv_root h' roots b I H) as (x' & L'). exists x'. split; [exact L'|].
  destruct (S b x' L') as (y & Ly & E). rewrite (live_det _ _ _ _ L Ly). exact E.
Qed.

(** *** Taking references *)
Lemma add_ref_ok h roots b x : Inv h roots -> live h b x ->
  exists h', add_ref h b = Ok h' /\ Inv h' (b :: roots) /\ stays h h' /\ live h' b (mkbody (S (b_refs x)) (b_num x) (b_cells x)) /\
    (forall c y, c <> b -> live h c y -> live h' c y) /\ length h' = length h.
Proof.
  intros (I & (rk & DN) & SZ) L. unfold add_ref. rewrite (get_live _ _ _ L). cbn [obind]. eexists. split; [reflexivity|].
  set (x2 := mkbody (S (b_refs x)) (b_num x) (b_cells x)). unfold set_body. split; [|split; [|split; [|split]]].
  - split; [|split].
    + intros c. pose proof (all_kids_upd h b (Some x) (Some x2) c L) as K. cbn [okids] in K. change (kids x2) with (kids x) in K.
      rewrite cnt_cons. specialize (I c). destruct (Nat.eq_dec b c) as [<-|N].
      * rewrite (nth_upd_eq _ _ _ _ L). unfold live in L. rewrite L in I. cbn [x2 b_refs]. lia.
      * rewrite nth_upd_ne by congruence. destruct (nth_error h c) as [[y|]|]; lia.
    + exists rk. intros c y k Lc. apply live_upd in Lc. destruct Lc as [[-> X]|[_ X]]; [injection X as <-; apply (DN b x k L)|apply (DN c y k X)].
    + intros c y Lc. apply live_upd in Lc. destruct Lc as [[-> X]|[_ X]]; [injection X as <-; apply (SZ b x L)|apply (SZ c y X)].
  - intros c y Lc. apply live_upd in Lc. destruct Lc as [[-> X]|[_ X]]; [injection X as <-; exists x; auto|exists y; auto].
  - eapply live_upd_eq; eauto.
  - intros c y N Ly. apply live_upd_ne; auto.
  - apply upd_length.
Qed.
Lemma copies_ok bs : forall h roots, Inv h roots -> (forall b, In b bs -> exists x, live h b x) ->
  exists h', copies h bs = Ok h' /\ Inv h' (bs ++ roots) /\ stays h h' /\
    (forall c y, ~ In c bs -> live h c y -> live h' c y) /\ (forall c y, live h c y -> exists y', live h' c y') /\ length h' = length h.
Proof.
  induction bs as [|b bs IH]; intros h roots I HL; cbn [copies].
  - exists h. split; [reflexivity|]. split; [exact I|]. split; [apply stays_refl|]. split; [auto|]. split; [eauto|reflexivity].
  - destruct (HL b) as (x & L); [left; reflexivity|].
    destruct (add_ref_ok h roots b x I L) as (h1 & E1 & I1 & S1 & L1 & K1 & N1). rewrite E1. cbn [obind].
    assert (K2 : forall c y, live h c y -> exists y', live h1 c y').
    { intros c y Lc. destruct (Nat.eq_dec c b) as [->|N]; [eauto|exists y; auto]. }
    destruct (IH h1 (b :: roots) I1) as (h2 & E2 & I2 & S2 & K3 & K4 & N2).
    { intros c Hc. destruct (HL c (or_intror Hc)) as (y & Ly). eauto. }
    exists h2. split; [exact E2|]. split; [revert I2; apply inv_perm; intros c; cbn [app]; rewrite !cnt_app, !cnt_cons, !cnt_app; lia|].
    split; [eapply stays_trans; eauto|]. split; [|split; [|congruence]].
    + intros c y H Lc. apply K3; [intros X; apply H; right; exact X|]. apply K1; [intros ->; apply H; left; reflexivity|exact Lc].
    + intros c y Lc. destruct (K2 c y Lc) as (y1 & Ly1). exact (K4 c y1 Ly1).
Qed.

(** *** Changing a body that is alone *)
Lemma poke_ok h R R' b x x' : Inv h R -> live h b x -> b_refs x = 1%nat -> In b R -> b_refs x' = 1%nat -> In b R' ->
  (b_num x' <= length (b_cells x'))%nat -> (forall c, (cnt c (kids x') + cnt c R' = cnt c (kids x) + cnt c R)%nat) ->
  Inv (set_body h b x') R' /\ frame b h (set_body h b x') /\ live (set_body h b x') b x' /\ length (set_body h b x') = length h.
Proof.
  intros I0 L RX HR RX' HR' SX E. destruct (alone h R b x I0 L RX HR) as [A1 A2]. destruct I0 as (I & (rk & DN) & SZ).
  assert (NK : ~ In b (kids x')).
  { intros X. apply cnt_in in X. apply cnt_in in HR'. specialize (E b).
    assert (cnt b (kids x) = 0%nat). { destruct (cnt b (kids x)) eqn:Q; [reflexivity|]. assert (In b (kids x)) by (apply in_cnt; lia).
      pose proof (cnt_in _ _ (kids_in _ _ _ _ L H)). lia. } lia. }
  assert (NB : forall c y, live h c y -> ~ In b (kids y)).
  { intros c y Lc X. pose proof (cnt_in _ _ (kids_in _ _ _ _ Lc X)). lia. }
  unfold set_body. split; [|split; [|split]].
  - split; [|split].
    + intros c. pose proof (all_kids_upd h b (Some x) (Some x') c L) as K. cbn [okids] in K. specialize (E c). specialize (I c).
      destruct (Nat.eq_dec c b) as [->|N].
      * rewrite (nth_upd_eq _ _ _ _ L). unfold live in L. rewrite L in I. lia.
      * rewrite nth_upd_ne by congruence. destruct (nth_error h c) as [[y|]|] eqn:Q; [lia| |];
          (assert (cnt c (kids x) = 0%nat) by (destruct (cnt c (kids x)) eqn:Z; [reflexivity|]; assert (J : In c (kids x)) by (apply in_cnt; lia);
             pose proof (cnt_in _ _ (kids_in _ _ _ _ L J)); lia); lia).
    + set (m := list_max (map rk (kids x'))). exists (fun c => if Nat.eqb c b then S m else rk c). intros c y k Lc Hk. apply live_upd in Lc.
      destruct Lc as [[-> X]|[N X]].
      * injection X as <-. rewrite Nat.eqb_refl. destruct (Nat.eqb_spec k b) as [->|Nk]; [contradiction|].
        assert (rk k <= m)%nat; [|lia]. assert (G := proj1 (list_max_le (map rk (kids x')) m) (Nat.le_refl _)). rewrite Forall_forall in G.
        apply G. apply in_map. exact Hk.
      * destruct (Nat.eqb_spec c b); [contradiction|]. destruct (Nat.eqb_spec k b) as [->|Nk]; [exfalso; exact (NB c y X Hk)|]. exact (DN c y k X Hk).
    + intros c y Lc. apply live_upd in Lc. destruct Lc as [[-> X]|[_ X]]; [injection X as <-; exact SX|apply (SZ c y X)].
  - intros c y N Lc. apply live_upd in Lc. destruct Lc as [[-> X]|[_ X]]; [contradiction|]. exists y. auto.
  - eapply live_upd_eq; eauto.
  - apply upd_length.
Qed.
