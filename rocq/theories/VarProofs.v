(** Variants: reference counts are exact and values are kept. *)
From Verif Require Import Base RefModel RefProofs CowModel StrFindSpec VarModel VarSpec.

(** ** Counting references *)
Definition cnt (b : nat) (l : list nat) : nat := count_occ Nat.eq_dec l b.
Definition okids (o : option body) : list nat := match o with Some x => kids (b_data x) | None => [] end.
Definition all_kids (h : heap) : list nat := flat_map okids h.
Definition live (h : heap) (b : nat) (x : body) : Prop := nth_error h b = Some (Some x).

Lemma cnt_app b l l' : cnt b (l ++ l') = (cnt b l + cnt b l')%nat.
Proof. apply count_occ_app. Qed.
Lemma cnt_cons b c l : cnt b (c :: l) = ((if Nat.eq_dec c b then 1 else 0) + cnt b l)%nat.
Proof. unfold cnt. cbn. destruct (Nat.eq_dec c b); lia. Qed.
Lemma cnt_in b l : In b l -> (1 <= cnt b l)%nat.
Proof. intros H. apply (count_occ_In Nat.eq_dec) in H. unfold cnt. lia. Qed.

(** The count of each body is the number of references to it. *)
Definition Counts (h : heap) (roots : list nat) : Prop := forall b,
  match nth_error h b with
  | Some (Some x) => (1 <= b_refs x)%nat /\ b_refs x = (cnt b roots + cnt b (all_kids h))%nat
  | _ => cnt b roots = 0%nat /\ cnt b (all_kids h) = 0%nat
  end.
(** Bodies refer to older bodies only: there are no cycles. *)
Definition Down (h : heap) : Prop := forall b x k, live h b x -> In k (kids (b_data x)) -> (k < b)%nat.
Definition Inv (h : heap) (roots : list nat) : Prop := Counts h roots /\ Down h.

Lemma inv_perm h r r' : (forall b, cnt b r = cnt b r') -> Inv h r -> Inv h r'.
Proof. intros H [I D]. split; [|exact D]. intros b. specialize (I b). rewrite <- H. exact I. Qed.

Lemma inv_live h roots b : Inv h roots -> (1 <= cnt b roots + cnt b (all_kids h))%nat -> exists x, live h b x.
Proof.
  intros [I _] H. specialize (I b). unfold live. destruct (nth_error h b) as [[x|]|]; [eauto|lia|lia].
Qed.

Lemma kids_in h b x k : live h b x -> In k (kids (b_data x)) -> In k (all_kids h).
Proof. intros L H. unfold all_kids. apply in_flat_map. exists (Some x). split; [eapply nth_error_In; exact L|exact H]. Qed.

Lemma get_live h b x : live h b x -> get h b = Ok x.
Proof. unfold get, live. intros ->. reflexivity. Qed.

Lemma get_inv h b x : get h b = Ok x -> live h b x.
Proof. unfold get, live. destruct (nth_error h b) as [[y|]|]; congruence. Qed.

Lemma all_kids_upd h b o o' c : nth_error h b = Some o ->
  (cnt c (all_kids (upd h b o')) + cnt c (okids o) = cnt c (all_kids h) + cnt c (okids o'))%nat.
Proof.
  revert b. induction h as [|y h IH]; intros [|b] H; cbn in H; try discriminate.
  - injection H as ->. cbn [upd all_kids flat_map]. rewrite !cnt_app. lia.
  - cbn [upd all_kids flat_map]. rewrite !cnt_app. specialize (IH b H). unfold all_kids in IH. lia.
Qed.

Lemma all_refs_upd h b x o' : live h b x ->
  (all_refs (upd h b o') + b_refs x = all_refs h + match o' with Some y => b_refs y | None => 0 end)%nat.
Proof.
  unfold all_refs, live. revert b. induction h as [|y h IH]; intros [|b] H; cbn in H; try discriminate.
  - injection H as ->. cbn. lia.
  - specialize (IH b H). cbn [upd map list_sum fold_right] in *. unfold list_sum in IH. lia.
Qed.

(** Without references from outside there are no bodies. *)
Lemma inv_empty h b x : Inv h [] -> live h b x -> False.
Proof.
  intros [I D]. assert (G : forall n b x, (length h - b <= n)%nat -> live h b x -> False).
  { induction n as [|n IH]; intros c y Hn L.
    - assert (c < length h)%nat by (apply nth_error_Some; unfold live in L; congruence). lia.
    - specialize (I c) as Ic. unfold live in L. rewrite L in Ic. change (cnt c []) with 0%nat in Ic.
      assert (P : In c (all_kids h)). { apply (count_occ_In Nat.eq_dec). unfold cnt in Ic. lia. }
      unfold all_kids in P. apply in_flat_map in P. destruct P as ([p|] & HP & HK); [|contradiction]. cbn [okids] in HK.
      apply In_nth_error in HP. destruct HP as (q & Lq). pose proof (D q p c Lq HK).
      assert (q < length h)%nat by (apply nth_error_Some; congruence).
      apply (IH q p); [lia|exact Lq]. }
  intros L. eapply G; eauto.
Qed.

(** ** Values are kept *)

(** [h'] has the same bodies as [h] as far as [R] is concerned. *)
Definition agree (R : nat -> Prop) (h h' : heap) : Prop :=
  (forall b x, R b -> live h b x -> exists x', live h' b x' /\ b_data x' = b_data x) /\
  (forall b x k, R b -> live h b x -> In k (kids (b_data x)) -> R k).

Lemma agree_text R h h' r t : agree R h h' -> R (r_body r) -> ok (text h r) = Some t -> ok (text h' r) = Some t.
Proof.
  intros [A _] HR. unfold text, get. destruct (nth_error h (r_body r)) as [[x|]|] eqn:E; cbn [obind ok]; try discriminate.
  destruct (A _ _ HR E) as (x' & L & D). unfold live in L. rewrite L. cbn [obind]. rewrite D. auto.
Qed.

Lemma all_some_map {A B} (f g : A -> option B) l r :
  (forall a b, In a l -> f a = Some b -> g a = Some b) -> all_some (map f l) = Some r -> all_some (map g l) = Some r.
Proof.
  revert r. induction l as [|a l IH]; intros r H E; cbn in *; [exact E|].
  destruct (f a) as [b|] eqn:F; [|discriminate]. rewrite (H a b (or_introl eq_refl) F).
  destruct (all_some (map f l)) as [q|]; [|discriminate]. rewrite (IH q); auto.
Qed.

Lemma slice_in {A} r (l : list A) a : In a (slice r l) -> In a l.
Proof.
  unfold slice. intros H. rewrite <- (firstn_skipn (r_off r) l). apply in_or_app. right.
  rewrite <- (firstn_skipn (r_len r) (skipn (r_off r) l)). apply in_or_app. left. exact H.
Qed.

Lemma denote_agree R h h' : agree R h h' -> forall f v t, (forall b, In b (owned v) -> R b) ->
  denote f h v = Some t -> denote f h' v = Some t.
Proof.
  intros A. induction f as [|f IH]; intros v t HR H; [discriminate|]. cbn [denote] in *.
  unfold owned in HR. destruct (v_type v); try exact H; destruct (v_u v) as [z|r]; cbn [refd bind] in *; try discriminate.
  all: assert (Hr : R (r_body r)) by (apply HR; left; reflexivity).
  - destruct (ok (text h r)) as [t0|] eqn:E; [|discriminate]. rewrite (agree_text R h h' r t0 A Hr E). exact H.
  - unfold strings, get in *. destruct (nth_error h (r_body r)) as [[x|]|] eqn:E; cbn [obind ok bind] in H; try discriminate.
    destruct (proj1 A _ _ Hr E) as (x' & L & D). unfold live in L. rewrite L. cbn [obind]. rewrite D.
    destruct (b_data x) as [| l | |] eqn:DX; cbn [ok bind] in *; try discriminate.
    destruct (all_some (map (fun r => ok (text h r)) (slice r l))) as [ts|] eqn:S; [|discriminate].
    rewrite (all_some_map _ (fun r => ok (text h' r)) _ _) with (2 := S); [exact H|].
    intros a b Ha. apply (agree_text R h h' a b A). apply (proj2 A _ _ (r_body a) Hr E). rewrite DX. cbn.
    apply in_map. eapply slice_in; eauto.
  - unfold variants, get in *. destruct (nth_error h (r_body r)) as [[x|]|] eqn:E; cbn [obind ok bind] in H; try discriminate.
    destruct (proj1 A _ _ Hr E) as (x' & L & D). unfold live in L. rewrite L. cbn [obind]. rewrite D.
    destruct (b_data x) as [| | l |] eqn:DX; cbn [ok bind] in *; try discriminate.
    destruct (all_some (map (denote f h) (slice r l))) as [ts|] eqn:S; [|discriminate].
    rewrite (all_some_map _ (denote f h') _ _) with (2 := S); [exact H|].
    intros a b Ha. apply IH. intros k Hk. apply (proj2 A _ _ k Hr E). rewrite DX. cbn.
    apply in_flat_map. exists a. split; [eapply slice_in; eauto|exact Hk].
  - unfold entries, get in *. destruct (nth_error h (r_body r)) as [[x|]|] eqn:E; cbn [obind ok bind] in H; try discriminate.
    destruct (proj1 A _ _ Hr E) as (x' & L & D). unfold live in L. rewrite L. cbn [obind]. rewrite D.
    destruct (b_data x) as [| | | l] eqn:DX; cbn [ok bind] in *; try discriminate.
    match type of H with bind (all_some (map ?F l)) _ = _ => destruct (all_some (map F l)) as [ts|] eqn:S; [|discriminate] end.
    erewrite all_some_map; [exact H| |exact S].
    intros [k w] b Hp. cbn [fst snd].
    assert (Hin : forall c, In c (r_body k :: owned w) -> R c).
    { intros c Hc. apply (proj2 A _ _ c Hr E). rewrite DX. cbn. apply in_flat_map. exists (k, w). auto. }
    destruct (ok (text h k)) as [tk|] eqn:K; cbn [bind]; [|discriminate].
    rewrite (agree_text R h h' k tk A (Hin _ (or_introl eq_refl)) K). cbn [bind].
    destruct (denote f h w) as [tw|] eqn:W; cbn [bind]; [|discriminate].
    rewrite (IH w tw) by (auto; intros c Hc; apply Hin; right; exact Hc). auto.
Qed.

Lemma all_some_length {A} (l : list (option A)) r : all_some l = Some r -> length r = length l.
Proof.
  revert r. induction l as [|[a|] l IH]; intros r H; cbn in H; try discriminate; [injection H as <-; reflexivity|].
  destruct (all_some l) as [q|]; [|discriminate]. injection H as <-. cbn. rewrite (IH q); reflexivity.
Qed.

Lemma denote_mono f f' h v t : (f <= f')%nat -> denote f h v = Some t -> denote f' h v = Some t.
Proof.
  intros Hf. revert v t. revert f' Hf. induction f as [|f IH]; intros f' Hf v t H; [discriminate|].
  destruct f' as [|f']; [lia|]. cbn [denote] in *. destruct (v_type v); try exact H.
  - destruct (refd (v_u v)); cbn [bind] in *; [|discriminate]. destruct (ok (variants h _)) as [l|]; cbn [bind] in *; [|discriminate].
    destruct (all_some (map (denote f h) l)) as [ts|] eqn:S; [|discriminate].
    rewrite (all_some_map _ (denote f' h) _ _) with (2 := S); [exact H|]. intros a b _. apply IH. lia.
  - destruct (refd (v_u v)); cbn [bind] in *; [|discriminate]. destruct (ok (entries h _)) as [l|]; cbn [bind] in *; [|discriminate].
    match type of H with bind (all_some (map ?F l)) _ = _ => destruct (all_some (map F l)) as [ts|] eqn:S; [|discriminate] end.
    erewrite all_some_map; [exact H| |exact S].
    intros [k w] b _. cbn [fst snd]. destruct (ok (text h k)); cbn [bind]; [|discriminate].
    destruct (denote f h w) as [tw|] eqn:W; cbn [bind]; [|discriminate]. rewrite (IH f' ltac:(lia) w tw W). auto.
Qed.

Lemma means_det h v t t' : means h v t -> means h v t' -> t = t'.
Proof.
  intros [f H] [f' H']. apply (denote_mono f (max f f')) in H; [|lia]. apply (denote_mono f' (max f f')) in H'; [|lia]. congruence.
Qed.

(** What refers to bodies in [roots] keeps its value. *)
Definition keeps (roots : list nat) (h h' : heap) : Prop := forall f v t,
  incl (owned v) roots -> denote f h v = Some t -> denote f h' v = Some t.
Definition ext (h h' : heap) : Prop := forall b x, live h b x -> exists x', live h' b x' /\ b_data x' = b_data x.

Lemma keeps_refl r h : keeps r h h.
Proof. intros f v t _ H. exact H. Qed.
Lemma keeps_trans r a b c : keeps r a b -> keeps r b c -> keeps r a c.
Proof. intros A B f v t I H. apply B; auto. Qed.
Lemma keeps_incl r r' a b : incl r' r -> keeps r a b -> keeps r' a b.
Proof. intros I A f v t J H. apply A; [|exact H]. intros x Hx. apply I, J, Hx. Qed.
Lemma ext_agree h h' : ext h h' -> agree (fun _ => True) h h'.
Proof. intros E. split; auto. Qed.
Lemma ext_denote h h' f v t : ext h h' -> denote f h v = Some t -> denote f h' v = Some t.
Proof. intros E. apply (denote_agree (fun _ => True)); [apply ext_agree, E|auto]. Qed.
Lemma ext_keeps r h h' : ext h h' -> keeps r h h'.
Proof. intros E f v t _ H. eapply ext_denote; eauto. Qed.
Lemma ext_refl h : ext h h.
Proof. intros b x H. eauto. Qed.
Lemma ext_trans a b c : ext a b -> ext b c -> ext a c.
Proof. intros A B k x H. destruct (A k x H) as (y & L & D). destruct (B k y L) as (z & L' & D'). exists z. split; [exact L'|congruence]. Qed.
Lemma ext_text h h' r t : ext h h' -> ok (text h r) = Some t -> ok (text h' r) = Some t.
Proof. intros E. apply (agree_text (fun _ => True)); [apply ext_agree, E|exact I]. Qed.

(** *** Releasing *)
Lemma release_ok f : forall h todo roots, (all_refs h < f)%nat -> Inv h (todo ++ roots) ->
  exists h', release f h todo = Ok h' /\ Inv h' roots /\
    (forall b x', live h' b x' -> exists x, live h b x /\ b_data x = b_data x').
Proof.
  induction f as [|f IH]; intros h todo roots Hf I; [lia|].
  destruct todo as [|b rest]; cbn [release].
  { exists h. split; [reflexivity|]. split; [exact I|]. eauto. }
  destruct (inv_live h _ b I) as (x & L). { cbn [app]. rewrite cnt_cons. destruct (Nat.eq_dec b b); [lia|contradiction]. }
  rewrite (get_live _ _ _ L). cbn [obind].
  destruct I as [I DN]. pose proof (I b) as Ib. unfold live in L. rewrite L in Ib. destruct Ib as [R1 R2].
  assert (Cb : cnt b ((b :: rest) ++ roots) = S (cnt b (rest ++ roots))).
  { cbn [app]. rewrite cnt_cons. destruct (Nat.eq_dec b b); [lia|contradiction]. }
  assert (Cn : forall c, c <> b -> cnt c ((b :: rest) ++ roots) = cnt c (rest ++ roots)).
  { intros c N. cbn [app]. rewrite cnt_cons. destruct (Nat.eq_dec b c); [congruence|lia]. }
  rewrite Cb in R2. clear Cb.
  destruct (b_refs x) as [|[|n]] eqn:RX; [lia| |].
  - destruct (IH (upd h b None) (kids (b_data x) ++ rest) roots) as (h' & E & I' & S).
    + pose proof (all_refs_upd h b x None L) as Q. cbn [b_refs] in Q. rewrite RX in Q. lia.
    + split; [|intros c y k Lc; apply nth_upd_inv in Lc; destruct Lc as [(_ & X & _)|[_ X]]; [discriminate|apply (DN c y k X)]].
      intros c. pose proof (all_kids_upd h b (Some x) None c L) as K. cbn [okids] in K.
      change (cnt c []) with 0%nat in K. rewrite <- app_assoc, cnt_app.
      destruct (Nat.eq_dec c b) as [->|N].
      * rewrite (nth_upd_eq _ _ _ _ L). lia.
      * rewrite nth_upd_ne by congruence. specialize (I c). rewrite (Cn c N) in I.
        destruct (nth_error h c) as [[y|]|]; lia.
    + exists h'. split; [exact E|]. split; [exact I'|]. intros c y Hy. destruct (S c y Hy) as (z & Lz & Dz).
      unfold live in Lz. apply nth_upd_inv in Lz. destruct Lz as [(_ & X & _)|[_ X]]; [discriminate|]. exists z. auto.
  - destruct (IH (upd h b (Some (mkbody (S n) (b_data x)))) rest roots) as (h' & E & I' & S).
    + pose proof (all_refs_upd h b x (Some (mkbody (S n) (b_data x))) L) as Q. cbn [b_refs] in Q. rewrite RX in Q. lia.
    + split; [|intros c y k Lc; apply nth_upd_inv in Lc; destruct Lc as [(-> & X & _)|[_ X]]; [injection X as ->; apply (DN b x k L)|apply (DN c y k X)]].
      intros c. pose proof (all_kids_upd h b (Some x) (Some (mkbody (S n) (b_data x))) c L) as K. cbn [okids b_data] in K.
      destruct (Nat.eq_dec c b) as [->|N].
      * rewrite (nth_upd_eq _ _ _ _ L). cbn [b_refs]. lia.
      * rewrite nth_upd_ne by congruence. specialize (I c). rewrite (Cn c N) in I.
        destruct (nth_error h c) as [[y|]|]; lia.
    + exists h'. split; [exact E|]. split; [exact I'|]. intros c y Hy. destruct (S c y Hy) as (z & Lz & Dz).
      unfold live in Lz. apply nth_upd_inv in Lz. destruct Lz as [(-> & X & _)|[_ X]].
      * injection X as ->. exists x. auto.
      * exists z. auto.
Qed.

Lemma release_all_ok h todo roots : Inv h (todo ++ roots) ->
  exists h', release_all h todo = Ok h' /\ Inv h' roots /\ keeps roots h h'.
Proof.
  intros I. destruct (release_ok (S (all_refs h)) h todo roots ltac:(lia) I) as (h' & E & I' & S).
  exists h'. split; [exact E|]. split; [exact I'|].
  intros f v t HI. apply (denote_agree (fun b => exists x', live h' b x')).
  - split.
    + intros b x (x' & L') L. exists x'. split; [exact L'|]. destruct (S b x' L') as (y & Ly & Dy).
      unfold live in *. congruence.
    + intros b x k (x' & L') L Hk. destruct (S b x' L') as (y & Ly & Dy).
      assert (y = x) by (unfold live in *; congruence). subst y.
      apply (inv_live h' roots k I'). assert (In k (all_kids h')) as J by (eapply kids_in; [exact L'|congruence]).
      apply cnt_in in J. lia.
  - intros b Hb. apply (inv_live h' roots b I'). apply HI, cnt_in in Hb. lia.
Qed.

(** *** Taking references, new bodies *)
Lemma add_ref_ok h roots b x : Inv h roots -> live h b x ->
  exists h', add_ref h b = Ok h' /\ Inv h' (b :: roots) /\ ext h h'.
Proof.
  intros [I DN] L. unfold add_ref. rewrite (get_live _ _ _ L). cbn [obind]. eexists. split; [reflexivity|]. split.
  - split; [|intros c y k Lc; apply nth_upd_inv in Lc; destruct Lc as [(-> & X & _)|[_ X]]; [injection X as ->; apply (DN b x k L)|apply (DN c y k X)]].
    intros c. pose proof (all_kids_upd h b (Some x) (Some (mkbody (S (b_refs x)) (b_data x))) c L) as K. cbn [okids b_data] in K.
    rewrite cnt_cons. specialize (I c). destruct (Nat.eq_dec b c) as [<-|N].
    + rewrite (nth_upd_eq _ _ _ _ L). unfold live in L. rewrite L in I. cbn [b_refs]. lia.
    + rewrite nth_upd_ne by congruence. destruct (nth_error h c) as [[y|]|]; lia.
  - intros c y Ly. destruct (Nat.eq_dec c b) as [->|N].
    + eexists. split; [unfold live; eapply nth_upd_eq; exact L|]. unfold live in *. cbn [b_data]. congruence.
    + exists y. split; [unfold live; rewrite nth_upd_ne by congruence; exact Ly|reflexivity].
Qed.

Lemma all_kids_app h h' : all_kids (h ++ h') = all_kids h ++ all_kids h'.
Proof. unfold all_kids. apply flat_map_app. Qed.

Lemma new_body_ok h roots d : Inv h (kids d ++ roots) ->
  Inv (fst (new_body h d)) (snd (new_body h d) :: roots) /\ ext h (fst (new_body h d)) /\
  live (fst (new_body h d)) (snd (new_body h d)) (mkbody 1 d).
Proof.
  intros I0. assert (NEW : forall k, In k (kids d) -> (k < length h)%nat).
  { intros k Hk. destruct (inv_live h _ k I0) as (x & L). { rewrite cnt_app. apply cnt_in in Hk. lia. }
    apply nth_error_Some. unfold live in L. congruence. }
  destruct I0 as [I DN]. cbn [new_body fst snd]. split; [|split].
  - split; [|intros c y k Lc; unfold live in Lc; destruct (Nat.lt_ge_cases c (length h)) as [Hc|Hc];
      [rewrite nth_error_app1 in Lc by lia; apply (DN c y k Lc)|rewrite nth_error_app2 in Lc by lia;
       destruct (c - length h)%nat as [|[|?]] eqn:EC; cbn in Lc; try discriminate; injection Lc as <-; cbn [b_data];
       intros Hk; apply NEW in Hk; lia]].
    intros c. rewrite all_kids_app, cnt_app. cbn [all_kids flat_map okids b_data]. rewrite app_nil_r, cnt_cons.
    specialize (I c). rewrite cnt_app in I. unfold all_kids in *. destruct (Nat.eq_dec (length h) c) as [<-|N].
    + rewrite nth_error_app2, Nat.sub_diag by lia. cbn [nth_error].
      assert (X : nth_error h (length h) = None) by (apply nth_error_None; lia). rewrite X in I. cbn [b_refs]. lia.
    + destruct (Nat.lt_ge_cases c (length h)) as [Hc|Hc].
      * rewrite nth_error_app1 by lia. destruct (nth_error h c) as [[y|]|]; lia.
      * assert (X : nth_error h c = None) by (apply nth_error_None; lia). rewrite X in I.
        rewrite (proj2 (nth_error_None (h ++ [Some (mkbody 1 d)]) c)) by (rewrite app_length; cbn; lia). lia.
  - intros b x L. exists x. split; [|reflexivity]. unfold live in *. rewrite nth_error_app1; [exact L|].
    apply nth_error_Some. congruence.
  - unfold live. rewrite nth_error_app2, Nat.sub_diag by lia. reflexivity.
Qed.

Lemma text_live h r t : ok (text h r) = Some t -> exists x, live h (r_body r) x.
Proof. unfold text, get, live. destruct (nth_error h (r_body r)) as [[x|]|]; cbn; try discriminate. eauto. Qed.

(** A variant with a value: its object exists. *)
Lemma denote_object f h v t : denote f h v = Some t ->
  match v_type v with
  | TNone | TInteger | TLong | TLongLong => owned v = []
  | _ => exists r x, v_u v = Obj r /\ owned v = [r_body r] /\ live h (r_body r) x
  end.
Proof.
  destruct f as [|f]; [discriminate|]. cbn [denote]. unfold owned.
  destruct (v_type v); auto; destruct (v_u v) as [z|r]; cbn [refd bind]; try discriminate.
  - unfold text, get. destruct (nth_error h (r_body r)) as [[x|]|] eqn:E; cbn; try discriminate. intros _. exists r, x. auto.
  - unfold strings, get. destruct (nth_error h (r_body r)) as [[x|]|] eqn:E; cbn; try discriminate. intros _. exists r, x. auto.
  - unfold variants, get. destruct (nth_error h (r_body r)) as [[x|]|] eqn:E; cbn; try discriminate. intros _. exists r, x. auto.
  - unfold entries, get. destruct (nth_error h (r_body r)) as [[x|]|] eqn:E; cbn; try discriminate. intros _. exists r, x. auto.
Qed.

Lemma get_set_i u i : get_i (set_i u i) = s32 i.
Proof.
  unfold get_i, set_i, bits, s32, u32. set (z := match u with Bits z => z | Obj _ => 0 end).
  assert (X : (z - z mod 4294967296 + i mod 4294967296) mod 4294967296 = i mod 4294967296).
  { rewrite Z.add_mod, Zminus_mod_idemp_r, Z.sub_diag, Z.mod_0_l, Z.add_0_l, !Z.mod_mod by lia. reflexivity. }
  rewrite X. reflexivity.
Qed.
Lemma get_set_l i : get_l (set_l i) = s64 i.
Proof. unfold get_l, set_l, bits, s64, u64. rewrite Z.mod_mod by lia. reflexivity. Qed.
Lemma s32_s32 z : s32 (s32 z) = s32 z.
Proof.
  unfold s32. destruct (Z.ltb_spec (z mod 4294967296) 2147483648).
  - rewrite Z.mod_mod by lia. destruct (Z.ltb_spec (z mod 4294967296) 2147483648); lia.
  - rewrite Zminus_mod, Z_mod_same_full, Z.sub_0_r, !Z.mod_mod by lia.
    destruct (Z.ltb_spec (z mod 4294967296) 2147483648); lia.
Qed.
Lemma s64_s64 z : s64 (s64 z) = s64 z.
Proof.
  unfold s64. destruct (Z.ltb_spec (z mod 18446744073709551616) 9223372036854775808).
  - rewrite Z.mod_mod by lia. destruct (Z.ltb_spec (z mod 18446744073709551616) 9223372036854775808); lia.
  - rewrite Zminus_mod, Z_mod_same_full, Z.sub_0_r, !Z.mod_mod by lia.
    destruct (Z.ltb_spec (z mod 18446744073709551616) 9223372036854775808); lia.
Qed.
Lemma s32_id z : -2^31 <= z < 2^31 -> s32 z = z.
Proof.
  intros H. unfold s32. destruct (Z.ltb_spec (z mod 4294967296) 2147483648) as [L|L];
    destruct (Z.lt_ge_cases z 0) as [N|N].
  - replace z with (z + 4294967296 + (-1) * 4294967296) in L at 1 by lia. rewrite Z_mod_plus_full, Z.mod_small in L by lia. lia.
  - apply Z.mod_small. lia.
  - replace z with (z + 4294967296 + (-1) * 4294967296) at 1 by lia. rewrite Z_mod_plus_full, Z.mod_small by lia. lia.
  - rewrite Z.mod_small in L by lia. lia.
Qed.
Lemma s64_id z : -2^63 <= z < 2^63 -> s64 z = z.
Proof.
  intros H. unfold s64. destruct (Z.ltb_spec (z mod 18446744073709551616) 9223372036854775808) as [L|L];
    destruct (Z.lt_ge_cases z 0) as [N|N].
  - replace z with (z + 18446744073709551616 + (-1) * 18446744073709551616) in L at 1 by lia. rewrite Z_mod_plus_full, Z.mod_small in L by lia. lia.
  - apply Z.mod_small. lia.
  - replace z with (z + 18446744073709551616 + (-1) * 18446744073709551616) at 1 by lia. rewrite Z_mod_plus_full, Z.mod_small by lia. lia.
  - rewrite Z.mod_small in L by lia. lia.
Qed.

Lemma copy_ok h roots f v t : Inv h roots -> denote f h v = Some t ->
  exists h' v', copy h v = Ok (h', v') /\ Inv h' (owned v' ++ roots) /\ ext h h' /\ denote f h' v' = Some t /\
    v_type v' = v_type v.
Proof.
  intros I D. pose proof (denote_object _ _ _ _ D) as O. unfold copy. destruct f as [|f]; [discriminate|].
  destruct (v_type v) eqn:T.
  1-4: eexists; eexists; split; [reflexivity|]; split; [exact I|]; split; [apply ext_refl|]; split; [|reflexivity];
    cbn [denote v_type v_u] in *; rewrite T in D; rewrite ?get_set_i, ?get_set_l; rewrite <- D; try reflexivity.
  - unfold get_i. rewrite s32_s32. reflexivity.
  - unfold get_l. rewrite s64_s64. reflexivity.
  - unfold get_l. rewrite s64_s64. reflexivity.
  - destruct O as (r & x & EU & EO & L). unfold object. rewrite EU. cbn [obind].
    destruct (add_ref_ok h roots _ x I L) as (h' & E & I' & X). rewrite E. cbn [obind].
    eexists; eexists; split; [reflexivity|]; split; [exact I'|]; split; [exact X|]; split; [|reflexivity].
    apply (ext_denote h h' _ _ _ X). rewrite <- D. cbn [denote v_type v_u]. rewrite T, EU. reflexivity.
  - destruct O as (r & x & EU & EO & L). unfold object. rewrite EU. cbn [obind].
    destruct (add_ref_ok h roots _ x I L) as (h' & E & I' & X). rewrite E. cbn [obind].
    eexists; eexists; split; [reflexivity|]; split; [exact I'|]; split; [exact X|]; split; [|reflexivity].
    apply (ext_denote h h' _ _ _ X). rewrite <- D. cbn [denote v_type v_u]. rewrite T, EU. reflexivity.
  - destruct O as (r & x & EU & EO & L). unfold object. rewrite EU. cbn [obind].
    destruct (add_ref_ok h roots _ x I L) as (h' & E & I' & X). rewrite E. cbn [obind].
    eexists; eexists; split; [reflexivity|]; split; [exact I'|]; split; [exact X|]; split; [|reflexivity].
    apply (ext_denote h h' _ _ _ X). rewrite <- D. cbn [denote v_type v_u]. rewrite T, EU. reflexivity.
  - destruct O as (r & x & EU & EO & L). unfold object. rewrite EU. cbn [obind].
    destruct (add_ref_ok h roots _ x I L) as (h' & E & I' & X). rewrite E. cbn [obind].
    eexists; eexists; split; [reflexivity|]; split; [exact I'|]; split; [exact X|]; split; [|reflexivity].
    apply (ext_denote h h' _ _ _ X). rewrite <- D. cbn [denote v_type v_u]. rewrite T, EU. reflexivity.
Qed.
