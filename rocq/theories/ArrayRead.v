(** Read-only operations and the functional helpers. *)
From Verif Require Import Base RefModel RefProofs LatchProofs ArrayModel ArraySpec ArrayProofs ArrayHeap ArrayOps.
Ltac Zify.zify_post_hook ::= Z.div_mod_to_equations.

Section Read.
Context {A : Type}.
Implicit Types (h : heap A) (L M : list A).

Lemma skipn_cons (l : list A) n a : nth_error l n = Some a -> skipn n l = a :: skipn (S n) l.
Proof.
  intros H. apply nth_ext_list. intros j. rewrite nth_skipn. destruct j as [|j]; [rewrite Nat.add_0_r; exact H|].
  cbn [nth_error]. rewrite nth_skipn. f_equal. lia.
Qed.

Lemma visit_spec {B} (f : B -> A -> B) h s L : slice_ok h s -> view h s = Some L -> forall k i acc, (i + k = length L)%nat ->
  visit k (Z.of_nat i) f acc h s = Ok (fold_left f (skipn i L) acc).
Proof.
  intros K V. induction k as [|k IH]; intros i acc H.
  - rewrite skipn_all2 by lia. reflexivity.
  - cbn [visit]. destruct (view_elem h s L (Z.of_nat i) V K ltac:(lia)) as (a & E & N). rewrite Nat2Z.id in N. rewrite E. cbn [obind].
    replace (Z.of_nat i + 1) with (Z.of_nat (S i)) by lia. rewrite IH by lia. rewrite (skipn_cons L i a N). reflexivity.
Qed.
Lemma all_spec p h s L : slice_ok h s -> view h s = Some L -> forall k i, (i + k = length L)%nat ->
  all_loop k (Z.of_nat i) p h s = Ok (forallb p (skipn i L)).
Proof.
  intros K V. induction k as [|k IH]; intros i H.
  - rewrite skipn_all2 by lia. reflexivity.
  - cbn [all_loop]. destruct (view_elem h s L (Z.of_nat i) V K ltac:(lia)) as (a & E & N). rewrite Nat2Z.id in N. rewrite E. cbn [obind].
    rewrite (skipn_cons L i a N). cbn [forallb]. destruct (p a); [|reflexivity].
    replace (Z.of_nat i + 1) with (Z.of_nat (S i)) by lia. rewrite IH by lia. reflexivity.
Qed.
Lemma any_spec p h s L : slice_ok h s -> view h s = Some L -> forall k i, (i + k = length L)%nat ->
  any_loop k (Z.of_nat i) p h s = Ok (existsb p (skipn i L)).
Proof.
  intros K V. induction k as [|k IH]; intros i H.
  - rewrite skipn_all2 by lia. reflexivity.
  - cbn [any_loop]. destruct (view_elem h s L (Z.of_nat i) V K ltac:(lia)) as (a & E & N). rewrite Nat2Z.id in N. rewrite E. cbn [obind].
    rewrite (skipn_cons L i a N). cbn [existsb]. destruct (p a); [reflexivity|].
    replace (Z.of_nat i + 1) with (Z.of_nat (S i)) by lia. rewrite IH by lia. reflexivity.
Qed.
Lemma one_spec p h s L : slice_ok h s -> view h s = Some L -> forall k i fd, (i + k = length L)%nat ->
  one_loop k (Z.of_nat i) fd p h s = Ok (Nat.eqb ((if fd then 1 else 0) + length (filter p (skipn i L))) 1).
Proof.
  intros K V. induction k as [|k IH]; intros i fd H.
  - rewrite skipn_all2 by lia. cbn. destruct fd; reflexivity.
  - cbn [one_loop]. destruct (view_elem h s L (Z.of_nat i) V K ltac:(lia)) as (a & E & N). rewrite Nat2Z.id in N. rewrite E. cbn [obind].
    rewrite (skipn_cons L i a N). cbn [filter]. replace (Z.of_nat i + 1) with (Z.of_nat (S i)) by lia. destruct (p a).
    + destruct fd; [reflexivity|]. rewrite IH by lia. reflexivity.
    + rewrite IH by lia. reflexivity.
Qed.

Lemma find_spec p h s L : slice_ok h s -> view h s = Some L -> forall k i, (length L - i < k)%nat ->
  exists r, find_loop k (Z.of_nat i) p h s = Ok r /\ first_at p L i r.
Proof.
  intros K V. destruct (view_len h s L K V) as (LN & _). induction k as [|k IH]; intros i H; [lia|].
  cbn [find_loop]. destruct (Z.ltb_spec (Z.of_nat i) (s_num s)).
  - destruct (view_elem h s L (Z.of_nat i) V K ltac:(lia)) as (a & E & N). rewrite Nat2Z.id in N. rewrite E. cbn [obind].
    destruct (p a) eqn:P.
    + eexists. split; [reflexivity|]. right. exists i, a. repeat split; try assumption; lia.
    + replace (Z.of_nat i + 1) with (Z.of_nat (S i)) by lia. destruct (IH (S i) ltac:(lia)) as (r & Er & F). exists r. split; [exact Er|].
      destruct F as [[-> F]|(n & b & -> & F1 & F2 & F3 & F4)].
      * left. split; [reflexivity|]. intros j c Hj Hc. destruct (Nat.eq_dec j i) as [->|]; [congruence|]. exact (F j c ltac:(lia) Hc).
      * right. exists n, b. repeat split; try assumption; try lia. intros j c Hj Hc. destruct (Nat.eq_dec j i) as [->|]; [congruence|]. exact (F4 j c ltac:(lia) Hc).
  - eexists. split; [reflexivity|]. left. split; [reflexivity|]. intros j a Hj Ha. apply nth_lt in Ha. lia.
Qed.

Lemma rfind_spec p h s L : slice_ok h s -> view h s = Some L -> forall i, (i < length L)%nat \/ i = 0%nat ->
  exists r, rfind_loop i p h s = Ok r /\ last_in p L 1 (S i) r.
Proof.
  intros K V. destruct (view_len h s L K V) as (LN & _). induction i as [|i IH]; intros H.
  - eexists. split; [reflexivity|]. left. split; [reflexivity|]. intros; lia.
  - cbn [rfind_loop]. destruct (view_elem h s L (Z.of_nat (S i)) V K ltac:(lia)) as (a & E & N). rewrite Nat2Z.id in N.
    rewrite E. cbn [obind]. destruct (p a) eqn:P.
    + eexists. split; [reflexivity|]. right. exists (S i), a. repeat split; try assumption; try lia.
    + destruct (IH ltac:(lia)) as (r & Er & F). exists r. split; [exact Er|].
      destruct F as [[-> F]|(n & b & -> & F1 & F2 & F3 & F4)].
      * left. split; [reflexivity|]. intros j c Hj Hc. destruct (Nat.eq_dec j (S i)) as [->|]; [congruence|]. exact (F j c ltac:(lia) Hc).
      * right. exists n, b. repeat split; try assumption; try lia. intros j c Hj Hc. destruct (Nat.eq_dec j (S i)) as [->|]; [congruence|]. exact (F4 j c ltac:(lia) Hc).
Qed.

Lemma compare_spec ltb h s w L M : slice_ok h s -> view h s = Some L -> slice_ok h w -> view h w = Some M ->
  compare ltb h s w = Ok (lex_compare ltb (firstn (length M) L) M).
Proof.
  intros K V KW VW. destruct (view_len h s L K V) as (LN & _). destruct (view_len h w M KW VW) as (WN & _). unfold compare.
  assert (G : forall k i, (length L - i < k)%nat -> (i <= length L)%nat -> (i <= length M)%nat ->
    exists r, compare_loop k (Z.of_nat i) ltb h s w = Ok r /\
      (match fst r with Some c => c | None => if snd r <? s_num w then -1 else 0 end) = lex_compare ltb (firstn (length M - i) (skipn i L)) (skipn i M)).
  { induction k as [|k IH]; intros i Hk HL HM; [lia|]. cbn [compare_loop].
    destruct (Z.ltb_spec (Z.of_nat i) (s_num s)); destruct (Z.ltb_spec (Z.of_nat i) (s_num w)); cbn [andb].
    - destruct (nth_some_lt L i ltac:(lia)) as [a Ha]. destruct (nth_some_lt M i ltac:(lia)) as [b Hb].
      rewrite (elem_ok h s (Z.of_nat i) L a K V) by (rewrite ?Nat2Z.id; try assumption; lia).
      rewrite (elem_ok h w (Z.of_nat i) M b KW VW) by (rewrite ?Nat2Z.id; try assumption; lia). cbn [obind].
      rewrite (skipn_cons L i a Ha), (skipn_cons M i b Hb). destruct (length M - i)%nat as [|m] eqn:Em; [lia|]. cbn [firstn lex_compare].
      destruct (ltb a b); [eexists; split; reflexivity|]. destruct (ltb b a); [eexists; split; reflexivity|].
      replace (Z.of_nat i + 1) with (Z.of_nat (S i)) by lia. replace m with (length M - S i)%nat by lia. apply IH; lia.
    - eexists. split; [reflexivity|]. cbn [fst snd]. destruct (Z.ltb_spec (Z.of_nat i) (s_num w)); [lia|].
      replace (length M - i)%nat with 0%nat by lia. rewrite (skipn_all2 M) by lia. reflexivity.
    - eexists. split; [reflexivity|]. cbn [fst snd]. destruct (Z.ltb_spec (Z.of_nat i) (s_num w)); [|lia].
      rewrite (skipn_all2 L) by lia. rewrite firstn_nil. destruct (nth_some_lt M i ltac:(lia)) as [b Hb]. rewrite (skipn_cons M i b Hb). reflexivity.
    - eexists. split; [reflexivity|]. cbn [fst snd]. destruct (Z.ltb_spec (Z.of_nat i) (s_num w)); [lia|].
      rewrite (skipn_all2 L), (skipn_all2 M) by lia. rewrite firstn_nil. reflexivity. }
  destruct (G (S (Z.to_nat (s_num s))) 0%nat ltac:(lia) ltac:(lia) ltac:(lia)) as (r & E & R).
  change (Z.of_nat 0) with 0 in E. rewrite E. cbn [obind]. rewrite Nat.sub_0_r in R. cbn [skipn] in R. rewrite <- R.
  destruct (fst r); [reflexivity|]. destruct (snd r <? s_num w); reflexivity.
Qed.

Lemma equal_spec eqb h s w L M : (forall a b, eqb a b = true <-> a = b) -> slice_ok h s -> view h s = Some L -> slice_ok h w -> view h w = Some M ->
  exists r, equal eqb h s w = Ok r /\ (r = true <-> L = M).
Proof.
  intros EQ K V KW VW. destruct (view_len h s L K V) as (LN & _). destruct (view_len h w M KW VW) as (WN & _). unfold equal.
  destruct (Z.eqb_spec (s_num s) (s_num w)); cbn [negb].
  2:{ eexists. split; [reflexivity|]. split; [discriminate|intros ->; lia]. }
  assert (G : forall k i, (length L - i < k)%nat -> (i <= length L)%nat ->
    exists r, equal_loop k (Z.of_nat i) eqb h s w = Ok r /\ (r = true <-> skipn i L = skipn i M)).
  { induction k as [|k IH]; intros i Hk HL; [lia|]. cbn [equal_loop].
    destruct (Z.ltb_spec (Z.of_nat i) (s_num s)); destruct (Z.ltb_spec (Z.of_nat i) (s_num w)); cbn [andb]; try lia.
    - destruct (nth_some_lt L i ltac:(lia)) as [a Ha]. destruct (nth_some_lt M i ltac:(lia)) as [b Hb].
      rewrite (elem_ok h s (Z.of_nat i) L a K V) by (rewrite ?Nat2Z.id; try assumption; lia).
      rewrite (elem_ok h w (Z.of_nat i) M b KW VW) by (rewrite ?Nat2Z.id; try assumption; lia). cbn [obind].
      rewrite (skipn_cons L i a Ha), (skipn_cons M i b Hb). destruct (eqb a b) eqn:E.
      + replace (Z.of_nat i + 1) with (Z.of_nat (S i)) by lia. destruct (IH (S i) ltac:(lia) ltac:(lia)) as (r & Er & R). exists r. split; [exact Er|].
        apply EQ in E. subst b. rewrite R. split; [intros ->; reflexivity|congruence].
      + eexists. split; [reflexivity|]. split; [discriminate|]. intros X. injection X as X _. apply EQ in X. congruence.
    - eexists. split; [reflexivity|]. rewrite !skipn_all2 by lia. tauto. }
  exact (G (S (Z.to_nat (s_num s))) 0%nat ltac:(lia) ltac:(lia)).
Qed.

Lemma unshare_off h s ex h' s' : s_off s = 0 -> unshare h s ex = Ok (h', s') -> s_off s' = 0.
Proof.
  intros O H. unfold unshare in H. destruct (s_body s).
  - apply obind_ok in H as (x & _ & H). destruct (_ <=? _); [injection H as <- <-; exact O|].
    apply obind_ok in H as (y & _ & H). apply obind_ok in H as (h1 & _ & H). apply obind_ok in H as (h2 & _ & H). injection H as <- <-. reflexivity.
  - apply obind_ok in H as (y & _ & H). apply obind_ok in H as (h1 & _ & H). apply obind_ok in H as (h2 & _ & H). injection H as <- <-. reflexivity.
Qed.
Lemma push_off h s (a : A) h' s' : s_off s = 0 -> push h s a = Ok (h', s') -> s_off s' = 0.
Proof.
  intros O H. unfold push in H. apply obind_ok in H as ([h1 s1] & U & H). cbn beta iota in H. assert (O1 := unshare_off _ _ _ _ _ O U).
  destruct (s_body s1); [|discriminate]. apply obind_ok in H as (x & _ & H). apply obind_ok in H as (x' & _ & H). injection H as <- <-. exact O1.
Qed.

Definition collected (f : A -> option A) (l : list A) : list A :=
  flat_map (fun a => match f a with Some b => [b] | None => [] end) l.

Lemma collect_spec f s L hs : In s hs -> forall k i h sel acc r, WF h (sel :: hs) -> view h sel = Some acc -> s_off sel = 0 ->
  view h s = Some L -> (i + k = length L)%nat -> collect_loop k (Z.of_nat i) f h s sel = Ok r ->
  post h hs r (acc ++ collected f (skipn i L)).
Proof.
  intros IN. induction k as [|k IH]; intros i h sel acc r W VA O V H R.
  - injection R as <-. rewrite skipn_all2 by lia. cbn. rewrite app_nil_r.
    split; [exact W|]. split; [apply same_all_refl; exact (WF_tail_ok _ _ _ W)|exact VA].
  - cbn [collect_loop] in R.
    assert (KS : slice_ok h s) by (assert (T := WF_tail_ok _ _ _ W); rewrite Forall_forall in T; exact (T s IN)).
    destruct (view_elem h s L (Z.of_nat i) V KS ltac:(lia)) as (a & E & N). rewrite Nat2Z.id in N. rewrite E in R. cbn [obind] in R.
    replace (Z.of_nat i + 1) with (Z.of_nat (S i)) in R by lia. rewrite (skipn_cons L i a N). cbn [collected flat_map]. fold (collected f).
    destruct (f a) as [b|].
    + apply obind_ok in R as ([h1 sel1] & P & R). cbn beta iota in R.
      destruct (push_spec h sel hs b _ acc W VA P) as (L' & (W1 & SA & V1) & _ & Q). cbn [fst snd] in *.
      rewrite Q in V1 by (intros ? ? _ _ _; exact O).
      assert (VS : view h1 s = Some L). { unfold same_all in SA. rewrite Forall_forall in SA. rewrite (same_view _ _ _ (SA s IN)). exact V. }
      destruct (IH (S i) h1 sel1 (acc ++ [b]) r W1 V1 (push_off _ _ _ _ _ O P) VS ltac:(lia) R) as (P1 & P2 & P3).
      split; [exact P1|]. split; [eapply same_all_trans; eassumption|]. rewrite P3. rewrite <- app_assoc. reflexivity.
    + exact (IH (S i) h sel acc r W VA O V ltac:(lia) R).
Qed.

Lemma select_spec p h s hs L r : WF h hs -> In s hs -> view h s = Some L -> select p h s = Ok r -> post h hs r (filter p L).
Proof.
  intros W IN V H. unfold select, with_body in H. destruct (s_body s); [|discriminate].
  assert (KS : slice_ok h s) by (destruct W as [_ T]; rewrite Forall_forall in T; exact (T s IN)).
  destruct (view_len h s L KS V) as (LN & _). destruct (null_spec h hs W) as (W0 & _ & V0).
  assert (P := collect_spec _ s L hs IN (Z.to_nat (s_num s)) 0%nat h null_slice [] r W0 V0 eq_refl V ltac:(lia) H).
  cbn [app skipn] in P. replace (filter p L) with (collected (fun a => if p a then Some a else None) L); [exact P|].
  clear. induction L as [|a L IH]; cbn; [reflexivity|]. rewrite <- IH. destruct (p a); reflexivity.
Qed.
Lemma map_spec f h s hs L r : WF h hs -> In s hs -> view h s = Some L -> map_ f h s = Ok r -> post h hs r (map f L).
Proof.
  intros W IN V H. unfold map_ in H. apply obind_ok in H as ([h1 out] & MK & H). cbn beta iota in H.
  unfold with_body in H. destruct (s_body s); [|discriminate].
  assert (KS : slice_ok h s) by (destruct W as [_ T]; rewrite Forall_forall in T; exact (T s IN)).
  destruct (view_len h s L KS V) as (LN & _).
  assert (OF : s_off out = 0). { unfold make in MK. apply obind_ok in MK as (x & _ & MK). apply obind_ok in MK as (h2 & _ & MK). injection MK as <- <-. reflexivity. }
  destruct (make_spec h hs [] _ _ W ltac:(cbn; lia) MK) as (W0 & SA & V0). cbn [fst snd] in *.
  assert (VS : view h1 s = Some L). { unfold same_all in SA. rewrite Forall_forall in SA. rewrite (same_view _ _ _ (SA s IN)). exact V. }
  destruct (collect_spec _ s L hs IN (Z.to_nat (s_num s)) 0%nat h1 out [] r W0 V0 OF VS ltac:(lia) H) as (P1 & P2 & P3).
  split; [exact P1|]. split; [eapply same_all_trans; eassumption|]. rewrite P3. cbn [app skipn]. f_equal.
Qed.
End Read.
