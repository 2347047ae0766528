(** The positions of a source in a text. *)
From Verif Require Import Base UTF8Model UTF8Spec UTF8Proofs PegModel PegSpec PegText.

Definition textb (t : list Z) : Prop := Forall (fun b => 1 <= b <= 255) t.

Lemma textb_bytes t : textb t -> bytes t.
Proof. intros H. eapply Forall_impl; [|exact H]. unfold is_byte. cbn. lia. Qed.

Lemma textb_skipn k t : textb t -> textb (skipn k t).
Proof. intros H. rewrite <- (firstn_skipn k t) in H. apply Forall_app in H. tauto. Qed.

Definition nl_count (cs : list Z) : Z := Z.of_nat (length (filter (fun c => c =? 10) cs)).

(** Number of characters after the last newline. *)
Definition since_nl (cs : list Z) : Z := fold_left (fun a c => if c =? 10 then 0 else a + 1) cs 0.

Section Src.
Variable tx cs : list Z.
Hypothesis Htx : textb tx.
Hypothesis Hcs : decode_all tx = Ok cs.

Definition nxt (s : src) : src := match get_char s with Done (_, s') => s' | _ => s end.
Fixpoint snth (n : nat) : src := match n with O => src_start tx | S n => nxt (snth n) end.

Definition stands (n : nat) (s : src) : Prop :=
  exists pre, tx = pre ++ s_rest s /\ s_bytes s = Z.of_nat (length pre) /\
    decode_all (s_rest s) = Ok (skipn n cs) /\
    s_line s = 1 + nl_count (firstn n cs) /\ s_col s = 1 + since_nl (firstn n cs).

Lemma stands_textb n s : stands n s -> textb (s_rest s).
Proof. intros (pre & E & _). pose proof Htx as Ht. rewrite E in Ht. apply Forall_app in Ht. tauto. Qed.

Lemma skipn_nth (A : Type) (l : list A) n c : nth_error l n = Some c -> skipn n l = c :: skipn (S n) l.
Proof.
  revert l; induction n; intros [|x l] H; cbn in *; try discriminate.
  - injection H as ->. reflexivity.
  - apply IHn in H. exact H.
Qed.

Lemma firstn_snoc (A : Type) (l : list A) n c : nth_error l n = Some c -> firstn (S n) l = firstn n l ++ [c].
Proof.
  revert l; induction n; intros [|x l] H; cbn in *; try discriminate.
  - injection H as ->. reflexivity.
  - apply IHn in H. cbn in H. rewrite H. reflexivity.
Qed.

Lemma stands_rest_nil n s : stands n s -> (s_rest s = [] <-> (length cs <= n)%nat).
Proof.
  intros H. pose proof (stands_textb _ _ H) as Ht. destruct H as (pre & _ & _ & D & _). split; intros E.
  - rewrite E in D. cbn in D. injection D as D. apply (f_equal (@length Z)) in D.
    rewrite skipn_length in D. cbn in D. lia.
  - rewrite skipn_all2 in D by lia. apply decode_nil_inv in D; auto using textb_bytes.
Qed.

Lemma stands_eof n s : stands n s -> at_eof s = match nth_error cs n with Some _ => false | None => true end.
Proof.
  intros H. pose proof (stands_textb _ _ H) as Ht. pose proof (stands_rest_nil _ _ H) as R.
  unfold at_eof. destruct (nth_error cs n) eqn:E.
  - destruct (s_rest s) as [|b r].
    + assert (length cs <= n)%nat by tauto. apply nth_error_None in H0. congruence.
    + inversion Ht; subst. apply Z.eqb_neq. lia.
  - apply nth_error_None in E. rewrite (proj2 R E). reflexivity.
Qed.

Lemma stands_get n s c : stands n s -> nth_error cs n = Some c ->
  exists s', get_char s = Done (c, s') /\ stands (S n) s' /\ (length (s_rest s') < length (s_rest s))%nat.
Proof.
  intros H E. pose proof (stands_textb _ _ H) as Ht. pose proof (stands_eof _ _ H) as Ef. rewrite E in Ef.
  destruct H as (pre & Et & Eb & D & El & Ec).
  assert (Hne : s_rest s <> []). { unfold at_eof in Ef. destruct (s_rest s); discriminate. }
  rewrite (skipn_nth _ _ _ _ E) in D.
  rewrite decode_all_cons in D; auto using textb_bytes.
  unfold get_char. rewrite Ef.
  destruct (UTF8Get (s_rest s ++ [0])) as [[c' k]| |] eqn:Gt; cbn [obind] in D; try discriminate.
  destruct (decode_all (skipn k (s_rest s))) as [rest| |] eqn:Dr; cbn [obind] in D; try discriminate.
  injection D as -> ->. cbn [lift rbind].
  assert (W := get_within (s_rest s) [] c k (textb_bytes _ Ht) ltac:(constructor) Hne Gt).
  eexists. split; [reflexivity|]. split.
  - exists (pre ++ firstn k (s_rest s)). cbn [s_rest s_bytes s_line s_col].
    rewrite <- app_assoc, firstn_skipn, app_length, firstn_length, Eb.
    split; [exact Et|]. split; [lia|]. split; [exact Dr|].
    rewrite (firstn_snoc _ _ _ _ E). unfold nl_count, since_nl in *.
    rewrite filter_app, app_length, fold_left_app. cbn [filter fold_left].
    rewrite El, Ec. destruct (c =? 10); cbn [length]; lia.
  - cbn [s_rest]. rewrite skipn_length. lia.
Qed.

Lemma snth_stands n : (n <= length cs)%nat -> stands n (snth n).
Proof.
  induction n; intros Hn.
  - exists []. cbn. unfold nl_count, since_nl. cbn. auto.
  - cbn [snth]. unfold nxt. destruct (nth_error cs n) as [c|] eqn:E.
    + destruct (stands_get _ _ _ (IHn ltac:(lia)) E) as (s' & -> & H & _). exact H.
    + apply nth_error_None in E. lia.
Qed.

Lemma snth_get n c : nth_error cs n = Some c -> get_char (snth n) = Done (c, snth (S n)).
Proof.
  intros E. assert (n < length cs)%nat by (apply nth_error_Some; congruence).
  destruct (stands_get _ _ _ (snth_stands n ltac:(lia)) E) as (s' & G & _).
  cbn [snth]. unfold nxt. rewrite G. reflexivity.
Qed.

Lemma snth_eof n : (n <= length cs)%nat ->
  at_eof (snth n) = match nth_error cs n with Some _ => false | None => true end.
Proof. intros H. apply stands_eof, snth_stands, H. Qed.

Lemma snth_len n m : (n < m)%nat -> (m <= length cs)%nat ->
  (length (s_rest (snth m)) < length (s_rest (snth n)))%nat.
Proof.
  intros H. induction H; intros Hm.
  - destruct (nth_error cs n) as [c|] eqn:E; [|apply nth_error_None in E; lia].
    destruct (stands_get _ _ _ (snth_stands n ltac:(lia)) E) as (s' & G & _ & L).
    rewrite (snth_get _ _ E) in G. assert (s' = snth (S n)) by congruence. subst s'. exact L.
  - destruct (nth_error cs m) as [c|] eqn:E; [|apply nth_error_None in E; lia].
    destruct (stands_get _ _ _ (snth_stands m ltac:(lia)) E) as (s' & G & _ & L).
    rewrite (snth_get _ _ E) in G. assert (s' = snth (S m)) by congruence. subst s'. specialize (IHle ltac:(lia)). lia.
Qed.

Lemma snth_same n m : (n <= length cs)%nat -> (m <= length cs)%nat ->
  same (snth n) (snth m) = (n =? m)%nat.
Proof.
  intros Hn Hm. unfold same.
  destruct (Nat.lt_trichotomy n m) as [H|[->|H]].
  - pose proof (snth_len n m H Hm). rewrite (proj2 (Nat.eqb_neq n m)) by lia. apply Nat.eqb_neq. lia.
  - rewrite !Nat.eqb_refl. reflexivity.
  - pose proof (snth_len m n H Hn). rewrite (proj2 (Nat.eqb_neq n m)) by lia. apply Nat.eqb_neq. lia.
Qed.

Lemma snth_before n m : (n <= length cs)%nat -> (m <= length cs)%nat ->
  before (snth n) (snth m) = (n <? m)%nat.
Proof.
  intros Hn Hm. unfold before.
  destruct (Nat.lt_trichotomy n m) as [H|[->|H]].
  - pose proof (snth_len n m H Hm). rewrite (proj2 (Nat.ltb_lt n m)) by lia. apply Nat.ltb_lt. lia.
  - rewrite !Nat.ltb_irrefl. reflexivity.
  - pose proof (snth_len m n H Hn). rewrite (proj2 (Nat.ltb_ge n m)) by lia. apply Nat.ltb_ge. lia.
Qed.

Lemma since_nonneg l : 0 <= since_nl l.
Proof.
  induction l as [|c l IH] using rev_ind; unfold since_nl in *; cbn; [lia|].
  rewrite fold_left_app. cbn. destruct (c =? 10); lia.
Qed.

Lemma snth_bol n : (n <= length cs)%nat -> at_bol (snth n) = line_start cs n.
Proof.
  intros Hn. destruct (snth_stands n Hn) as (_ & _ & _ & _ & _ & E). unfold at_bol. rewrite E.
  destruct n as [|n]; cbn [line_start]; [reflexivity|].
  destruct (nth_error cs n) as [c|] eqn:Ec; [|apply nth_error_None in Ec; lia].
  rewrite (firstn_snoc _ _ _ _ Ec). unfold since_nl. rewrite fold_left_app. cbn [fold_left].
  pose proof (since_nonneg (firstn n cs)) as P. unfold since_nl in P.
  destruct (c =? 10); [reflexivity|]. apply Z.eqb_neq. lia.
Qed.

(** A captured text. *)
Lemma snth_string i j : (i <= j)%nat -> (j <= length cs)%nat ->
  exists pre t post, tx = pre ++ t ++ post /\ s_rest (snth i) = t ++ post /\ s_rest (snth j) = post /\
    text_value (snth i) (snth j) = VText (Z.of_nat (length pre)) t.
Proof.
  intros Hij Hj.
  destruct (snth_stands i ltac:(lia)) as (pre & E & Eb & _).
  destruct (snth_stands j ltac:(lia)) as (pre' & E' & _).
  assert (L : (length (s_rest (snth j)) <= length (s_rest (snth i)))%nat).
  { destruct (Nat.eq_dec i j) as [->|N]; [lia|]. pose proof (snth_len i j ltac:(lia) Hj). lia. }
  set (a := s_rest (snth i)) in *. set (b := s_rest (snth j)) in *.
  assert (Ea : a = firstn (length a - length b) a ++ b).
  { rewrite <- (firstn_skipn (length a - length b) a) at 1. f_equal.
    rewrite E in E'. assert (X := f_equal (skipn (length pre')) E').
    rewrite (skipn_app (length pre') pre' b), skipn_all, Nat.sub_diag in X. cbn in X.
    rewrite skipn_app in X. assert (Y := f_equal (@length Z) E'). rewrite !app_length in Y.
    rewrite (skipn_all2 pre) in X by lia. cbn in X.
    replace (length pre' - length pre)%nat with (length a - length b)%nat in X by lia. exact X. }
  exists pre, (firstn (length a - length b) a), b.
  split; [rewrite <- Ea; exact E|]. split; [exact Ea|]. split; [reflexivity|].
  unfold text_value, string_to. fold a b. rewrite Eb. reflexivity.
Qed.

End Src.
