(** Finding rules by name: the comparison of names and the binary search. *)
From Coq Require Import Sorting.Permutation Sorting.Sorted.
From Verif Require Import Base UTF8Model PegModel PegSpec PegMatch.

Definition named (r : rule) : Prop := Forall namech (r_name r).

(** Sorted by name, as qsort with strcmp leaves the rules. *)
Definition by_name (a b : rule) : Prop := strcmp (r_name a) (r_name b) <= 0.
Definition sorted (rs : list rule) : Prop := StronglySorted by_name rs.

(** ** strcmp orders names *)

Lemma strcmp_eq a : Forall namech a -> forall b, Forall namech b -> strcmp a b = 0 -> a = b.
Proof.
  induction 1 as [|x a Hx Ha IH]; intros b Hb E; destruct Hb as [|y b Hy Hb]; cbn in E; auto;
    unfold namech, letter in *; try lia.
  destruct (Z.eqb_spec x y); [|lia]. subst. f_equal. auto.
Qed.

Lemma strcmp_refl a : strcmp a a = 0.
Proof. induction a as [|x a IH]; cbn; [reflexivity|]. rewrite Z.eqb_refl. exact IH. Qed.

Lemma strcmp_antisym a b : strcmp b a = - strcmp a b.
Proof.
  revert b; induction a as [|x a IH]; intros [|y b]; cbn; try lia.
  rewrite (Z.eqb_sym y x). destruct (x =? y); [apply IH|lia].
Qed.

Lemma strcmp_trans a b c : Forall namech a -> Forall namech b -> Forall namech c ->
  strcmp a b <= 0 -> strcmp b c <= 0 -> strcmp a c <= 0.
Proof.
  intros Ha. revert b c. induction Ha as [|x a Hx Ha IH]; intros b c Hb Hc; destruct Hb as [|y b Hy Hb];
    destruct Hc as [|z c Hz Hc]; cbn; unfold namech, letter in *; try lia.
  destruct (Z.eqb_spec x y), (Z.eqb_spec y z), (Z.eqb_spec x z); try lia. subst. apply IH; auto.
Qed.

(** ** The comparison of lookup *)

(** No rule's name is [name] followed by a digit. *)
Definition no_digit_after (name : list Z) (rn : list Z) : Prop :=
  forall d t, rn = name ++ d :: t -> ~ (48 <= d <= 57).

Lemma cmp_called name t r : Forall namech name -> named r ->
  (lookup_cmp (name ++ 62 :: t) r = 0 <-> r_name r = name) /\
  (no_digit_after name (r_name r) -> r_name r <> name ->
   (lookup_cmp (name ++ 62 :: t) r < 0 <-> strcmp name (r_name r) < 0)).
Proof.
  unfold lookup_cmp, named. destruct r as [rn pat cp]. cbn [r_name]. clear pat cp.
  intros Hn. revert rn. induction Hn as [|x name Hx Hn IH]; intros rn Hr; destruct Hr as [|y rn Hy Hr];
    cbn [app strncmp length skipn strcmp].
  - cbn. split; [tauto|congruence].
  - unfold namech, letter in *. rewrite (proj2 (Z.eqb_neq 62 y)) by lia.
    rewrite (proj2 (Z.eqb_neq (62 - y) 0)) by lia. split.
    + split; [lia|discriminate].
    + intros Nd _. specialize (Nd y rn eq_refl). lia.
  - unfold namech, letter in *. rewrite Z.eqb_refl. rewrite (proj2 (Z.eqb_neq x 62)) by lia. split.
    + split; [lia|discriminate].
    + intros _ _. lia.
  - destruct (Z.eqb_spec x y) as [->|N].
    + destruct (IH rn Hr) as [A B]. split.
      * rewrite A. split; [intros ->; reflexivity|congruence].
      * intros Nd Ne. apply B; [|congruence]. intros d t' E. apply (Nd d t'). cbn. congruence.
    + rewrite (proj2 (Z.eqb_neq (x - y) 0)) by lia. split; [split; [lia|congruence]|]. tauto.
Qed.

(** The key of parse is the bare name. *)
Lemma cmp_bare name r : Forall namech name -> named r ->
  (lookup_cmp name r = 0 <-> r_name r = name) /\
  (lookup_cmp name r < 0 <-> strcmp name (r_name r) < 0).
Proof.
  unfold lookup_cmp, named. destruct r as [rn pat cp]. cbn [r_name]. clear pat cp.
  intros Hn. revert rn. induction Hn as [|x name Hx Hn IH]; intros rn Hr; destruct Hr as [|y rn Hy Hr];
    cbn [app strncmp length skipn strcmp].
  - cbn. split; [tauto|lia].
  - unfold namech, letter in *. rewrite (proj2 (Z.eqb_neq (- y) 0)) by lia. split; [|tauto].
    split; [lia|discriminate].
  - unfold namech, letter in *. rewrite Z.eqb_refl. rewrite (proj2 (Z.eqb_neq x 62)) by lia.
    split; [split; [lia|discriminate]|]. lia.
  - destruct (Z.eqb_spec x y) as [->|N].
    + destruct (IH rn Hr) as [A B]. split; [|exact B]. rewrite A. split; [intros ->; reflexivity|congruence].
    + rewrite (proj2 (Z.eqb_neq (x - y) 0)) by lia. split; [split; [lia|congruence]|]. tauto.
Qed.

(** ** The search *)

Lemma bsearch_sound f key rs : forall lo hi i, bsearch f key rs lo hi = Some (Some i) ->
  exists r, nth_error rs i = Some r /\ lookup_cmp key r = 0.
Proof.
  induction f as [|f IH]; intros lo hi i H; cbn [bsearch] in H; [discriminate|].
  destruct (lo <? hi)%nat; [|discriminate]. set (m := ((lo + hi) / 2)%nat) in *.
  destruct (nth_error rs m) as [r|] eqn:E; [|discriminate].
  destruct (Z.ltb_spec (lookup_cmp key r) 0); [eauto|].
  destruct (Z.eqb_spec (lookup_cmp key r) 0); [|eauto].
  injection H as <-. eauto.
Qed.

(** The search ends, whatever the table and the key. *)
Lemma bsearch_settles key rs : forall f lo hi, (hi <= length rs)%nat -> (hi - lo < f)%nat ->
  bsearch f key rs lo hi <> None.
Proof.
  induction f as [|f IH]; intros lo hi Hh Hf; [lia|]. cbn [bsearch].
  destruct (Nat.ltb_spec lo hi) as [L|]; [|discriminate]. set (m := ((lo + hi) / 2)%nat).
  assert (Hm : (lo <= m < hi)%nat).
  { unfold m. split; [apply Nat.div_le_lower_bound; lia|apply Nat.div_lt_upper_bound; lia]. }
  destruct (nth_error rs m) as [x|] eqn:E; [|apply nth_error_None in E; lia].
  destruct (lookup_cmp key x <? 0); [apply IH; lia|]. destruct (lookup_cmp key x =? 0); [discriminate|apply IH; lia].
Qed.

Lemma bsearch_finds key rs i r : nth_error rs i = Some r -> lookup_cmp key r = 0 ->
  (forall j x, nth_error rs j = Some x -> (j < i)%nat -> 0 < lookup_cmp key x) ->
  (forall j x, nth_error rs j = Some x -> (i < j)%nat -> lookup_cmp key x < 0) ->
  forall f lo hi, (lo <= i < hi)%nat -> (hi <= length rs)%nat -> (hi - lo < f)%nat ->
  bsearch f key rs lo hi = Some (Some i).
Proof.
  intros Hi Hc Hl Hg. induction f as [|f IH]; intros lo hi Hb Hh Hf; [lia|]. cbn [bsearch].
  rewrite (proj2 (Nat.ltb_lt lo hi)) by lia. set (m := ((lo + hi) / 2)%nat).
  assert (Hm : (lo <= m < hi)%nat).
  { unfold m. split; [apply Nat.div_le_lower_bound; lia|apply Nat.div_lt_upper_bound; lia]. }
  destruct (nth_error rs m) as [x|] eqn:E; [|apply nth_error_None in E; lia].
  destruct (Nat.lt_trichotomy m i) as [L|[->|L]].
  - specialize (Hl m x E L). rewrite (proj2 (Z.ltb_ge _ _)) by lia. rewrite (proj2 (Z.eqb_neq _ _)) by lia.
    apply IH; lia.
  - assert (x = r) by congruence. subst x. rewrite Hc. reflexivity.
  - specialize (Hg m x E L). rewrite (proj2 (Z.ltb_lt _ _)) by lia. apply IH; lia.
Qed.

Lemma sorted_nth rs : sorted rs -> forall i j a b, nth_error rs i = Some a -> nth_error rs j = Some b ->
  (i < j)%nat -> by_name a b.
Proof.
  induction 1 as [|r rs Hs IH Hf]; intros i j a b Hi Hj Hij; [destruct i; discriminate|].
  destruct j as [|j]; [lia|]. cbn in Hj. destruct i as [|i]; cbn in Hi.
  - injection Hi as <-. rewrite Forall_forall in Hf. apply Hf. eapply nth_error_In; eauto.
  - eapply IH; eauto. lia.
Qed.

Lemma nth_names rs i j a b : NoDup (map r_name rs) -> nth_error rs i = Some a -> nth_error rs j = Some b ->
  r_name a = r_name b -> i = j.
Proof.
  intros Hd Hi Hj E. assert (Li : (i < length rs)%nat) by (apply nth_error_Some; congruence).
  eapply (proj1 (NoDup_nth_error (map r_name rs)) Hd); [rewrite map_length; exact Li|].
  rewrite !nth_error_map, Hi, Hj. cbn. congruence.
Qed.

(** Around the rule that is looked for, the comparisons point to it. *)
Lemma around rs i r key : Forall named rs -> NoDup (map r_name rs) -> sorted rs ->
  nth_error rs i = Some r ->
  (forall x, In x rs -> (lookup_cmp key x = 0 <-> r_name x = r_name r) /\
     (r_name x <> r_name r -> (lookup_cmp key x < 0 <-> strcmp (r_name r) (r_name x) < 0))) ->
  lookup rs key = Some i.
Proof.
  intros Hn Hd Hs Hi Hc. unfold lookup, search_rules.
  assert (Hr : In r rs) by (eapply nth_error_In; eauto).
  assert (Li : (i < length rs)%nat) by (apply nth_error_Some; congruence).
  assert (NN : forall x, In x rs -> named x) by (apply Forall_forall, Hn).
  rewrite (bsearch_finds key rs i r); auto; try lia.
  - apply (Hc r Hr). reflexivity.
  - intros j x Hj Hlt. assert (Hx : In x rs) by (eapply nth_error_In; eauto).
    assert (Ne : r_name x <> r_name r).
    { intros E. pose proof (nth_names rs j i x r Hd Hj Hi E). lia. }
    destruct (Hc x Hx) as [A B]. specialize (B Ne).
    pose proof (sorted_nth rs Hs j i x r Hj Hi Hlt) as O. unfold by_name in O.
    assert (strcmp (r_name r) (r_name x) = - strcmp (r_name x) (r_name r)) by apply strcmp_antisym.
    assert (lookup_cmp key x <> 0) by (rewrite A; exact Ne). lia.
  - intros j x Hj Hlt. assert (Hx : In x rs) by (eapply nth_error_In; eauto).
    assert (Ne : r_name x <> r_name r).
    { intros E. pose proof (nth_names rs j i x r Hd Hj Hi E). lia. }
    destruct (Hc x Hx) as [A B]. apply (B Ne).
    pose proof (sorted_nth rs Hs i j r x Hi Hj Hlt) as O. unfold by_name in O.
    assert (strcmp (r_name r) (r_name x) <> 0).
    { intros E. apply Ne. symmetry. apply strcmp_eq; auto; apply NN; auto. }
    lia.
Qed.

Lemma lookup_call rs i r t : Forall named rs -> NoDup (map r_name rs) -> sorted rs ->
  nth_error rs i = Some r -> (forall x, In x rs -> no_digit_after (r_name r) (r_name x)) ->
  lookup rs (r_name r ++ 62 :: t) = Some i.
Proof.
  intros Hn Hd Hs Hi Hdig. eapply around; eauto. intros x Hx.
  assert (NN : forall x, In x rs -> named x) by (apply Forall_forall, Hn).
  destruct (cmp_called (r_name r) t x) as [A B]; [apply NN; eapply nth_error_In; eauto|apply NN, Hx|].
  split; [exact A|]. intros Ne. apply B; auto.
Qed.

Lemma lookup_bare rs i r : Forall named rs -> NoDup (map r_name rs) -> sorted rs ->
  nth_error rs i = Some r -> lookup rs (r_name r) = Some i.
Proof.
  intros Hn Hd Hs Hi. eapply around; eauto. intros x Hx.
  assert (NN : forall x, In x rs -> named x) by (apply Forall_forall, Hn).
  destruct (cmp_bare (r_name r) x) as [A B]; [apply NN; eapply nth_error_In; eauto|apply NN, Hx|]. auto.
Qed.

Lemma lookup_sound rs name t i : Forall named rs -> Forall namech name ->
  lookup rs (name ++ 62 :: t) = Some i -> exists r, nth_error rs i = Some r /\ r_name r = name.
Proof.
  intros Hn Hnm H. unfold lookup in H. destruct (search_rules rs (name ++ 62 :: t)) as [[j|]|] eqn:SR; try discriminate.
  injection H as ->. apply bsearch_sound in SR. rename SR into H. destruct H as (r & Hr & Hc). exists r. split; [exact Hr|].
  rewrite Forall_forall in Hn. apply (cmp_called name t r); auto. apply Hn. eapply nth_error_In; eauto.
Qed.

(** ** Insertion sort gives a sorted permutation *)

Lemma insert_perm r l : Permutation (insert_rule r l) (r :: l).
Proof.
  induction l as [|x l IH]; cbn; [reflexivity|]. destruct (_ <=? 0); [reflexivity|].
  rewrite IH. apply perm_swap.
Qed.

Lemma sort_perm l : Permutation (sort_rules l) l.
Proof. induction l as [|r l IH]; cbn; [reflexivity|]. rewrite insert_perm, IH. reflexivity. Qed.

Lemma insert_sorted r l : Forall named (r :: l) -> sorted l -> sorted (insert_rule r l).
Proof.
  intros Hn Hs. apply Forall_cons_iff in Hn. destruct Hn as [Hr Hn].
  induction Hs as [|x l Hs IH Hf]; cbn [insert_rule]; [constructor; constructor|].
  apply Forall_cons_iff in Hn. destruct Hn as [Hx Hn].
  destruct (Z.leb_spec (strcmp (r_name r) (r_name x)) 0) as [L|L].
  - constructor; [constructor; auto|]. constructor; [exact L|].
    rewrite Forall_forall in *. intros y Hy. apply (strcmp_trans _ (r_name x)); auto; [apply Hn, Hy|apply Hf, Hy].
  - constructor; [apply IH, Hn|]. rewrite Forall_forall in *. intros y Hy.
    apply (Permutation_in _ (insert_perm r l)) in Hy. destruct Hy as [<-|Hy]; [|apply Hf, Hy].
    unfold by_name. rewrite strcmp_antisym. lia.
Qed.

Lemma sort_sorted l : Forall named l -> sorted (sort_rules l).
Proof.
  induction 1 as [|r l Hr Hl IH]; cbn [sort_rules fold_right]; [constructor|]. apply insert_sorted; [|exact IH].
  constructor; [exact Hr|]. rewrite Forall_forall in *. intros x Hx. apply Hl.
  apply (Permutation_in _ (sort_perm l)). exact Hx.
Qed.
