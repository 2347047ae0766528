(** The second pass of the compiler ends with a program, for every pattern that
    the first pass accepts, if the memory allocated is what the first pass
    counted. *)
From Verif Require Import Base UTF8Model UTF8Spec UTF8Proofs CharModel RxCompModel RxModel RxVm RxTotal.

Lemma utf8len_range c : (1 <= UTF8Len c <= 6)%nat.
Proof. unfold UTF8Len. repeat match goal with |- context [if ?b then _ else _] => destruct b end; lia. Qed.
Lemma utf8put_len c : length (UTF8Put c) = UTF8Len c.
Proof.
  unfold UTF8Put. pose proof (utf8len_range c) as R. destruct (UTF8Len c) as [|[|[|[|[|[|[|]]]]]]]; try lia; reflexivity.
Qed.
Lemma flat_put_len l : Z.of_nat (length (flat_map UTF8Put l)) = nbytes l.
Proof. induction l as [|c l IH]; [reflexivity|]. cbn [flat_map nbytes fold_right]. rewrite app_length, utf8put_len. fold (nbytes l). unfold blen. lia. Qed.
Lemma string_bytes_len l : Z.of_nat (length (string_bytes l)) = string_size l.
Proof. unfold string_bytes, string_size. rewrite app_length, utf8put_len, Nat2Z.inj_add, flat_put_len. unfold blen. lia. Qed.
Lemma nbytes_pos l : 0 <= nbytes l.
Proof. rewrite <- flat_put_len. lia. Qed.
Lemma string_size_pos l : 0 <= string_size l.
Proof. rewrite <- string_bytes_len. lia. Qed.

(** ** Prefixes *)
Definition same (n : nat) (b b' : list Z) : Prop := firstn n b = firstn n b'.
Lemma same_refl n b : same n b b. Proof. reflexivity. Qed.
Lemma same_le n m b b' : (m <= n)%nat -> same n b b' -> same m b b'.
Proof. unfold same. intros L H. rewrite <- (Nat.min_l m n) at 1 2 by exact L. rewrite <- !firstn_firstn, H. reflexivity. Qed.
Lemma same_trans n a b c : same n a b -> same n b c -> same n a c.
Proof. unfold same. congruence. Qed.
Lemma same_app n b x : (n <= length b)%nat -> same n b (b ++ x).
Proof. unfold same. intros H. rewrite firstn_app. replace (n - length b)%nat with O by lia. cbn. rewrite app_nil_r. reflexivity. Qed.
Lemma same_cut n b x : (n <= length b)%nat -> same n b (firstn n b ++ x).
Proof. unfold same. intros H. rewrite firstn_app, firstn_firstn, Nat.min_id, firstn_length_le by lia. rewrite Nat.sub_diag. cbn. rewrite app_nil_r. reflexivity. Qed.
Lemma nth_firstn {A} (l : list A) : forall n i, (i < n)%nat -> nth_error (firstn n l) i = nth_error l i.
Proof. induction l as [|x l IH]; intros n i H; [rewrite firstn_nil; reflexivity|]. destruct n; [lia|]. destruct i; [reflexivity|]. cbn. apply IH. lia. Qed.
Lemma same_nth n b b' i : same n b b' -> (i < n)%nat -> nth_error b' i = nth_error b i.
Proof. unfold same. intros H L. rewrite <- (nth_firstn b' n i L), <- H. apply nth_firstn, L. Qed.
Lemma same_slice n b b' j m : same n b b' -> (j + m <= n)%nat -> firstn m (skipn j b') = firstn m (skipn j b).
Proof.
  unfold same. intros H L. assert (G : forall l : list Z, firstn m (skipn j l) = firstn m (skipn j (firstn n l))).
  { intros l. rewrite skipn_firstn_comm, firstn_firstn. f_equal. lia. }
  rewrite (G b'), <- H, <- G. reflexivity.
Qed.

(** What the first pass counts for a token *)
Ltac first_is H := match type of H with Ok (?x, _, _) = Ok (?y, _, _) => assert (y = x) by congruence; subst y; clear H end.

Fixpoint nsz (l : list (list Z)) : Z := match l with [] => 0 | x :: l => string_size x + nsz l end.
Lemma nsz_app a b : nsz (a ++ b) = nsz a + nsz b.
Proof. induction a as [|x a IH]; [reflexivity|]. cbn [app nsz]. lia. Qed.

Section Second.
Variables (M T : nat).
Hypothesis HM1 : (1 <= M)%nat.
Hypothesis HMT : (M < T)%nat.
Hypothesis HT : Z.of_nat T < 2^29.
(** Offsets inside the program fit *)
Hypothesis HV : forall v, Z.abs v < Z.of_nat T -> (UTF8Len (zigzag v) <= M)%nat.
Notation cap := (S T).

Lemma offset_len v : length (offset_bytes v) = UTF8Len (zigzag v).
Proof. apply utf8put_len. Qed.
Lemma padded_length v : length (padded M v) = M.
Proof. unfold padded. rewrite firstn_length, app_length, repeat_length. lia. Qed.
Lemma padded_get v rest : Z.abs v < Z.of_nat T -> exists n, UTF8Get (padded M v ++ rest) = Ok (zigzag v, n).
Proof.
  intros H. unfold padded. rewrite firstn_app, firstn_all2 by (rewrite offset_len; apply HV, H). rewrite <- app_assoc.
  unfold offset_bytes. rewrite get_put by (apply zigzag_range; lia). eauto.
Qed.

(** ** The alternatives of a frame: a chain of jumps, each with its split *)
Inductive chained (b : list Z) (c : nat) : nat -> Prop :=
| chained_one j : nth_error b c = Some 65 -> (c + M + 2 <= j)%nat -> nth_error b (j - 1) = Some 74 ->
    firstn M (skipn j b) = padded M 0 -> chained b c j
| chained_more j0 j : chained b c j0 -> nth_error b (j0 + M) = Some 65 -> (j0 + M + M + 2 <= j)%nat -> nth_error b (j - 1) = Some 74 ->
    firstn M (skipn j b) = padded M (Z.of_nat j0 - Z.of_nat j) -> chained b c j.
Lemma chained_same n b b' c j : same n b b' -> chained b c j -> (j + M <= n)%nat -> chained b' c j.
Proof.
  intros E H. induction H as [j A1 A2 A3 A4|j0 j A0 IH A1 A2 A3 A4]; intros L.
  - apply chained_one; try (rewrite (same_nth n b b' _ E) by lia; assumption); [exact A2|]. rewrite (same_slice n b b' _ _ E) by lia. exact A4.
  - apply (chained_more b' c j0); try (rewrite (same_nth n b b' _ E) by lia; assumption); [apply IH; lia|exact A2|]. rewrite (same_slice n b b' _ _ E) by lia. exact A4.
Qed.
Lemma chained_ge b c j : chained b c j -> (c + M + 2 <= j)%nat.
Proof. induction 1; lia. Qed.
Lemma chained_end b c j : chained b c j -> (j + M <= length b)%nat.
Proof.
  assert (G : forall v, firstn M (skipn j b) = padded M v -> (j + M <= length b)%nat).
  { intros v E. pose proof (f_equal (@length Z) E) as L. rewrite padded_length, firstn_length, skipn_length in L. lia. }
  intros H. inversion H; subst; eapply G; eassumption.
Qed.

(** ** Patching *)
Lemma patch_value_ok b loc v : Z.abs v < Z.of_nat T -> (loc + M <= length b)%nat ->
  exists b', patch_value M b loc v = Ok (b', (M - UTF8Len (zigzag v))%nat) /\ same loc b b' /\ (length b' + (M - UTF8Len (zigzag v)) = length b)%nat /\
    b' = firstn loc b ++ offset_bytes v ++ skipn (loc + M) b.
Proof.
  intros Hv L. unfold patch_value. pose proof (HV v Hv). destruct (Nat.ltb_spec M (UTF8Len (zigzag v))); [lia|].
  eexists. split; [reflexivity|]. split; [apply same_cut; lia|]. split; [|reflexivity].
  rewrite !app_length, offset_len, firstn_length_le, skipn_length by lia. lia.
Qed.
Lemma patch_ok b loc to_ : (1 <= loc)%nat -> (loc + M <= length b)%nat -> (length b <= T)%nat -> (to_ <= T)%nat ->
  exists b' v, patch_offset M b loc to_ = Ok (b', (M - UTF8Len (zigzag v))%nat) /\ same loc b b' /\ (length b' + (M - UTF8Len (zigzag v)) = length b)%nat /\
    b' = firstn loc b ++ offset_bytes v ++ skipn (loc + M) b /\ Z.abs v < Z.of_nat T /\
    ((loc + M <= to_)%nat -> 0 <= v <= Z.of_nat to_ - Z.of_nat loc).
Proof.
  intros L1 L2 L3 L4. unfold patch_offset. set (off := Z.of_nat to_ - Z.of_nat loc).
  assert (HA : Z.abs off < Z.of_nat T) by lia. pose proof (HV off HA) as HB. pose proof (utf8len_range (zigzag off)) as HR.
  set (v := if (UTF8Len (zigzag off) <? M)%nat && (loc <? to_)%nat then off - Z.of_nat (M - UTF8Len (zigzag off)) else off).
  assert (Hv : Z.abs v < Z.of_nat T).
  { unfold v. destruct (Nat.ltb_spec (UTF8Len (zigzag off)) M), (Nat.ltb_spec loc to_); cbn [andb]; lia. }
  destruct (patch_value_ok b loc v Hv L2) as (b' & E & S & LL & EB). exists b', v. split; [exact E|]. split; [exact S|]. split; [exact LL|]. split; [exact EB|].
  split; [exact Hv|]. intros K. unfold v. destruct (_ && _) eqn:A; [|lia]. apply andb_prop in A as [A _]. apply Nat.ltb_lt in A. lia.
Qed.

Lemma rdZ_nth (b : list Z) i x : nth_error b i = Some x -> rdZ b (Z.of_nat i) = Ok x.
Proof. intros H. unfold rdZ. destruct (Z.ltb_spec (Z.of_nat i) 0); [lia|]. rewrite Nat2Z.id. apply rd_ok, H. Qed.

Lemma fixup_go f : forall b c j, chained b c j -> (j <= f)%nat -> (length b <= T)%nat ->
  exists b', fixup_loop M f b c j = Ok b' /\ same c b b' /\ (c <= length b' <= length b)%nat.
Proof.
  induction f as [|f IH]; intros b c j H L LT; [pose proof (chained_ge _ _ _ H); lia|].
  pose proof (chained_ge _ _ _ H) as GE. pose proof (chained_end _ _ _ H) as EN.
  cbn [fixup_loop]. inversion H as [j' A1 A2 A3 A4|j0 j' A0 A1 A2 A3 A4]; subst j'.
  - assert (G : exists n, UTF8Get (skipn j b) = Ok (zigzag 0, n)).
    { rewrite <- (firstn_skipn M (skipn j b)), A4. apply padded_get. lia. }
    destruct G as (n & ->). cbn [obind fst]. rewrite zagzig_zigzag by lia.
    replace (Z.of_nat j - 1) with (Z.of_nat (j - 1)) by lia. rewrite (rdZ_nth _ _ _ A3). cbn [obind cassert]. rewrite Z.eqb_refl. cbn [cassert].
    destruct (patch_ok b j (length b)) as (b1 & v1 & E1 & S1 & L1 & _); try lia. rewrite E1. cbn [obind fst snd].
    rewrite Z.eqb_refl. replace (Z.of_nat (S c) - 1) with (Z.of_nat c) by lia.
    assert (A1' : nth_error b1 c = Some 65) by (rewrite (same_nth j b b1 c S1) by lia; exact A1).
    rewrite (rdZ_nth _ _ _ A1'). cbn [obind]. rewrite Z.eqb_refl. cbn [cassert].
    destruct (patch_ok b1 (S c) (j + M - (M - UTF8Len (zigzag v1)))) as (b2 & v2 & E2 & S2 & L2 & _); try lia.
    rewrite E2. cbn [obind fst]. exists b2. split; [reflexivity|]. split.
    + apply (same_trans c b b1 b2); [apply (same_le j); [lia|exact S1]|apply (same_le (S c)); [lia|exact S2]].
    + pose proof (utf8len_range (zigzag v1)). pose proof (utf8len_range (zigzag v2)). lia.
  - pose proof (chained_ge _ _ _ A0) as GE0.
    assert (HA : Z.abs (Z.of_nat j0 - Z.of_nat j) < Z.of_nat T) by lia.
    assert (G : exists n, UTF8Get (skipn j b) = Ok (zigzag (Z.of_nat j0 - Z.of_nat j), n)).
    { rewrite <- (firstn_skipn M (skipn j b)), A4. apply padded_get, HA. }
    destruct G as (n & ->). cbn [obind fst]. rewrite zagzig_zigzag by lia.
    replace (Z.of_nat j - 1) with (Z.of_nat (j - 1)) by lia. rewrite (rdZ_nth _ _ _ A3). cbn [obind cassert]. rewrite Z.eqb_refl. cbn [cassert].
    destruct (patch_ok b j (length b)) as (b1 & v1 & E1 & S1 & L1 & _); try lia. rewrite E1. cbn [obind fst snd].
    destruct (Z.eqb_spec (Z.of_nat j0 - Z.of_nat j) 0) as [X|_]; [lia|].
    replace (Z.to_nat (Z.of_nat j + (Z.of_nat j0 - Z.of_nat j) + Z.of_nat M + 1)) with (S (j0 + M)) by lia.
    replace (Z.of_nat (S (j0 + M)) - 1) with (Z.of_nat (j0 + M)) by lia.
    assert (A1' : nth_error b1 (j0 + M) = Some 65) by (rewrite (same_nth j b b1 _ S1) by lia; exact A1).
    rewrite (rdZ_nth _ _ _ A1'). cbn [obind]. rewrite Z.eqb_refl. cbn [cassert].
    destruct (patch_ok b1 (S (j0 + M)) (j + M - (M - UTF8Len (zigzag v1)))) as (b2 & v2 & E2 & S2 & L2 & _); try lia.
    rewrite E2. cbn [obind fst]. destruct (Z.ltb_spec (Z.of_nat j0 - Z.of_nat j) 0); [|lia]. cbn [cassert].
    replace (Z.to_nat (Z.of_nat j + (Z.of_nat j0 - Z.of_nat j))) with j0 by lia.
    assert (S3 : same (j0 + M) b b2). { apply (same_trans _ b b1 b2); [apply (same_le j); [lia|exact S1]|apply (same_le (S (j0 + M))); [lia|exact S2]]. }
    destruct (IH b2 c j0) as (b3 & E3 & S4 & L3); try lia.
    { eapply chained_same; [exact S3|exact A0|lia]. }
    exists b3. split; [exact E3|]. split; [|lia]. apply (same_trans c b b2 b3); [apply (same_le (j0 + M)); [lia|exact S3]|exact S4].
Qed.

(** ** Frames *)
Definition hi (fr : frame) : nat := match f_jump fr with O => f_contents fr | j => j + M end.
Definition frame_ok (b : list Z) (fr : frame) : Prop :=
  (1 <= f_contents fr)%nat /\ (f_start fr <= f_contents fr)%nat /\ (f_op fr = KNeg -> (f_start fr + 1 + M <= f_contents fr)%nat) /\ (hi fr <= length b)%nat /\
  (f_jump fr <> O -> chained b (f_contents fr) (f_jump fr)).
Lemma hi_ge b fr : frame_ok b fr -> (f_contents fr <= hi fr)%nat.
Proof. intros (A & B & C & D & E). unfold hi in *. destruct (f_jump fr) as [|j]; [lia|]. specialize (E ltac:(discriminate)). apply chained_ge in E. lia. Qed.
Fixpoint frames_ok (p0 : nat) (b : list Z) (k : list frame) : Prop :=
  match k with
  | [] => True
  | fr :: k => frame_ok b fr /\ match k with [] => (p0 <= f_contents fr)%nat | fr2 :: _ => (hi fr2 <= f_start fr)%nat end /\ frames_ok p0 b k
  end.
Lemma frames_same p0 n b b' k : same n b b' -> frames_ok p0 b k -> match k with [] => True | fr :: _ => (hi fr <= n)%nat end -> (n <= length b')%nat -> frames_ok p0 b' k.
Proof.
  intros E. revert n E. induction k as [|fr k IH]; intros n E H L LB; [exact I|]. destruct H as (F & B & K). split; [|split; [exact B|]].
  - destruct F as (F1 & F2 & F3 & F4 & F5). split; [exact F1|]. split; [exact F2|]. split; [exact F3|]. split; [lia|].
    intros J. eapply chained_same; [exact E|exact (F5 J)|]. unfold hi in L. destruct (f_jump fr); [congruence|lia].
  - pose proof (hi_ge _ _ F). destruct k as [|fr2 k]; [exact I|]. destruct F as (F1 & F2 & _). apply (IH n E K); [lia|exact LB].
Qed.

Lemma fixup_ok b fr : frame_ok b fr -> (length b <= T)%nat ->
  exists b', fixup M b fr = Ok b' /\ same (f_contents fr) b b' /\ (f_contents fr <= length b' <= length b)%nat.
Proof.
  intros F L. pose proof (hi_ge _ _ F) as HG. destruct F as (F1 & F2 & F3 & F4 & F5). unfold fixup. destruct (f_jump fr) as [|j] eqn:J.
  - exists b. split; [reflexivity|]. split; [apply same_refl|lia].
  - specialize (F5 ltac:(discriminate)). apply fixup_go; [exact F5|pose proof (chained_end _ _ _ F5); lia|exact L].
Qed.

Lemma frames_low p0 b k : forall fr, frames_ok p0 b (fr :: k) -> (p0 <= f_contents fr)%nat.
Proof.
  induction k as [|fr2 k IH]; intros fr (F & B & K); [exact B|]. specialize (IH fr2 K). destruct K as (F' & _). apply hi_ge in F'. destruct F as (_ & F & _). lia.
Qed.

(** ** What the invariant says *)
Definition used (s : one) : Z := o_bytes s + Z.of_nat M * o_offsets s - nsz (o_names s).
Definition top (k : list frame) : nat := match k with [] => O | fr :: _ => hi fr end.
Definition front (b : list Z) (k : list frame) : Prop :=
  exists v2, 0 <= v2 /\ v2 + 1 + Z.of_nat M <= Z.of_nat T /\
    firstn (UTF8Len (zigzag v2)) (skipn (1 + M) b) = offset_bytes v2 /\ frames_ok (1 + M + UTF8Len (zigzag v2)) b k.
Lemma front_same n b b' k : front b k -> k <> [] -> same n b b' -> (top k <= n)%nat -> (n <= length b')%nat -> front b' k.
Proof.
  intros (v & A & B & C & D) NK E L LB. exists v. split; [exact A|]. split; [exact B|]. destruct k as [|fr k]; [contradiction|]. cbn [top] in L.
  pose proof (frames_low _ _ _ _ D) as G. destruct D as [F D']. pose proof (hi_ge _ _ F). split.
  - rewrite (same_slice n b b' _ _ E); [exact C|lia].
  - eapply (frames_same _ n); [exact E|exact (conj F D')|exact L|exact LB].
Qed.
Lemma front_push b k fr : front b k -> k <> [] -> frame_ok b fr -> (top k <= f_start fr)%nat -> front b (fr :: k).
Proof.
  intros (v & A & B & C & D) NK F L. exists v. split; [exact A|]. split; [exact B|]. split; [exact C|]. split; [exact F|]. split; [|exact D].
  destruct k; [contradiction|exact L].
Qed.
Lemma front_pop b k fr : front b (fr :: k) -> k <> [] -> front b k /\ (top k <= f_start fr)%nat.
Proof.
  intros (v & A & B & C & D) NK. destruct D as (F & L & D). split; [exists v; auto|]. destruct k; [contradiction|exact L].
Qed.
Lemma front_frame b k fr : front b (fr :: k) -> frame_ok b fr.
Proof. intros (v & _ & _ & _ & F & _). exact F. Qed.
Lemma front_top b k : front b k -> k <> [] -> (M + 2 <= top k <= length b)%nat.
Proof.
  intros (v & _ & _ & _ & D) NK. destruct k as [|fr k]; [contradiction|]. pose proof (frames_low _ _ _ _ D). destruct D as [F _]. cbn [top].
  pose proof (hi_ge _ _ F). destruct F as (_ & _ & _ & F & _). pose proof (utf8len_range (zigzag v)). lia.
Qed.
(** Another frame in place of the top *)
Lemma front_set b b' k fr fr' : front b (fr :: k) -> same (f_contents fr) b b' -> f_start fr' = f_start fr -> f_contents fr' = f_contents fr -> frame_ok b' fr' -> front b' (fr' :: k).
Proof.
  intros (v & A & B & C & D) E ES EC F'. pose proof (frames_low _ _ _ _ D) as G. destruct D as (F & L & D). exists v. split; [exact A|]. split; [exact B|].
  destruct F' as (F1 & F2 & F3 & F4 & F5). pose proof (hi_ge b' fr' (conj F1 (conj F2 (conj F3 (conj F4 F5))))) as HG.
  split; [|split; [exact (conj F1 (conj F2 (conj F3 (conj F4 F5))))|split]].
  - rewrite (same_slice (f_contents fr) b b' _ _ E); [exact C|lia].
  - rewrite ES, EC. exact L.
  - eapply (frames_same _ (f_contents fr)); [exact E|exact D| |lia]. destruct k; [exact I|]. destruct F as (_ & F & _). lia.
Qed.
Definition Inv (N : Z) (s : one) (w : two) : Prop :=
  map f_op (w_stack w) = map fst (o_stack s) /\
  last (map f_op (w_stack w)) KGroup = KStart /\
  front (w_buf w) (w_stack w) /\
  (o_repeatable s = true -> top (w_stack w) <= w_atom w <= length (w_buf w))%nat /\
  Z.of_nat (length (w_buf w)) <= used s + N.

Variables (stations : Z) (names : list (list Z)).
Notation second := (second_pass M cap stations names).
Lemma fits_ok b : (length b <= cap)%nat -> fits cap b = Ok b.
Proof. intros H. unfold fits. destruct (Nat.leb_spec (length b) cap); [reflexivity|lia]. Qed.
Lemma app_ok b x : (length b + length x <= cap)%nat -> app_bytes cap b x = Ok (b ++ x).
Proof. intros H. apply fits_ok. rewrite app_length. exact H. Qed.
Lemma done_ok b k mx g a : (length b < T)%nat -> done cap b k mx g a = Ok (mktwo b k mx g a, None, true).
Proof. intros H. unfold done. destruct (Nat.ltb_spec (length b) (cap - 1)); [reflexivity|lia]. Qed.
Lemma split_ok b loc : (loc <= length b)%nat -> (length b + 1 + M <= cap)%nat -> insert_split M cap b loc = Ok (firstn loc b ++ [65] ++ padded M 0 ++ skipn loc b).
Proof. intros L H. apply fits_ok. rewrite !app_length, padded_length, firstn_length_le, skipn_length by lia. cbn [length]. lia. Qed.
Lemma split_len b loc : (loc <= length b)%nat -> length (firstn loc b ++ [65] ++ padded M 0 ++ skipn loc b) = (length b + 1 + M)%nat.
Proof. intros L. rewrite !app_length, padded_length, firstn_length_le, skipn_length by lia. cbn [length]. lia. Qed.
Lemma split_nth b loc : (loc <= length b)%nat -> nth_error (firstn loc b ++ [65] ++ padded M 0 ++ skipn loc b) loc = Some 65.
Proof. intros L. rewrite nth_error_app2; rewrite firstn_length_le by lia; [|lia]. rewrite Nat.sub_diag. reflexivity. Qed.

(** What a step has to give *)
Definition keeps (N : Z) (s1 : one) (o : outcome (two * option msg * bool)) : Prop := exists w1, o = Ok (w1, None, true) /\ Inv N s1 w1.

Lemma stack_ne s w N : Inv N s w -> w_stack w <> [].
Proof. intros (_ & A & _) E. rewrite E in A. discriminate A. Qed.

Lemma start_ok A (w : two) (f : list Z -> outcome A) : (length (w_buf w) + 1 <= cap)%nat -> obind (fits cap (w_buf w ++ [0])) f = f (w_buf w ++ [0]).
Proof. intros H. rewrite fits_ok; [reflexivity|]. rewrite app_length. cbn [length]. lia. Qed.
Section Step.
Variables (N : Z) (s s1 : one) (w : two).
Hypothesis HI : Inv N s w.
Hypothesis HR : used s1 + N + 5 + 2 * Z.of_nat M <= Z.of_nat T.
(** Bytes at the end *)
Lemma keeps_plain x rep mx g : map fst (o_stack s1) = map fst (o_stack s) -> o_repeatable s1 = rep -> used s + Z.of_nat (length x) <= used s1 ->
  keeps N s1 (do b <- app_bytes cap (w_buf w) x; done cap b (w_stack w) mx g (length (w_buf w))).
Proof.
  intros HS HP HU. pose proof (stack_ne _ _ _ HI) as NE. destruct HI as (A & B & C & D & E). pose proof (front_top _ _ C NE) as TP.
  rewrite app_ok by lia. cbn [obind]. rewrite done_ok by (rewrite app_length; lia). eexists. split; [reflexivity|].
  split; [cbn [w_stack]; congruence|]. split; [exact B|]. cbn [w_buf w_stack w_atom]. split; [|rewrite app_length; split; lia].
  eapply (front_same (length (w_buf w))); [exact C|exact NE|apply same_app; lia|lia|rewrite app_length; lia].
Qed.
(** A new frame *)
Lemma keeps_push x op mx g g' : (op = KNeg -> (1 + M <= length x)%nat) -> map fst (o_stack s1) = op :: map fst (o_stack s) -> o_repeatable s1 = false -> used s + Z.of_nat (length x) <= used s1 ->
  keeps N s1 (do b <- app_bytes cap (w_buf w) x; done cap b (mkframe op g (length (w_buf w)) (length b) O :: w_stack w) mx g' (length (w_buf w))).
Proof.
  intros HO HS HP HU. pose proof (stack_ne _ _ _ HI) as NE. destruct HI as (A & B & C & D & E). pose proof (front_top _ _ C NE) as TP.
  rewrite app_ok by lia. cbn [obind]. rewrite done_ok by (rewrite app_length; lia). eexists. split; [reflexivity|].
  split; [cbn [w_stack map f_op]; rewrite HS, A; reflexivity|]. split.
  { cbn [w_stack map f_op]. rewrite <- B. destruct (map f_op (w_stack w)) eqn:X; [destruct (w_stack w); [contradiction|discriminate X]|reflexivity]. }
  cbn [w_buf w_stack w_atom]. split; [|rewrite app_length; split; [congruence|lia]].
  apply front_push; [|exact NE| |cbn [f_start]; lia].
  - eapply (front_same (length (w_buf w))); [exact C|exact NE|apply same_app; lia|lia|rewrite app_length; lia].
  - unfold frame_ok, hi. cbn [f_contents f_start f_op f_jump]. rewrite app_length. split; [lia|]. split; [lia|]. split; [intros X; specialize (HO X); lia|]. split; [lia|]. congruence.
Qed.
(** The end of a frame *)
Lemma keeps_pop b' fr k mx g : w_stack w = fr :: k -> f_op fr <> KStart -> same (f_start fr) (w_buf w) b' -> (f_start fr <= length b')%nat ->
  Z.of_nat (length b') <= used s1 + N -> map fst (o_stack s1) = map f_op k -> keeps N s1 (done cap b' k mx g (f_start fr)).
Proof.
  intros HW HO HE HL HU HS. destruct HI as (A & B & C & D & E). rewrite HW in *.
  assert (NE : k <> []). { intros ->. cbn in B. contradiction. }
  destruct (front_pop _ _ _ C NE) as [C' L]. rewrite done_ok by lia. eexists. split; [reflexivity|].
  split; [cbn [w_stack]; congruence|]. split.
  { cbn [w_stack map] in *. destruct k; [contradiction|exact B]. }
  cbn [w_buf w_stack w_atom]. split; [|split; lia]. eapply (front_same (f_start fr)); [exact C'|exact NE|exact HE|exact L|exact HL].
Qed.
Lemma keeps_end fr k : w_stack w = fr :: k -> f_op fr <> KStart -> map fst (o_stack s1) = map f_op k ->
  used s + match f_op fr with KNeg => 1 | KNamed => 2 | _ => 0 end <= used s1 -> keeps N s1 (second TEnd w).
Proof.
  intros HW HO HS HU. pose proof HI as (A & B & C & D & E). pose proof C as C0. rewrite HW in C0. apply front_frame in C0.
  assert (LT : (length (w_buf w) + 1 <= T)%nat) by (destruct (f_op fr); lia).
  destruct (fixup_ok (w_buf w) fr C0 ltac:(lia)) as (b1 & E1 & S1 & L1). pose proof C0 as (F1 & F2 & F3 & _).
  unfold second_pass. cbv zeta. rewrite start_ok by lia. rewrite HW. destruct (f_op fr) eqn:OP; [contradiction| | |]; rewrite E1; cbn [obind].
  - apply keeps_pop; try assumption; [congruence|apply (same_le (f_contents fr)); [lia|exact S1]|lia|lia].
  - rewrite app_ok by (cbn [length]; lia). cbn [obind]. apply keeps_pop; try assumption; [congruence| |rewrite app_length; lia|rewrite app_length; cbn [length]; lia].
    apply (same_trans _ _ b1); [apply (same_le (f_contents fr)); [lia|exact S1]|apply same_app; lia].
  - rewrite app_ok by (cbn [length]; lia). cbn [obind]. specialize (F3 eq_refl).
    destruct (patch_ok (b1 ++ [35]) (S (f_start fr)) (length (b1 ++ [35]))) as (b2 & v & E2 & S2 & L2 & _); rewrite ?app_length; cbn [length]; try lia.
    rewrite app_length in L2. cbn [length] in L2. rewrite app_length in E2. cbn [length] in E2. rewrite E2. cbn [obind fst]. pose proof (utf8len_range (zigzag v)).
    apply keeps_pop; try assumption; [congruence| |lia|lia].
    apply (same_trans _ _ b1); [apply (same_le (f_contents fr)); [lia|exact S1]|]. apply (same_trans _ _ (b1 ++ [35])); [apply same_app; lia|]. apply (same_le (S (f_start fr))); [lia|exact S2].
Qed.
(** Repetitions: the buffer changes from the atom on *)
Lemma keeps_at n b' mx g a : (n <= length b')%nat -> (top (w_stack w) <= n)%nat -> same n (w_buf w) b' -> Z.of_nat (length b') <= used s1 + N -> map fst (o_stack s1) = map fst (o_stack s) ->
  o_repeatable s1 = false -> keeps N s1 (done cap b' (w_stack w) mx g a).
Proof.
  intros L1 L2 HE HU HS HP. pose proof (stack_ne _ _ _ HI) as NE. destruct HI as (A & B & C & D & E). rewrite done_ok by lia. eexists. split; [reflexivity|].
  split; [cbn [w_stack]; congruence|]. split; [exact B|]. cbn [w_buf w_stack w_atom]. split; [|split; [congruence|exact HU]].
  eapply (front_same n); [exact C|exact NE|exact HE|exact L2|exact L1].
Qed.
Lemma star_ok e a : (a < e)%nat -> (e + M <= T)%nat -> forall f rev, (rev <= M)%nat ->
  exists rd, star_loop M f e a rev = (UTF8Len (zigzag rd), rd) /\ Z.abs rd < Z.of_nat T.
Proof.
  intros H1 H2. induction f as [|f IH]; intros rev H3.
  - cbn [star_loop]. set (fwd := UTF8Len (zigzag (Z.of_nat (e + rev) - Z.of_nat (S a)))).
    assert (HF : (fwd <= M)%nat) by (apply HV; lia). pose proof (utf8len_range (zigzag (Z.of_nat (e + rev) - Z.of_nat (S a)))). fold fwd in H.
    eexists. split; [reflexivity|]. lia.
  - cbn [star_loop]. set (fwd := UTF8Len (zigzag (Z.of_nat (e + rev) - Z.of_nat (S a)))).
    assert (HF : (fwd <= M)%nat) by (apply HV; lia). pose proof (utf8len_range (zigzag (Z.of_nat (e + rev) - Z.of_nat (S a)))). fold fwd in H.
    set (rd := Z.of_nat a - (Z.of_nat e - (Z.of_nat M - Z.of_nat fwd))). assert (HB : Z.abs rd < Z.of_nat T) by lia.
    destruct (_ <? _)%nat eqn:X; [|exists rd; auto]. apply Nat.ltb_lt in X. apply IH. lia.
Qed.
Lemma keeps_rep min max : first_pass (TRep min max) s = Ok (s1, None, true) -> keeps N s1 (second (TRep min max) w).
Proof.
  intros H. cbn [first_pass] in H. destruct (o_repeatable s) eqn:RP; cbn [negb] in H; [|discriminate H].
  destruct (_ || _) in H; [discriminate H|]. pose proof (stack_ne _ _ _ HI) as NE. pose proof HI as (A & B & C & D & E). pose proof (front_top _ _ C NE) as TP. specialize (D RP).
  set (b := w_buf w) in *. set (la := w_atom w) in *.
  assert (G : forall x y z, add1 s x y z false = Ok (s1, None, true) ->
    o_stack s1 = o_stack s /\ o_repeatable s1 = false /\ used s1 = used s + 1 + x + Z.of_nat M * y).
  { intros x y z Y. unfold add1 in Y. assert (X : s1 = mkone (o_bytes s + 1 + x) (o_offsets s + y) (o_stations s + z) (o_stack s) (o_max s) (o_names s) false) by congruence. rewrite X. unfold used. cbn [o_stack o_repeatable o_bytes o_offsets o_names]. split; [reflexivity|]. split; [reflexivity|]. lia. }
  assert (LB : (length b + 1 <= cap)%nat).
  { revert H; destruct ((min =? 0) && (max =? 0)) eqn:C1; [|destruct ((min =? 0) && (max =? 1)) eqn:C2; [|destruct ((min =? 1) && (max =? 0)) eqn:C3]]; intros H; destruct (G _ _ _ H) as (_ & _ & U); lia. }
  unfold second_pass. cbv zeta. rewrite start_ok by exact LB. fold b la.
  revert H; destruct ((min =? 0) && (max =? 0)) eqn:C1; [|destruct ((min =? 0) && (max =? 1)) eqn:C2; [|destruct ((min =? 1) && (max =? 0)) eqn:C3]]; intros H; destruct (G _ _ _ H) as (HS & HP & U); clear G H.
  - rewrite split_ok by lia. cbn [obind]. set (b1 := firstn la b ++ _). assert (L1 : length b1 = (length b + 1 + M)%nat) by (apply split_len; lia).
    assert (S1 : same la b b1) by (apply same_cut; lia).
    rewrite app_ok by (cbn [length]; lia). cbn [obind]. set (b2 := b1 ++ [74]). assert (L2 : length b2 = (length b1 + 1)%nat) by (unfold b2; rewrite app_length; reflexivity).
    assert (S2 : same la b b2) by (apply (same_trans _ _ b1); [exact S1|apply same_app; lia]).
    destruct (star_ok (length b2) la ltac:(lia) ltac:(lia) 8 M (le_n _)) as (rd & E1 & R). rewrite E1. pose proof (HV rd R) as HRD.
    destruct (patch_ok b2 (S la) (length b2 + UTF8Len (zigzag rd))) as (b3 & v & E3 & S3 & L3 & _); try lia. rewrite E3. cbn [obind fst].
    pose proof (utf8len_range (zigzag v)). rewrite app_ok by (rewrite offset_len; lia). cbn [obind].
    apply (keeps_at la); try assumption; rewrite ?app_length, ?offset_len; try lia; [|congruence].
    apply (same_trans _ _ b2); [exact S2|]. apply (same_trans _ _ b3); [apply (same_le (S la)); [lia|exact S3]|apply same_app; lia].
  - rewrite split_ok by lia. cbn [obind]. set (b1 := firstn la b ++ _). assert (L1 : length b1 = (length b + 1 + M)%nat) by (apply split_len; lia).
    assert (S1 : same la b b1) by (apply same_cut; lia).
    destruct (patch_ok b1 (S la) (length b1)) as (b3 & v & E3 & S3 & L3 & _); try lia. rewrite E3. cbn [obind fst]. pose proof (utf8len_range (zigzag v)).
    apply (keeps_at la); try assumption; try lia; [|congruence]. apply (same_trans _ _ b1); [exact S1|apply (same_le (S la)); [lia|exact S3]].
  - rewrite app_ok by (cbn [length]; lia). cbn [obind]. rewrite app_length. cbn [length].
    set (d := Z.of_nat la - Z.of_nat (length b + 1)). assert (HD : Z.abs d < Z.of_nat T) by lia. pose proof (HV d HD).
    rewrite app_ok by (rewrite app_length, offset_len; cbn [length]; lia). cbn [obind].
    apply (keeps_at la); try assumption; rewrite ?app_length, ?offset_len; cbn [length]; try lia; [|congruence]. rewrite <- app_assoc. apply same_app. lia.
  - rewrite fits_ok by (rewrite !app_length, firstn_length_le, skipn_length by lia; cbn [length]; lia). cbn [obind].
    set (b1 := firstn la b ++ [90] ++ skipn la b). assert (L1 : length b1 = (length b + 1)%nat) by (unfold b1; rewrite !app_length, firstn_length_le, skipn_length by lia; cbn [length]; lia).
    assert (S1 : same la b b1) by (apply same_cut; lia).
    rewrite app_ok by (cbn [length]; lia). cbn [obind]. rewrite app_length. cbn [length].
    set (d := Z.of_nat (S la) - Z.of_nat (length b1 + 3)). assert (HD : Z.abs d < Z.of_nat T) by lia. pose proof (HV d HD).
    rewrite app_ok by (rewrite app_length, offset_len; cbn [length]; lia). cbn [obind].
    apply (keeps_at la); try assumption; rewrite ?app_length, ?offset_len; cbn [length]; try lia; [|congruence].
    apply (same_trans _ _ b1); [exact S1|]. rewrite <- app_assoc. apply same_app. lia.
Qed.
Lemma keeps_alt : first_pass TAlt s = Ok (s1, None, true) -> keeps N s1 (second TAlt w).
Proof.
  intros H. pose proof (stack_ne _ _ _ HI) as NE. pose proof HI as (A & B & C & D & E). pose proof (front_top _ _ C NE) as TP.
  set (b := w_buf w) in *.
  assert (G : map fst (o_stack s1) = map fst (o_stack s) /\ o_repeatable s1 = false /\ used s + 2 + 2 * Z.of_nat M <= used s1).
  { cbn [first_pass] in H. destruct (o_stack s) as [|[o [|]] k] eqn:OS; [discriminate H| |]; unfold add1, set_stack in H.
    - match type of H with Ok (?x, _, _) = _ => assert (X : s1 = x) by congruence end. rewrite X. unfold used. cbn [o_stack o_repeatable o_bytes o_offsets o_names]. split; [reflexivity|]. split; [reflexivity|]. lia.
    - match type of H with Ok (?x, _, _) = _ => assert (X : s1 = x) by congruence end. rewrite X. unfold used. cbn [o_stack o_repeatable o_bytes o_offsets o_names]. rewrite OS. split; [reflexivity|]. split; [reflexivity|]. lia. }
  destruct G as (HS & HP & U). clear H.
  unfold second_pass. cbv zeta. rewrite start_ok by (fold b; lia). fold b. destruct (w_stack w) as [|fr k] eqn:WS; [contradiction|]. cbn [top] in TP.
  pose proof (front_frame _ _ _ C) as F. pose proof (hi_ge _ _ F) as HG. pose proof F as (F1 & F2 & F3 & F4 & F5).
  assert (FIN : forall b' j, same (f_contents fr) b b' -> length b' = (j + M)%nat -> (length b' <= length b + 2 + 2 * M)%nat -> (f_contents fr + M + 2 <= j)%nat -> chained b' (f_contents fr) j ->
    keeps N s1 (done cap b' (mkframe (f_op fr) (f_group fr) (f_start fr) (f_contents fr) j :: k) (w_max w) (w_group w) (length b))).
  { intros b' j S1 L1 L2 L3 CH. rewrite done_ok by lia. eexists. split; [reflexivity|].
    split; [cbn [w_stack map f_op] in *; congruence|]. split; [exact B|]. cbn [w_buf w_stack w_atom]. split; [|split; [congruence|lia]].
    eapply front_set; [exact C|exact S1|reflexivity|reflexivity|]. unfold frame_ok, hi. cbn [f_contents f_start f_op f_jump].
    destruct j as [|j]; [lia|]. repeat split; try assumption; try lia. intros _. exact CH. }
  unfold hi in HG, F4. destruct (f_jump fr) as [|j0] eqn:FJ.
  - rewrite split_ok by lia. cbn [obind]. set (b1 := firstn _ b ++ _). assert (L1 : length b1 = (length b + 1 + M)%nat) by (apply split_len; lia).
    assert (S1 : same (f_contents fr) b b1) by (apply same_cut; lia). assert (N1 : nth_error b1 (f_contents fr) = Some 65) by (apply split_nth; lia).
    rewrite app_ok by (cbn [length]; lia). cbn [obind]. set (b2 := b1 ++ [74]). assert (L2 : length b2 = (length b1 + 1)%nat) by (unfold b2; rewrite app_length; reflexivity).
    rewrite app_ok by (rewrite padded_length; lia). cbn [obind].
    assert (SE : forall n, (n <= length b1)%nat -> same n b1 (b2 ++ padded M 0)) by (intros n Hn; unfold b2; rewrite <- app_assoc; apply same_app, Hn).
    apply FIN; rewrite ?app_length, ?padded_length; try lia.
    + apply (same_trans _ _ b1); [exact S1|apply SE; lia].
    + apply chained_one.
      * rewrite (same_nth (S (f_contents fr)) b1) by (try apply SE; lia). exact N1.
      * lia.
      * rewrite nth_error_app1 by lia. unfold b2. rewrite nth_error_app2 by (rewrite app_length; cbn [length]; lia). rewrite app_length. cbn [length]. replace (length b1 + 1 - 1 - length b1)%nat with O by lia. reflexivity.
      * rewrite skipn_app, skipn_all, Nat.sub_diag. cbn [app skipn]. rewrite firstn_all2; [reflexivity|rewrite padded_length; lia].
  - set (j1 := S j0) in *. specialize (F5 ltac:(discriminate)).
    rewrite split_ok by lia. cbn [obind]. set (b1 := firstn _ b ++ _). assert (L1 : length b1 = (length b + 1 + M)%nat) by (apply split_len; lia).
    assert (S1 : same (j1 + M) b b1) by (apply same_cut; lia). assert (N1 : nth_error b1 (j1 + M) = Some 65) by (apply split_nth; lia).
    rewrite app_ok by (cbn [length]; lia). cbn [obind]. set (b2 := b1 ++ [74]). assert (L2 : length b2 = (length b1 + 1)%nat) by (unfold b2; rewrite app_length; reflexivity).
    rewrite app_ok by (rewrite padded_length; lia). cbn [obind]. set (v := Z.of_nat j1 - Z.of_nat (length b2)).
    assert (SE : forall n, (n <= length b1)%nat -> same n b1 (b2 ++ padded M v)) by (intros n Hn; unfold b2; rewrite <- app_assoc; apply same_app, Hn).
    pose proof (chained_ge _ _ _ F5).
    apply FIN; rewrite ?app_length, ?padded_length; try lia.
    + apply (same_trans _ _ b1); [apply (same_le (j1 + M)); [lia|exact S1]|apply SE; lia].
    + apply (chained_more _ _ j1).
      * eapply (chained_same (j1 + M)); [|exact F5|lia]. apply (same_trans _ _ b1); [exact S1|apply SE; lia].
      * rewrite (same_nth (S (j1 + M)) b1) by (try apply SE; lia). exact N1.
      * lia.
      * rewrite nth_error_app1 by lia. unfold b2. rewrite nth_error_app2 by (rewrite app_length; cbn [length]; lia). rewrite app_length. cbn [length]. replace (length b1 + 1 - 1 - length b1)%nat with O by lia. reflexivity.
      * rewrite skipn_app, skipn_all, Nat.sub_diag. cbn [app skipn]. rewrite firstn_all2; [reflexivity|rewrite padded_length; lia].
Qed.
End Step.

Definition inner (t : token) : Prop := match t with TStart | TAccept => False | _ => True end.
Lemma lit_len l : length (flat_map (fun c => 67 :: UTF8Put c) l) = (length l + length (flat_map UTF8Put l))%nat.
Proof. induction l as [|c l IH]; [reflexivity|]. cbn [flat_map length app]. rewrite !app_length, IH. lia. Qed.
Lemma step_ok N t s s1 m1 w : inner t -> Inv N s w -> first_pass t s = Ok (s1, m1, true) -> used s1 + N + 5 + 2 * Z.of_nat M <= Z.of_nat T -> keeps N s1 (second t w).
Proof.
  intros HT' HI H HR.
  assert (m1 = None). { unfold first_pass, add1, fail1 in H. destruct t; try congruence; repeat match type of H with context [match ?x with _ => _ end] => destruct x; try discriminate H end; congruence. }
  subst m1. pose proof (stack_ne _ _ _ HI) as NE.
  assert (P : forall x, map fst (o_stack s1) = map fst (o_stack s) -> used s + Z.of_nat (length x) <= used s1 ->
     keeps N s1 (do _ <- fits cap (w_buf w ++ [0]); do b <- app_bytes cap (w_buf w) x; done cap b (w_stack w) (w_max w) (w_group w) (length (w_buf w)))).
  { intros x A B. rewrite start_ok by (destruct HI as (_ & _ & _ & _ & HL); lia). eapply keeps_plain; try eassumption. reflexivity. }
  assert (Q : forall x op mx g g', (op = KNeg -> (1 + M <= length x)%nat) -> map fst (o_stack s1) = op :: map fst (o_stack s) -> o_repeatable s1 = false -> used s + Z.of_nat (length x) <= used s1 ->
     keeps N s1 (do _ <- fits cap (w_buf w ++ [0]); do b <- app_bytes cap (w_buf w) x; done cap b (mkframe op g (length (w_buf w)) (length b) O :: w_stack w) mx g' (length (w_buf w)))).
  { intros x op mx g g' A B C D. rewrite start_ok by (destruct HI as (_ & _ & _ & _ & HL); lia). eapply keeps_push; eassumption. }
  destruct t; try contradiction; try (eapply keeps_rep; eassumption); try (eapply keeps_alt; eassumption).
  all: cbn [first_pass] in H; unfold add1, fail1 in H.
  - first_is H. apply P; [reflexivity|]. unfold used. cbn [o_bytes o_offsets o_names length]. lia.
  - first_is H. apply P; [reflexivity|]. unfold used. cbn [o_bytes o_offsets o_names length]. lia.
  - first_is H. apply P; [reflexivity|]. unfold used. cbn [o_bytes o_offsets o_names length]. lia.
  - first_is H. apply P; [reflexivity|]. rewrite lit_len, Nat2Z.inj_add, flat_put_len. unfold used. cbn [o_bytes o_offsets o_names]. lia.
  - first_is H. apply P; [reflexivity|]. cbn [length]. rewrite Nat2Z.inj_succ, string_bytes_len. unfold used. cbn [o_bytes o_offsets o_names]. lia.
  - first_is H. apply P; [reflexivity|]. cbn [length]. rewrite Nat2Z.inj_succ, string_bytes_len. unfold used. cbn [o_bytes o_offsets o_names]. lia.
  - unfold push1 in H. destruct (_ <=? _)%nat in H; [discriminate H|]. first_is H.
    specialize (Q [] KGroup (Nat.max (w_max w) (S (length (w_stack w)))) 0 (w_group w)). cbn [length] in Q.
    unfold second_pass. cbv zeta. destruct HI as (_ & _ & _ & _ & HL). unfold app_bytes in Q. rewrite app_nil_r in Q. rewrite (fits_ok (w_buf w)) in Q.
    + cbn [obind] in Q. apply Q; [discriminate|reflexivity|reflexivity|]. unfold used. cbn [o_bytes o_offsets o_names]. lia.
    + unfold used in *. cbn [o_bytes o_offsets o_names] in *. lia.
  - destruct (_ <=? _)%nat in H; [discriminate H|]. destruct (existsb _ _) in H; [discriminate H|]. unfold push1 in H. destruct (_ <=? _)%nat in H; [discriminate H|]. first_is H.
    apply (Q [40; u8 (w_group w + 1)] KNamed); [discriminate|reflexivity|reflexivity|]. unfold used. cbn [o_bytes o_offsets o_names length]. rewrite nsz_app. cbn [nsz]. lia.
  - unfold push1 in H. destruct (_ <=? _)%nat in H; [discriminate H|]. first_is H.
    apply (Q (33 :: padded M 0) KNeg); [intros _; cbn [length]; rewrite padded_length; lia|reflexivity|reflexivity|]. cbn [length]. rewrite padded_length. unfold used. cbn [o_bytes o_offsets o_names]. lia.
  - destruct (w_stack w) as [|fr k] eqn:WS; [contradiction|]. pose proof HI as (A & _). rewrite WS in A. cbn [map] in A.
    destruct (o_stack s) as [|[o x] k1] eqn:OS; [discriminate A|]. cbn [map fst] in A. assert (A1 : f_op fr = o) by congruence. assert (A2 : map f_op k = map fst k1) by congruence.
    destruct o; [discriminate H| | |]; first_is H; (eapply (keeps_end N s); [exact HI|exact HR|exact WS|rewrite A1; discriminate|exact (eq_sym A2)|]); rewrite A1; unfold used, set_stack; cbn [o_bytes o_offsets o_names]; lia.
Qed.

(** ** The first and the last token *)
Definition oneS : one := mkone 6 3 0 [(KStart, true)] 1 [] false.
Lemma first_start : first_pass TStart one0 = Ok (oneS, None, true).
Proof. reflexivity. Qed.
Lemma start_step mx : (UTF8Len (zigzag stations) <= M)%nat -> used oneS + nsz names + 5 + 2 * Z.of_nat M <= Z.of_nat T ->
  keeps (nsz names) oneS (second TStart (mktwo [] [] mx 0 0)).
Proof.
  intros HS HU. unfold second_pass. cbv zeta. rewrite start_ok by (cbn [w_buf length]; lia). cbn [w_buf w_stack w_max w_group length app].
  unfold used, oneS in HU. cbn [o_bytes o_offsets o_names nsz] in HU.
  assert (NL : Z.of_nat (length (flat_map string_bytes names)) = nsz names).
  { clear. induction names as [|x l IH]; [reflexivity|]. cbn [flat_map nsz]. rewrite app_length, Nat2Z.inj_add, string_bytes_len, IH. reflexivity. }
  match goal with |- context [app_bytes cap [] ?x] => set (bb := x) end.
  assert (L0 : length bb = (4 + 2 * M + UTF8Len (zigzag stations) + length (flat_map string_bytes names))%nat).
  { unfold bb. cbn [app length]. rewrite !app_length, !padded_length, offset_len. cbn [length]. lia. }
  rewrite app_ok by (cbn [length]; lia). cbn [obind app].
  destruct (patch_ok bb (1 + M) (length bb)) as (b1 & v & E1 & S1 & L1 & EB & Hv & Hr); try lia. specialize (Hr ltac:(lia)).
  rewrite E1. cbn [obind fst]. pose proof (HV v Hv) as HL. pose proof (utf8len_range (zigzag v)) as HR1. rewrite app_ok by (cbn [length]; lia). cbn [obind f_op f_group f_start f_jump].
  rewrite done_ok by (rewrite app_length; cbn [length]; lia). eexists. split; [reflexivity|].
  split; [reflexivity|]. split; [reflexivity|]. cbn [w_buf w_stack w_atom]. split; [|split; [discriminate|unfold used, oneS; cbn [o_bytes o_offsets o_names nsz]; rewrite app_length; cbn [length]; lia]].
  exists v. split; [lia|]. split; [lia|]. split.
  - rewrite EB. rewrite <- !app_assoc. rewrite skipn_app, skipn_all2 by (rewrite firstn_length_le; lia). rewrite firstn_length_le by lia. rewrite Nat.sub_diag. cbn [app skipn].
    rewrite firstn_app, offset_len, Nat.sub_diag, firstn_all2 by (rewrite offset_len; lia). cbn [firstn]. apply app_nil_r.
  - split; [|split; [|exact I]].
    + unfold frame_ok, hi. cbn [f_contents f_start f_op f_jump]. rewrite app_length. cbn [length]. repeat split; try lia; try discriminate.
    + cbn [f_contents]. rewrite app_length. cbn [length]. lia.
Qed.
Lemma accept_step N s w : Inv N s w -> used s + N + 5 + 2 * Z.of_nat M <= Z.of_nat T ->
  exists w1, second TAccept w = Ok (w1, None, true) /\ (length (w_buf w1) < T)%nat.
Proof.
  intros HI HU. pose proof (stack_ne _ _ _ HI) as NE. destruct HI as (A & B & C & D & E). pose proof (front_top _ _ C NE) as TP.
  unfold second_pass. cbv zeta. rewrite start_ok by lia. destruct (w_stack w) as [|fr k] eqn:WS; [contradiction|]. clear NE.
  pose proof (front_frame _ _ _ C) as F. destruct (fixup_ok (w_buf w) fr F ltac:(lia)) as (b1 & E1 & S1 & L1). rewrite E1. cbn [obind].
  destruct C as (v & V1 & V2 & V3 & V4). pose proof (frames_low _ _ _ _ V4) as LO. pose proof (utf8len_range (zigzag v)) as RV.
  assert (V3' : firstn (UTF8Len (zigzag v)) (skipn (1 + M) b1) = offset_bytes v) by (rewrite (same_slice (f_contents fr) (w_buf w)); [exact V3|exact S1|lia]).
  rewrite app_ok by (cbn [length]; lia). cbn [obind].
  destruct (patch_ok (b1 ++ [35]) 1 (length (b1 ++ [35]))) as (b2 & v1 & E2 & S2 & L2 & EB & Hv & Hr); rewrite ?app_length; cbn [length]; try lia.
  rewrite app_length in *. cbn [length] in *. rewrite E2. cbn [obind fst snd]. pose proof (HV v1 Hv) as HL1. pose proof (utf8len_range (zigzag v1)) as R1.
  assert (G : UTF8Get (skipn (1 + M - (M - UTF8Len (zigzag v1))) b2) = Ok (zigzag v, UTF8Len (zigzag v))).
  { replace (1 + M - (M - UTF8Len (zigzag v1)))%nat with (1 + UTF8Len (zigzag v1))%nat by lia. rewrite EB, app_assoc. rewrite skipn_app.
    rewrite skipn_all2 by (rewrite app_length, offset_len, firstn_length_le by (rewrite app_length; cbn [length]; lia); lia).
    rewrite app_length, offset_len, firstn_length_le by (rewrite app_length; cbn [length]; lia). rewrite Nat.sub_diag. cbn [app skipn].
    change (match b1 ++ [35] with [] => [] | _ :: l => skipn M l end) with (skipn (1 + M) (b1 ++ [35])).
    rewrite skipn_app. replace (1 + M - length b1)%nat with O by lia. cbn [skipn]. rewrite <- (firstn_skipn (UTF8Len (zigzag v)) (skipn (1 + M) b1)), V3'.
    rewrite <- app_assoc. unfold offset_bytes. rewrite get_put by (apply zigzag_range; lia). rewrite utf8put_len. reflexivity. }
  rewrite G. cbn [obind fst]. rewrite zagzig_zigzag by lia.
  set (start := Z.of_nat (1 + M - (M - UTF8Len (zigzag v1))) + v). assert (HS : 0 <= start <= Z.of_nat T) by (unfold start; lia).
  rewrite app_ok by (cbn [length]; lia). cbn [obind]. rewrite app_length. cbn [length].
  set (d1 := start - Z.of_nat (length b2 + 1)). assert (H1 : Z.abs d1 < Z.of_nat T) by (unfold d1; lia). pose proof (HV d1 H1).
  rewrite app_ok by (rewrite app_length, offset_len; cbn [length]; lia). cbn [obind].
  rewrite app_ok by (rewrite !app_length, offset_len; cbn [length]; lia). cbn [obind]. rewrite !app_length, offset_len. cbn [length].
  set (d2 := Z.of_nat (length b2) - Z.of_nat (length b2 + 1 + UTF8Len (zigzag d1) + 2)). assert (H2 : Z.abs d2 < Z.of_nat T) by (unfold d2; lia). pose proof (HV d2 H2).
  rewrite app_ok by (rewrite !app_length, !offset_len; cbn [length]; lia). cbn [obind].
  rewrite done_ok by (rewrite !app_length, !offset_len; cbn [length]; lia). eexists. split; [reflexivity|]. cbn [w_buf]. rewrite !app_length, !offset_len. cbn [length]. lia.
Qed.

(** ** The whole pass *)
Lemma used_mono t s s1 m1 : first_pass t s = Ok (s1, m1, true) -> used s <= used s1.
Proof.
  intros H. clear - H. destruct t as [| | | | |l|mn mx|l|ng l| | |l| |]; cbn [first_pass] in H; unfold add1, fail1, push1, set_stack in H.
  - destruct (_ <=? _)%nat in H; first_is H; unfold used; cbn [o_bytes o_offsets o_names]; lia.
  - first_is H; unfold used; cbn [o_bytes o_offsets o_names]; lia.
  - first_is H; unfold used; cbn [o_bytes o_offsets o_names]; lia.
  - first_is H; unfold used; cbn [o_bytes o_offsets o_names]; lia.
  - first_is H; unfold used; cbn [o_bytes o_offsets o_names]; lia.
  - pose proof (nbytes_pos l). first_is H; unfold used; cbn [o_bytes o_offsets o_names]; lia.
  - destruct (negb _) in H; [discriminate H|]. destruct (_ || _) in H; [discriminate H|]. destruct (_ && _) in H; [|destruct (_ && _) in H; [|destruct (_ && _) in H]]; first_is H; unfold used; cbn [o_bytes o_offsets o_names]; lia.
  - pose proof (string_size_pos l). first_is H; unfold used; cbn [o_bytes o_offsets o_names]; lia.
  - pose proof (string_size_pos l). first_is H; unfold used; cbn [o_bytes o_offsets o_names]; lia.
  - destruct (o_stack s) as [|[o [|]] k]; [discriminate H| |]; first_is H; unfold used; cbn [o_bytes o_offsets o_names]; lia.
  - destruct (_ <=? _)%nat in H; [discriminate H|]. first_is H; unfold used; cbn [o_bytes o_offsets o_names]; lia.
  - destruct (_ <=? _)%nat in H; [discriminate H|]. destruct (existsb _ _) in H; [discriminate H|]. destruct (_ <=? _)%nat in H; [discriminate H|]. first_is H; unfold used; cbn [o_bytes o_offsets o_names]. rewrite nsz_app. cbn [nsz]. lia.
  - destruct (_ <=? _)%nat in H; [discriminate H|]. first_is H; unfold used; cbn [o_bytes o_offsets o_names]; lia.
  - destruct (o_stack s) as [|[[| | |] x] k]; try discriminate H; first_is H; unfold used; cbn [o_bytes o_offsets o_names]; lia.
Qed.
Lemma pass_mono es : forall s m s' m', pass first_pass es s m = Ok (s', m', true) -> used s <= used s'.
Proof.
  clear - M.
  induction es as [|[t|e] es IH]; intros s m s' m' H; cbn [pass] in H.
  - assert (s' = s) by congruence. subst. lia.
  - apply obind_ok in H. destruct H as ([[s1 m1] ok1] & E & H). destruct ok1; [|discriminate H]. apply used_mono in E. apply IH in H. lia.
  - eapply IH, H.
Qed.
Definition inner_event (e : event) : Prop := match e with Tok t => inner t | Err _ => True end.
Lemma pass_ok N mid : forall s w s' m, Forall inner_event mid -> pass first_pass (mid ++ [Tok TAccept]) s None = Ok (s', m, true) -> Inv N s w -> used s' + N <= Z.of_nat T ->
  exists w1, pass second (mid ++ [Tok TAccept]) w None = Ok (w1, None, true) /\ (length (w_buf w1) < T)%nat.
Proof.
  induction mid as [|[t|e] mid IH]; intros s w s' m HF H HI HU; cbn [app pass] in *.
  - cbn [first_pass] in H. unfold add1 in H. cbn [obind] in H. first_is H.
    destruct (accept_step N s w HI) as (w1 & E & L); [unfold used, set_stack in *; cbn [o_bytes o_offsets o_names] in HU; lia|].
    rewrite E. cbn [obind]. exists w1. auto.
  - apply Forall_cons_iff in HF. destruct HF as [HT' HF]. apply obind_ok in H. destruct H as ([[s1 m1] ok1] & E & H). destruct ok1; [|discriminate H].
    assert (G : used s1 + N + 5 + 2 * Z.of_nat M <= Z.of_nat T).
    { assert (X : exists s2 m2, pass first_pass mid s1 m1 = Ok (s2, m2, true) /\ used s2 + 5 + 2 * Z.of_nat M = used s').
      { assert (MM : match m1 with Some _ => m1 | None => None end = m1) by (destruct m1; reflexivity). rewrite MM in H. clear - H. revert s1 m1 H.
        induction mid as [|[t|e] mid IH]; intros s1 m1 H; cbn [app pass] in *.
        - cbn [first_pass] in H. unfold add1 in H. cbn [obind] in H. destruct m1; [discriminate H|]. first_is H. exists s1, None. split; [reflexivity|]. unfold used, set_stack. cbn [o_bytes o_offsets o_names]. lia.
        - apply obind_ok in H. destruct H as ([[s2 m2] ok2] & E & H). destruct ok2; [|discriminate H]. rewrite E. cbn [obind]. apply IH in H. exact H.
        - apply IH in H. exact H. }
      destruct X as (s2 & m2 & X & Y). apply pass_mono in X. lia. }
    destruct (step_ok N t s s1 m1 w HT' HI E G) as (w1 & E1 & I1). rewrite E1. cbn [obind].
    destruct (pass_err _ _ _ _ _ _ _ H eq_refl) as (_ & MM & _). rewrite MM in H. eapply IH; eassumption.
  - exfalso. destruct (pass_err _ _ _ _ _ _ _ H eq_refl) as (_ & X & _). discriminate X.
Qed.
End Second.

(** ** What is scanned between the first and the last token *)
Section Calm.
Variables en rej : Z.
Definition calm (es : list event) : Prop := Forall inner_event es.
Lemma calm_app a b : calm a -> calm b -> calm (a ++ b).
Proof. intros A B. apply Forall_app. auto. Qed.
Lemma flush_calm d : calm (flush d).
Proof. destruct d; [constructor|]. repeat constructor. Qed.
Lemma delay_calm pre d c n r : calm pre -> calm (fst (fst (delay pre d c n r))).
Proof. intros H. unfold delay. destruct (repeats n); cbn [fst]; [apply calm_app; [exact H|apply flush_calm]|exact H]. Qed.
Lemma emit_calm pre d es r : calm pre -> calm es -> calm (fst (fst (emit pre d es r))).
Proof. intros H H'. unfold emit. cbn [fst]. repeat apply calm_app; auto. apply flush_calm. Qed.
Lemma supported_calm f : calm (fst (supported en rej f)).
Proof. unfold supported. destruct (negb _); cbn [fst]; repeat constructor. Qed.
Ltac calm := repeat constructor.
Definition hush (o : outcome round) : Prop := forall x, o = Ok x -> calm (fst (fst x)).
Lemma hush_ok x : calm (fst (fst x)) -> hush (Ok x).
Proof. intros H y E. assert (y = x) by congruence. subst. exact H. Qed.
Lemma hush_bind {A} (o : outcome A) f : (forall x, hush (f x)) -> hush (obind o f).
Proof. intros H y E. apply obind_ok in E. destruct E as (x & _ & E). eapply H, E. Qed.
Lemma code_calm radix k n bad rest d : hush (scan_code radix k n bad rest d).
Proof. apply hush_bind. intros r. destruct (_ || _); apply hush_ok; [calm|]. apply delay_calm. constructor. Qed.
Lemma count_calm pre rest d : calm pre -> hush (scan_count pre rest d).
Proof.
  intros HP. unfold scan_count. cbv zeta. destruct (match find_ch 44 _ with Some k => _ | None => _ end) as [close|]; [|apply hush_ok, emit_calm; [exact HP|calm]].
  apply hush_bind. intros mn. destruct (_ || _); [apply hush_ok, emit_calm; [exact HP|calm]|].
  destruct (_ =? 44); [|apply hush_ok, emit_calm; [exact HP|calm]].
  destruct (find_ch 125 _); [|apply hush_ok, emit_calm; [exact HP|calm]].
  apply hush_bind. intros mx. destruct (_ || _); apply hush_ok, emit_calm; try exact HP; calm.
Qed.
Lemma escape_calm rest d : hush (scan_escape en rest d).
Proof.
  unfold scan_escape. cbv zeta.
  repeat match goal with
  | |- hush (if ?b then _ else _) => destruct b
  | |- hush (Ok (delay _ _ _ _ _)) => apply hush_ok, delay_calm; constructor
  | |- hush (scan_code _ _ _ _ _ _) => apply code_calm
  | |- hush (Ok (emit _ _ _ _)) => apply hush_ok, emit_calm; calm
  end.
  destruct (find_ch 125 (skipn 3 rest)) as [[|k]|]; apply hush_ok, emit_calm; calm.
Qed.
Lemma class_calm pre rest d : calm pre -> calm (fst (fst (scan_class pre rest d))).
Proof. intros HP. unfold scan_class. cbv zeta. destruct (class_loop _ _ _) as [[o|] r]; cbn [fst]; apply emit_calm; try exact HP; calm. Qed.
Lemma group_calm pre rest d : calm pre -> calm (fst (fst (scan_group en rej pre rest d))).
Proof.
  intros HP. unfold scan_group. destruct (_ || _); [apply emit_calm; [exact HP|calm]|]. cbv zeta.
  pose proof (supported_calm Capture) as S1. destruct (supported en rej Capture) as [e1 s1]. cbn [fst] in S1.
  pose proof (supported_calm NonCapture) as S2. destruct (supported en rej NonCapture) as [e2 s2]. cbn [fst] in S2.
  pose proof (supported_calm NegLookahead) as S3. destruct (supported en rej NegLookahead) as [e3 s3]. cbn [fst] in S3.
  destruct (s1 && _).
  - destruct (find_ch 62 (skipn 3 rest)) as [[|k]|]; apply emit_calm; try exact HP; apply calm_app; try exact S1; calm.
  - destruct (s2 && _); [|destruct (s3 && _)]; apply emit_calm; try exact HP; repeat apply calm_app; try assumption; calm.
Qed.
Lemma round_calm rest d : hush (scan_round en rej rest d).
Proof.
  unfold scan_round. cbv zeta.
  assert (SC : forall pre, calm pre -> hush (Ok (simple_char pre rest d))) by (intros; apply hush_ok, delay_calm; assumption).
  assert (F : forall f k, (forall pre, calm pre -> hush (k pre)) -> hush (let '(pre, ok) := supported en rej f in if ok then k pre else Ok (simple_char pre rest d))).
  { intros f k H. pose proof (supported_calm f) as S. destruct (supported en rej f) as [pre [|]]; cbn [fst] in S; [apply H, S|apply SC, S]. }
  assert (E : forall pre es, calm pre -> calm es -> hush (Ok (emit pre d es (skipn 1 rest)))) by (intros; apply hush_ok, emit_calm; assumption).
  destruct (_ =? 94); [apply (F BOL (fun pre => Ok (emit pre d [Tok TBOL] (skipn 1 rest)))); intros; apply E; [assumption|calm]|].
  destruct (_ =? 36); [apply (F EOL (fun pre => Ok (emit pre d [Tok TEOL] (skipn 1 rest)))); intros; apply E; [assumption|calm]|].
  destruct (_ =? 46); [destruct (enabled en AnyIsQuest); [apply SC; constructor|apply E; calm]|].
  destruct (_ =? 63); [apply E; [calm|destruct (enabled en AnyIsQuest); calm]|].
  destruct (_ =? 42); [apply (F ZeroOrMore (fun pre => Ok (emit pre d ((if enabled en ZeroOrMoreAny then [Tok TAny] else []) ++ [Tok (TRep 0 0)]) (skipn 1 rest)))); intros; apply E; [assumption|destruct (enabled en ZeroOrMoreAny); calm]|].
  destruct (_ =? 43); [apply (F OneOrMore (fun pre => Ok (emit pre d [Tok (TRep 1 0)] (skipn 1 rest)))); intros; apply E; [assumption|calm]|].
  destruct (_ =? 123); [apply (F CountRepetition (fun pre => scan_count pre rest d)); intros; apply count_calm; assumption|].
  destruct (_ =? 92); [apply escape_calm|].
  destruct (_ =? 91); [apply (F CharClasses (fun pre => Ok (scan_class pre rest d))); intros; apply hush_ok, class_calm; assumption|].
  destruct (_ =? 124); [apply (F Alternates (fun pre => Ok (emit pre d [Tok TAlt] (skipn 1 rest)))); intros; apply E; [assumption|calm]|].
  destruct (_ =? 40); [apply (F Group (fun pre => Ok (scan_group en rej pre rest d))); intros; apply hush_ok, group_calm; assumption|].
  destruct (_ =? 41); [destruct (enabled en Group); [apply E; calm|apply SC; calm]|].
  destruct (_ || _); [|apply SC; constructor]. destruct (enabled en ExtendedRE); [|apply SC; constructor]. apply hush_ok. constructor.
Qed.

Lemma loop_calm f : forall rest d es, scan_loop en rej f rest d = Ok es -> calm es.
Proof.
  induction f as [|f IH]; intros [|c rest] d es H; cbn [scan_loop] in H; try discriminate H; try (assert (es = flush d) by congruence; subst; apply flush_calm).
  apply obind_ok in H. destruct H as ([[e1 d1] r1] & E & H). apply obind_ok in H. destruct H as (e2 & E2 & H). assert (es = e1 ++ e2) by congruence. subst.
  apply calm_app; [exact (round_calm _ _ _ E)|eapply IH, E2].
Qed.
Lemma scan_calm re es : scan en rej re = Ok es -> Forall (fun e => is_err e = false) es -> exists mid, es = Tok TStart :: mid ++ [Tok TAccept] /\ calm mid.
Proof.
  intros H HF. unfold scan in H. apply obind_ok in H. destruct H as (mid & E & H). apply loop_calm in E.
  assert (X : existsb is_err mid = false).
  { assert (EE : es = Tok TStart :: mid ++ (if existsb is_err mid then [] else [Tok TAccept])) by congruence. rewrite EE in HF. apply Forall_cons_iff in HF. destruct HF as [_ HF]. apply Forall_app in HF. destruct HF as [HF _].
    clear - HF. induction HF as [|e l HE _ IH]; [reflexivity|]. cbn [existsb]. rewrite HE. exact IH. }
  rewrite X in H. exists mid. split; [congruence|exact E].
Qed.
End Calm.

(** ** Compiling *)
Lemma len_small c : 0 <= c < 2^21 -> UTF8Len c = if c <? 2^7 then 1%nat else if c <? 2^11 then 2%nat else if c <? 2^16 then 3%nat else 4%nat.
Proof.
  intros H. unfold UTF8Len. assert (X : Z.land c 0x80000000 = 0).
  { apply Z.bits_inj'. intros n Hn. rewrite Z.land_spec, Z.bits_0. change 0x80000000 with (2^31). rewrite Z.pow2_bits_eqb by lia.
    destruct (Z.eqb_spec 31 n) as [<-|]; [|apply andb_false_r]. rewrite andb_true_r. apply Z.testbit_false; [lia|]. rewrite Z.div_small by lia. reflexivity. }
  rewrite X, Z.eqb_refl. cbn [negb]. destruct (c <? 2^7), (c <? 2^11), (c <? 2^16); try reflexivity. destruct (Z.ltb_spec c (2^21)); [reflexivity|lia].
Qed.
Lemma len_mono a b : 0 <= a <= b -> b < 2^21 -> (UTF8Len a <= UTF8Len b)%nat.
Proof.
  intros H L. rewrite !len_small by lia.
  destruct (Z.ltb_spec a (2^7)), (Z.ltb_spec a (2^11)), (Z.ltb_spec a (2^16)), (Z.ltb_spec b (2^7)), (Z.ltb_spec b (2^11)), (Z.ltb_spec b (2^16)); lia.
Qed.

Lemma names_ok t s s1 m1 : first_pass t s = Ok (s1, m1, true) -> 0 <= o_offsets s -> 0 <= o_offsets s1.
Proof.
  intros H HO. destruct t; cbn [first_pass] in H; unfold add1, fail1, push1, set_stack in H.
  all: repeat match type of H with (if ?b then _ else _) = _ => destruct b; try discriminate H | context [if (?a <=? ?b)%nat then _ else _] => destruct (a <=? b)%nat; try discriminate H | (match ?x with _ => _ end) = _ => destruct x; try discriminate H end.
  all: try (first_is H; cbn [o_offsets]; lia).
Qed.
Lemma offsets_pos es : forall s m s' m', pass first_pass es s m = Ok (s', m', true) -> 0 <= o_offsets s -> 0 <= o_offsets s'.
Proof.
  induction es as [|[t|e] es IH]; intros s m s' m' H HO; cbn [pass] in H.
  - assert (s' = s) by congruence. subst. exact HO.
  - apply obind_ok in H. destruct H as ([[s1 m1] ok1] & E & H). destruct ok1; [|discriminate H]. eapply IH; [exact H|]. eapply names_ok; eassumption.
  - eapply IH; eassumption.
Qed.

Lemma compiles features reject re es s : let M := offset_max_bytes (o_bytes s) (o_offsets s) in
  scan (Z.land features (Z.lnot reject)) reject re = Ok es -> pass first_pass es one0 None = Ok (s, None, true) -> o_stack s = [] ->
  o_bytes s + 4 * o_offsets s < 2^20 -> allocated (o_bytes s) (o_offsets s) = o_bytes s + o_offsets s * Z.of_nat M ->
  (length (offset_bytes (o_stations s)) <= M)%nat ->
  exists prog, compile features reject re = Ok (Some prog, None).
Proof.
  intros M ES E1 EK HB HA HS. unfold compile. rewrite ES. cbn [obind]. rewrite E1. cbn [obind negb]. rewrite EK. fold M.
  destruct (pass_err _ _ _ _ _ _ _ E1 eq_refl) as (_ & _ & HF). destruct (scan_calm _ _ _ _ ES HF) as (mid & EM & HC).
  set (B := o_bytes s) in *. set (O' := o_offsets s) in *.
  assert (HO : 0 <= O') by (eapply offsets_pos; [exact E1|cbn; lia]).
  (* the size of an offset *)
  set (T := Z.to_nat (allocated B O')). rewrite EM in E1. cbn [pass] in E1. rewrite first_start in E1. cbn [obind] in E1.
  assert (U : forall m, used m oneS + 5 + 2 * Z.of_nat m <= used m s).
  { intros m. clear - E1. revert E1. generalize oneS. generalize (@None msg) at 1. induction mid as [|[t|e] mid IH]; intros m1 s1 H; cbn [app pass] in H.
    - cbn [first_pass] in H. unfold add1 in H. cbn [obind] in H. destruct m1; [discriminate H|]. first_is H. unfold used, set_stack. cbn [o_bytes o_offsets o_names]. lia.
    - apply obind_ok in H. destruct H as ([[s2 m2] ok2] & E & H). destruct ok2; [|discriminate H]. apply IH in H. apply (used_mono m) in E. lia.
    - apply IH in H. exact H. }
  set (k := blen (2 * (B + O' * 4))).
  assert (NP : 0 <= nsz (o_names s)) by (clear; induction (o_names s) as [|x l IH]; cbn [nsz]; [lia|pose proof (string_size_pos x); lia]).
  pose proof (U O) as U0. unfold used, oneS in U0. cbn [o_bytes o_offsets o_names nsz] in U0. fold B O' in U0.
  assert (HK : 1 <= k <= 4) by (unfold k, blen; rewrite len_small by lia; repeat match goal with |- context [if ?b then _ else _] => destruct b end; lia).
  assert (EMM : M = UTF8Len (2 * (B + O' * k))) by reflexivity.
  assert (HM : Z.of_nat M <= k) by (rewrite EMM; unfold k at 2; unfold blen; apply inj_le, len_mono; nia).
  assert (HM1 : (1 <= M)%nat) by (rewrite EMM; apply utf8len_range).
  assert (ET : Z.of_nat T = B + O' * Z.of_nat M) by (unfold T; rewrite HA; nia).
  assert (UT : used M s + nsz (o_names s) = Z.of_nat T) by (unfold used; fold B O'; lia).
  pose proof (U M) as UM. unfold used at 1, oneS in UM. cbn [o_bytes o_offsets o_names nsz] in UM.
  assert (HT : Z.of_nat T < 2^29) by nia.
  assert (HV : forall v, Z.abs v < Z.of_nat T -> (UTF8Len (zigzag v) <= M)%nat).
  { intros v Hv. rewrite EMM. rewrite zigzag_eq by lia. apply len_mono; destruct (v <? 0); nia. }
  replace (Z.to_nat (allocated B O' + 1)) with (S T) by (unfold T; lia).
  rewrite EM. cbn [pass].
  destruct (start_step M T HM1 ltac:(lia) HV (o_stations s) (o_names s) (o_max s)) as (w1 & E2 & I1).
  { rewrite <- offset_len. exact HS. }
  { unfold used, oneS. cbn [o_bytes o_offsets o_names nsz]. lia. }
  rewrite E2. cbn [obind]. destruct (pass_ok M T HM1 ltac:(lia) HT HV (o_stations s) (o_names s) (nsz (o_names s)) mid _ _ _ _ HC E1 I1) as (w2 & E3 & L3); [lia|].
  rewrite E3. cbn [obind]. unfold app_bytes, fits. rewrite app_length. cbn [length]. destruct (Nat.leb_spec (length (w_buf w2) + 1) (S T)); [|lia]. cbn [obind]. eexists. reflexivity.
Qed.

(** ** The first pass ends *)
Lemma first_total t s : inner t -> last (map fst (o_stack s)) KGroup = KStart ->
  exists s1 m1 ok, first_pass t s = Ok (s1, m1, ok) /\ (ok = true -> last (map fst (o_stack s1)) KGroup = KStart).
Proof.
  intros HT HL. unfold first_pass, add1, fail1, push1, set_stack.
  assert (C : forall k x, last (map fst (o_stack s)) KGroup = KStart -> last (map fst ((k, x) :: o_stack s)) KGroup = KStart).
  { intros k x H. destruct (o_stack s) as [|y l]; [discriminate H|exact H]. }
  destruct t; try contradiction;
    repeat match goal with |- context [if (?a <=? ?b)%nat then _ else _] => destruct (a <=? b)%nat | |- context [if ?b then _ else _] => destruct b end;
    try (eexists; eexists; eexists; split; [reflexivity|]; first [discriminate|intros _; cbn [o_stack]; auto]).
  - destruct (o_stack s) as [|[o [|]] k] eqn:E; [discriminate HL| |]; eexists; eexists; eexists; (split; [reflexivity|]); intros _; cbn [o_stack]; exact HL.
  - destruct (o_stack s) as [|[o x] k]; [discriminate HL|]. destruct k as [|y k].
    + cbn in HL. subst o. eexists; eexists; eexists; split; [reflexivity|]. discriminate.
    + destruct o; eexists; eexists; eexists; (split; [reflexivity|]); first [discriminate|intros _; exact HL].
Qed.
Lemma pass_total mid : forall s m, Forall inner_event mid -> last (map fst (o_stack s)) KGroup = KStart -> forall tail, tail = [] \/ tail = [Tok TAccept] ->
  exists r, pass first_pass (mid ++ tail) s m = Ok r.
Proof.
  induction mid as [|[t|e] mid IH]; intros s m HF HL tail HT; cbn [app pass].
  - destruct HT as [->| ->]; [eexists; reflexivity|]. cbn [pass first_pass]. unfold add1. cbn [obind pass]. eexists. reflexivity.
  - apply Forall_cons_iff in HF. destruct HF as [HI HF]. destruct (first_total t s HI HL) as (s1 & m1 & ok & E & H). rewrite E. cbn [obind]. destruct ok; [|eexists; reflexivity]. apply IH; auto.
  - apply Forall_cons_iff in HF. destruct HF as [_ HF]. apply IH; auto.
Qed.
Lemma first_ends en rej re es : scan en rej re = Ok es -> exists r, pass first_pass es one0 None = Ok r.
Proof.
  intros H. unfold scan in H. apply obind_ok in H. destruct H as (mid & E & H). apply loop_calm in E.
  assert (EE : es = Tok TStart :: mid ++ (if existsb is_err mid then [] else [Tok TAccept])) by congruence. rewrite EE. cbn [pass]. rewrite first_start. cbn [obind].
  apply pass_total; [exact E|reflexivity|]. destruct (existsb is_err mid); auto.
Qed.
