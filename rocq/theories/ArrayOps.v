(** Every array operation preserves the heap invariant, leaves the other slices
    alone, and computes the list operation it names. *)
From Verif Require Import Base RefModel RefProofs LatchProofs ArrayModel ArraySpec ArrayProofs ArrayHeap.
From Coq Require Import Permutation.
Ltac Zify.zify_post_hook ::= Z.div_mod_to_equations.

Lemma skipn_skipn {A} (l : list A) a b : skipn a (skipn b l) = skipn (b + a) l.
Proof. apply nth_ext_list. intros j. rewrite !nth_skipn. f_equal. lia. Qed.

Section Ops.
Context {A : Type}.
Implicit Types (x : body A) (h : heap A) (hs : list slice) (L M : list A).

Definition post h hs (r : heap A * slice) L : Prop :=
  WF (fst r) (snd r :: hs) /\ same_all h (fst r) hs /\ view (fst r) (snd r) = Some L.

Definition clean h (s : slice) : Prop :=
  forall b x, s_body s = Some b -> nth_error h b = Some (Some x) -> b_refs x <= 1 -> s_off s = 0.

Lemma WF_head h s hs : WF h (s :: hs) -> slice_ok h s.
Proof. intros [_ W]. inversion W; assumption. Qed.
Lemma WF_tail_ok h s hs : WF h (s :: hs) -> Forall (slice_ok h) hs.
Proof. intros [_ W]. inversion W; assumption. Qed.

Lemma view_len h s L : slice_ok h s -> view h s = Some L -> s_num s = Z.of_nat (length L) /\ s_num s < 2^32 /\ 0 <= s_off s.
Proof.
  intros K V. destruct (view_ok h s K) as (L' & V' & N). rewrite V in V'. injection V' as <-.
  unfold slice_ok in K. destruct (s_body s).
  - destruct K as (x & M & _ & (_ & VN & VB & _) & ? & ? & ?). lia.
  - lia.
Qed.

Lemma view_split h s L b : slice_ok h s -> view h s = Some L -> s_body s = Some b ->
  exists x M, nth_error h b = Some (Some x) /\ valid x M /\ 0 <= s_off s /\
    s_off s + s_num s <= Z.of_nat (length M) /\ 0 <= s_num s /\
    L = l_slice M (Z.to_nat (s_off s)) (Z.to_nat (s_num s)).
Proof.
  intros K V E. assert (K0 := K). unfold slice_ok in K. rewrite E in K. destruct K as (x & M & Hb & VM & O & N & B).
  exists x, M. rewrite (view_body h s b x M) in V by assumption. injection V as <-. auto 10.
Qed.

Lemma hput_same h b x : nth_error h b = Some (Some x) -> hput h b x = h.
Proof. intros H. unfold hput. apply upd_same. exact H. Qed.

(** list facts *)
Lemma slice_insert M off n p S : (off = 0)%nat -> (p <= n)%nat -> (n <= length M)%nat ->
  l_slice (l_insert M p S) off (n + length S) = l_insert (l_slice M off n) p S.
Proof.
  intros -> P N. unfold l_slice, l_insert. cbn [skipn].
  apply nth_ext_list. intros j. rewrite nth_firstn.
  fold (l_insert M p S). fold (l_insert (firstn n M) p S).
  rewrite !nth_insert by (rewrite ?firstn_length; lia). rewrite !nth_firstn.
  destruct (Nat.ltb_spec j (n + length S)); destruct (Nat.ltb_spec j p); destruct (Nat.ltb_spec j (p + length S));
    destruct (Nat.ltb_spec j n); destruct (Nat.ltb_spec (j - length S) n); try lia; try reflexivity.
  all: try (apply nth_error_None; lia).
Qed.

Lemma slice_remove M off n p k : (off = 0)%nat -> (p + k <= n)%nat -> (n <= length M)%nat ->
  l_slice (l_remove M p k) off (n - k) = l_remove (l_slice M off n) p k.
Proof.
  intros -> P N. unfold l_slice. cbn [skipn]. apply nth_ext_list. intros j. rewrite nth_firstn.
  rewrite !nth_remove by (rewrite ?firstn_length; lia). rewrite !nth_firstn.
  destruct (Nat.ltb_spec j (n - k)); destruct (Nat.ltb_spec j p); destruct (Nat.ltb_spec j n);
    destruct (Nat.ltb_spec (j + k) n); try lia; reflexivity.
Qed.

Lemma excl_insert h s hs b x x' L f S pos : WF h (s :: hs) -> view h s = Some L -> s_body s = Some b ->
  nth_error h b = Some (Some x) -> b_refs x = 1 -> b_static x = false ->
  src_is f S -> Z.of_nat (length S) < 2^32 -> 0 <= pos <= s_num s ->
  body_insert x pos (Ext f) (Z.of_nat (length S)) = Ok x' ->
  exists L', post h hs (hput h b x', {| s_body := Some b; s_off := s_off s; s_num := u32 (s_num s + Z.of_nat (length S)) |}) L' /\
    length L' = (length L + length S)%nat /\ (s_off s = 0 -> L' = l_insert L (Z.to_nat pos) S).
Proof.
  intros W V E Hb R1 ST SI SL P BI. assert (K := WF_head _ _ _ W).
  destruct (view_split h s L b K V E) as (y & M & Hy & VM & O & B & N & EL). rewrite Hb in Hy. injection Hy as <-.
  destruct (view_len h s L K V) as (LN & LB & _).
  destruct (body_insert_spec x M pos f S x' VM ST ltac:(lia) SI SL BI) as [(VX & RX & SX & PB) | [ES EX]].
  - assert (LM : length (l_insert M (Z.to_nat pos) S) = (length M + length S)%nat) by (apply length_insert; lia).
    assert (U : u32 (s_num s + Z.of_nat (length S)) = s_num s + Z.of_nat (length S)).
    { unfold u32. apply Z.mod_small. destruct VX as (_ & VN & VB & _). lia. }
    rewrite U. set (s' := {| s_body := Some b; s_off := s_off s; s_num := s_num s + Z.of_nat (length S) |}).
    destruct (write_spec h s hs b x x' (l_insert M (Z.to_nat pos) S) s' W E Hb R1 ST VX RX SX eq_refl O
       ltac:(cbn; lia) ltac:(rewrite LM; cbn; lia)) as (W' & SA & VW).
    eexists. split; [split; [exact W'|split; [exact SA|exact VW]]|]. cbn [s' s_off s_num]. split.
    + rewrite slice_length by lia. lia.
    + intros Z0. subst L. rewrite Z2Nat.inj_add, Nat2Z.id by lia. apply slice_insert; lia.
  - subst S x'. rewrite hput_same by exact Hb. cbn [length Z.of_nat]. rewrite Z.add_0_r.
    assert (U : u32 (s_num s) = s_num s) by (unfold u32; apply Z.mod_small; lia). rewrite U.
    exists L. replace {| s_body := Some b; s_off := s_off s; s_num := s_num s |} with s by (rewrite <- E; destruct s; reflexivity).
    split; [split; [exact W|split; [apply same_all_refl; exact (WF_tail_ok _ _ _ W)|exact V]]|].
    split; [lia|]. intros _. unfold l_insert. simpl. symmetry. apply firstn_skipn.
Qed.

Lemma exclusive_inv h s : exclusive h s -> exists b x, s_body s = Some b /\ nth_error h b = Some (Some x) /\ b_refs x = 1 /\ b_static x = false.
Proof. intros H. exact H. Qed.

Lemma clean_unshare h s (ex : Z) h' s' : clean h s ->
  ((h' = h /\ s' = s /\ exists b x, s_body s = Some b /\ nth_error h b = Some (Some x) /\ b_refs x <= 1) \/ s_off s' = 0) -> s_off s' = 0.
Proof. intros C [(-> & -> & b & x & E & Hb & R)|H]; [exact (C b x E Hb R)|exact H]. Qed.

(** operator+= with an element *)
Lemma push_spec h s hs a r L : WF h (s :: hs) -> view h s = Some L -> push h s a = Ok r ->
  exists L', post h hs r L' /\ length L' = S (length L) /\ (clean h s -> L' = L ++ [a]).
Proof.
  intros W V H. unfold push in H. apply obind_ok in H as ([h1 s1] & U & H). cbn beta iota in H.
  destruct (unshare_spec h s hs 1 h1 s1 L W V U) as (W1 & SA & V1 & X1 & N1 & OF).
  destruct (exclusive_inv _ _ X1) as (b & x & E & Hb & R1 & ST).
  rewrite E in H. apply obind_ok in H as (x0 & G & H). apply hget_ok in G. rewrite Hb in G. injection G as <-.
  apply obind_ok in H as (x' & BI & H). injection H as <-.
  assert (SI : src_is (fun i => rdZ [a] i) [a]).
  { intros i Hi. cbn [length] in Hi. assert (i = 0) by lia. subst i. exists a. split; reflexivity. }
  destruct (view_len h1 s1 L (WF_head _ _ _ W1) V1) as (LN & LB & O1).
  destruct (excl_insert h1 s1 hs b x x' L _ [a] (s_num s1) W1 V1 E Hb R1 ST SI ltac:(cbn; lia) ltac:(lia) BI)
    as (L' & (P1 & P2 & P3) & P4 & P5).
  exists L'. split; [split; [exact P1|split; [eapply same_all_trans; eassumption|exact P3]]|].
  split; [cbn in P4; lia|]. intros C. assert (Z0 := clean_unshare _ _ 1 _ _ C OF). rewrite (P5 Z0). unfold l_insert.
  rewrite LN, Nat2Z.id, firstn_all, skipn_all, app_nil_r. reflexivity.
Qed.

Lemma slice_join M o n k : (o + n + k <= length M)%nat -> l_slice M o (n + k) = l_slice M o n ++ l_slice M (o + n) k.
Proof.
  intros H. unfold l_slice. rewrite <- (firstn_skipn n (skipn o M)) at 1.
  rewrite firstn_app, firstn_length, skipn_length.
  replace (n + k - Nat.min n (length M - o))%nat with k by lia.
  rewrite firstn_firstn, Nat.min_r by lia. f_equal. rewrite skipn_skipn. try (f_equal; try (f_equal; lia)).
Qed.

Lemma in_cnt hs w b : In w hs -> s_body w = Some b -> (1 <= cnt b hs)%nat.
Proof.
  intros Hw E. unfold cnt. assert (X : In w (filter (refers b) hs)) by (apply filter_In; split; [exact Hw|unfold refers; rewrite E; apply Nat.eqb_refl]).
  destruct (filter (refers b) hs); [destruct X|cbn; lia].
Qed.

Lemma same_window h s hs b x M s' : WF h (s :: hs) -> s_body s = Some b -> nth_error h b = Some (Some x) -> valid x M ->
  s_body s' = Some b -> 0 <= s_off s' -> 0 <= s_num s' -> s_off s' + s_num s' <= Z.of_nat (length M) ->
  post h hs (h, s') (l_slice M (Z.to_nat (s_off s')) (Z.to_nat (s_num s'))).
Proof. intros. destruct (window_spec h s hs b x M s') as (P & Q & R); try assumption. split; [exact P|split; assumption]. Qed.

(** insert of another array *)
Lemma insert_spec h s hs pos w r L LW : WF h (s :: hs) -> In w hs -> view h s = Some L -> view h w = Some LW ->
  0 <= pos <= Z.of_nat (length L) -> insert h s pos w false = Ok r ->
  exists L', post h hs r L' /\ length L' = (length L + length LW)%nat /\ (clean h s -> L' = l_insert L (Z.to_nat pos) LW).
Proof.
  intros W Hw V VW P H. assert (K := WF_head _ _ _ W). assert (KT := WF_tail_ok _ _ _ W).
  rewrite Forall_forall in KT. assert (KW := KT w Hw).
  destruct (view_len h s L K V) as (LN & LB & LO). destruct (view_len h w LW KW VW) as (WN & WB & WO).
  unfold insert in H.
  destruct (same_body (s_body s) (s_body w) && (pos =? s_num s) && (u32 (s_off s + pos) =? s_off w)) eqn:E1.
  { apply andb_true_iff in E1 as [E1 E3]. apply andb_true_iff in E1 as [E1 E2]. apply Z.eqb_eq in E2, E3. injection H as <-.
    unfold same_body in E1. destruct (s_body s) as [b|] eqn:Es; destruct (s_body w) as [c|] eqn:Ew; try discriminate.
    - apply Nat.eqb_eq in E1. subst c.
      destruct (view_split h s L b K V Es) as (x & M & Hb & VM & O & B & N & EL).
      destruct (view_split h w LW b KW VW Ew) as (y & M' & Hy & VM' & O' & B' & N' & EL').
      rewrite Hb in Hy. injection Hy as <-.
      assert (LM : length M' = length M) by (destruct VM as (_ & A1 & _), VM' as (_ & A2 & _); lia).
      assert (MM : M' = M).
      { apply nth_ext_list. intros j. destruct (nth_error M j) as [a|] eqn:Ej.
        - destruct (nth_some_lt M' j) as [a' Ha']. { rewrite LM. eapply nth_lt; exact Ej. }
          destruct VM as [A1 _], VM' as [A2 _]. rewrite Ha'. apply A1 in Ej. apply A2 in Ha'. congruence.
        - apply nth_error_None. rewrite LM. apply nth_error_None. exact Ej. }
      subst M'. assert (VM0 := VM). destruct VM as (_ & VN & VB & _).
      assert (U1 : u32 (s_off s + pos) = s_off s + pos) by (unfold u32; apply Z.mod_small; lia). rewrite U1 in E3.
      assert (U2 : u32 (s_num s + s_num w) = s_num s + s_num w) by (unfold u32; apply Z.mod_small; lia). rewrite U2.
      set (s' := {| s_body := Some b; s_off := s_off s; s_num := s_num s + s_num w |}).
      assert (PW := same_window h s hs b x M s' W Es Hb VM0 eq_refl O ltac:(cbn; lia) ltac:(cbn; lia)).
      cbn [s' s_off s_num] in PW. rewrite Z2Nat.inj_add in PW by lia. rewrite slice_join in PW by lia.
      eexists. split; [exact PW|]. split.
      + rewrite app_length, !slice_length by lia. subst L LW. rewrite !slice_length by lia. reflexivity.
      + intros _. unfold l_insert. rewrite (firstn_all2 L), (skipn_all2 L), app_nil_r by lia.
        rewrite EL, EL'. f_equal. f_equal. lia.
    - unfold slice_ok in K, KW. rewrite Es in K. rewrite Ew in KW. destruct K as [O N], KW as [O' N'].
      rewrite N, N', O. exists []. assert (L = []) by (destruct L; cbn in LN; [reflexivity|lia]). assert (LW = []) by (destruct LW; cbn in WN; [reflexivity|lia]).
      subst L LW. split; [|split; [reflexivity|unfold l_insert; intros _; rewrite firstn_nil, skipn_nil; reflexivity]].
      replace {| s_body := None; s_off := 0; s_num := u32 (0 + 0) |} with s by (destruct s; cbn in *; subst; reflexivity).
      split; [exact W|split; [apply same_all_refl; exact (WF_tail_ok _ _ _ W)|exact V]]. }
  clear E1.
  destruct (same_body (s_body s) (s_body w) && (pos =? 0) && (u32 (s_off w + s_num w) =? s_off s)) eqn:E1.
  { apply andb_true_iff in E1 as [E1 E3]. apply andb_true_iff in E1 as [E1 E2]. apply Z.eqb_eq in E2, E3. injection H as <-.
    unfold same_body in E1. destruct (s_body s) as [b|] eqn:Es; destruct (s_body w) as [c|] eqn:Ew; try discriminate.
    - apply Nat.eqb_eq in E1. subst c.
      destruct (view_split h s L b K V Es) as (x & M & Hb & VM & O & B & N & EL).
      destruct (view_split h w LW b KW VW Ew) as (y & M' & Hy & VM' & O' & B' & N' & EL').
      rewrite Hb in Hy. injection Hy as <-.
      assert (LM : length M' = length M) by (destruct VM as (_ & A1 & _), VM' as (_ & A2 & _); lia).
      assert (MM : M' = M).
      { apply nth_ext_list. intros j. destruct (nth_error M j) as [a|] eqn:Ej.
        - destruct (nth_some_lt M' j) as [a' Ha']. { rewrite LM. eapply nth_lt; exact Ej. }
          destruct VM as [A1 _], VM' as [A2 _]. rewrite Ha'. apply A1 in Ej. apply A2 in Ha'. congruence.
        - apply nth_error_None. rewrite LM. apply nth_error_None. exact Ej. }
      subst M'. assert (VM0 := VM). destruct VM as (_ & VN & VB & _).
      assert (U1 : u32 (s_off w + s_num w) = s_off w + s_num w) by (unfold u32; apply Z.mod_small; lia). rewrite U1 in E3.
      assert (U2 : u32 (s_num s + s_num w) = s_num s + s_num w) by (unfold u32; apply Z.mod_small; lia). rewrite U2.
      assert (U3 : u32 (s_off s - s_num w) = s_off w) by (unfold u32; rewrite <- E3; replace (s_off w + s_num w - s_num w) with (s_off w) by lia; apply Z.mod_small; lia). rewrite U3.
      set (s' := {| s_body := Some b; s_off := s_off w; s_num := s_num s + s_num w |}).
      assert (PW := same_window h s hs b x M s' W Es Hb VM0 eq_refl O' ltac:(cbn; lia) ltac:(cbn; lia)).
      cbn [s' s_off s_num] in PW. rewrite (Z.add_comm (s_num s)) in PW. rewrite Z2Nat.inj_add in PW by lia. rewrite slice_join in PW by lia.
      eexists. split; [exact PW|]. split.
      + rewrite app_length, !slice_length by lia. subst L LW. rewrite !slice_length by lia. lia.
      + intros _. rewrite EL, EL', E2. unfold l_insert. cbn [Z.to_nat firstn skipn app]. try (f_equal; try (f_equal; lia)).
    - unfold slice_ok in K, KW. rewrite Es in K. rewrite Ew in KW. destruct K as [O N], KW as [O' N'].
      rewrite N, N', O. exists []. assert (L = []) by (destruct L; cbn in LN; [reflexivity|lia]). assert (LW = []) by (destruct LW; cbn in WN; [reflexivity|lia]).
      subst L LW. split; [|split; [reflexivity|unfold l_insert; intros _; rewrite firstn_nil, skipn_nil; reflexivity]].
      replace {| s_body := None; s_off := u32 (0 - 0); s_num := u32 (0 + 0) |} with s by (clear - Es O N; destruct s; cbn in *; subst; reflexivity).
      split; [exact W|split; [apply same_all_refl; exact (WF_tail_ok _ _ _ W)|exact V]]. }
  clear E1.
  apply obind_ok in H as ([h1 s1] & U & H). cbn beta iota in H.
  destruct (unshare_spec h s hs _ h1 s1 L W V U) as (W1 & SA & V1 & X1 & N1 & OF).
  destruct (exclusive_inv _ _ X1) as (b & x & E & Hb & R1 & ST).
  rewrite E in H. apply obind_ok in H as (x0 & G & H). apply hget_ok in G. rewrite Hb in G. injection G as <-.
  apply obind_ok in H as (x' & BI & H). injection H as <-.
  assert (VW1 : view h1 w = Some LW). { unfold same_all in SA. rewrite Forall_forall in SA. rewrite (same_view _ _ _ (SA w Hw)). exact VW. }
  assert (KW1 : slice_ok h1 w). { assert (KT1 := WF_tail_ok _ _ _ W1). rewrite Forall_forall in KT1. exact (KT1 w Hw). }
  rewrite WN in BI.
  destruct (excl_insert h1 s1 hs b x x' L _ LW pos W1 V1 E Hb R1 ST (view_src _ _ _ VW1 KW1) ltac:(lia) ltac:(lia) BI)
    as (L' & (P1 & P2 & P3) & P4 & P5).
  rewrite WN. exists L'. split; [split; [exact P1|split; [eapply same_all_trans; eassumption|exact P3]]|].
  split; [exact P4|]. intros C. exact (P5 (clean_unshare _ _ (s_num w) _ _ C OF)).
Qed.

(** set *)
Lemma valid_set x M i a d : valid x M -> cell_wr (b_data x) (Z.of_nat i) a = Ok d -> (i < length M)%nat ->
  valid {| b_data := d; b_num := b_num x; b_alloc := b_alloc x; b_refs := b_refs x; b_static := b_static x |} (l_set M i a).
Proof.
  intros (V1 & V2 & V3 & V4 & V5) H Hi. apply cell_wr_inv in H as [B ->]. rewrite Nat2Z.id.
  assert (LS : length (l_set M i a) = length M) by (unfold l_set; rewrite app_length, firstn_length; cbn [length]; rewrite skipn_length; lia).
  unfold valid. cbn. rewrite LS, upd_length. split; [|auto].
  intros j c Hc. rewrite nth_upd. unfold l_set in Hc.
  destruct (Nat.eqb_spec j i).
  - subst j. rewrite nth_error_app2 in Hc by (rewrite firstn_length; lia). rewrite firstn_length, Nat.min_l, Nat.sub_diag in Hc by lia.
    injection Hc as <-. destruct (Nat.ltb_spec i (length (b_data x))); [reflexivity|lia].
  - simpl. apply V1. rewrite <- Hc. destruct (Nat.lt_ge_cases j i).
    + rewrite nth_error_app1 by (rewrite firstn_length; lia). rewrite nth_firstn. destruct (Nat.ltb_spec j i); [reflexivity|lia].
    + rewrite nth_error_app2 by (rewrite firstn_length; lia). rewrite firstn_length, Nat.min_l by lia.
      destruct (j - i)%nat as [|k] eqn:Ek; [lia|]. cbn [nth_error]. rewrite nth_skipn. f_equal. lia.
Qed.

Lemma nth_set M i a j : (i < length M)%nat -> nth_error (l_set M i a) j = if Nat.eqb j i then Some a else nth_error M j.
Proof.
  intros Hi. unfold l_set. destruct (Nat.lt_ge_cases j i).
  - rewrite nth_error_app1 by (rewrite firstn_length; lia). rewrite nth_firstn.
    destruct (Nat.ltb_spec j i); [|lia]. destruct (Nat.eqb_spec j i); [lia|reflexivity].
  - rewrite nth_error_app2 by (rewrite firstn_length; lia). rewrite firstn_length, Nat.min_l by lia.
    destruct (Nat.eqb_spec j i); [subst; rewrite Nat.sub_diag; reflexivity|].
    destruct (j - i)%nat as [|k] eqn:Ek; [lia|]. cbn [nth_error]. rewrite nth_skipn. f_equal. lia.
Qed.
Lemma slice_set M o n i a : (i < n)%nat -> (o + n <= length M)%nat -> l_slice (l_set M (o + i) a) o n = l_set (l_slice M o n) i a.
Proof.
  intros Hi Hn. apply nth_ext_list. intros j. rewrite nth_set by (rewrite slice_length; lia).
  unfold l_slice. rewrite !nth_firstn, !nth_skipn, nth_set by lia.
  destruct (Nat.ltb_spec j n); destruct (Nat.eqb_spec (o + j) (o + i)); destruct (Nat.eqb_spec j i); try lia; reflexivity.
Qed.

Lemma set_spec h s hs i a r L : WF h (s :: hs) -> view h s = Some L -> set h s i a = Ok r ->
  0 <= i < Z.of_nat (length L) /\ post h hs r (l_set L (Z.to_nat i) a).
Proof.
  intros W V H. unfold set, cassert in H. destruct (_ && _) eqn:EB in H; [|discriminate].
  apply andb_true_iff in EB as [EB EC]. apply andb_true_iff in EB as [EA EB]. apply Z.leb_le in EA. apply Z.ltb_lt in EB.
  assert (K := WF_head _ _ _ W). destruct (view_len h s L K V) as (LN & LB & LO). split; [lia|].
  apply obind_ok in H as ([h1 s1] & U & H). cbn beta iota in H.
  destruct (unshare_spec h s hs 0 h1 s1 L W V U) as (W1 & SA & V1 & X1 & N1 & OF).
  destruct (exclusive_inv _ _ X1) as (b & x & E & Hb & R1 & ST).
  rewrite E in H. apply obind_ok in H as (x0 & G & H). apply hget_ok in G. rewrite Hb in G. injection G as <-.
  apply obind_ok in H as (d & CW & H). injection H as <-.
  destruct (view_split h1 s1 L b (WF_head _ _ _ W1) V1 E) as (y & M & Hy & VM & O & B & N & EL). rewrite Hb in Hy. injection Hy as <-.
  replace (s_off s1 + i) with (Z.of_nat (Z.to_nat (s_off s1) + Z.to_nat i)) in CW by lia.
  assert (VS := valid_set x M _ a d VM CW ltac:(lia)).
  assert (LS : length (l_set M (Z.to_nat (s_off s1) + Z.to_nat i) a) = length M) by (unfold l_set; rewrite app_length, firstn_length; cbn [length]; rewrite skipn_length; lia).
  destruct (write_spec h1 s1 hs b x _ _ s1 W1 E Hb R1 ST VS eq_refl ST E O N ltac:(rewrite LS; lia)) as (W2 & SA2 & V2).
  split; [exact W2|]. split; [eapply same_all_trans; eassumption|]. cbn [snd fst]. rewrite V2. f_equal. subst L.
  apply slice_set; lia.
Qed.

(** remove *)
Lemma excl_remove h s hs b x x' L at_ len : WF h (s :: hs) -> view h s = Some L -> s_body s = Some b ->
  nth_error h b = Some (Some x) -> b_refs x = 1 -> b_static x = false -> 0 <= at_ -> 0 < len -> at_ + len <= s_num s ->
  body_remove x at_ len = Ok x' ->
  exists L', post h hs (hput h b x', {| s_body := Some b; s_off := s_off s; s_num := u32 (s_num s - len) |}) L' /\
    length L' = (length L - Z.to_nat len)%nat /\ (s_off s = 0 -> L' = l_remove L (Z.to_nat at_) (Z.to_nat len)).
Proof.
  intros W V E Hb R1 ST P1 P2 P3 BR. assert (K := WF_head _ _ _ W).
  destruct (view_split h s L b K V E) as (y & M & Hy & VM & O & B & N & EL). rewrite Hb in Hy. injection Hy as <-.
  destruct (view_len h s L K V) as (LN & LB & _).
  assert (NM : b_num x = Z.of_nat (length M)) by apply VM.
  destruct (body_remove_spec x M at_ len x' VM ST P1 P2 ltac:(lia) BR) as (VX & RX & SX).
  assert (LM : length (l_remove M (Z.to_nat at_) (Z.to_nat len)) = (length M - Z.to_nat len)%nat) by (apply length_remove; lia).
  assert (U : u32 (s_num s - len) = s_num s - len) by (unfold u32; apply Z.mod_small; lia). rewrite U.
  set (s' := {| s_body := Some b; s_off := s_off s; s_num := s_num s - len |}).
  destruct (write_spec h s hs b x x' _ s' W E Hb R1 ST VX RX SX eq_refl O ltac:(cbn; lia) ltac:(rewrite LM; cbn; lia)) as (W' & SA & VW).
  eexists. split; [split; [exact W'|split; [exact SA|exact VW]]|]. cbn [s' s_off s_num]. split.
  - rewrite slice_length by lia. lia.
  - intros Z0. subst L. replace (Z.to_nat (s_num s - len)) with (Z.to_nat (s_num s) - Z.to_nat len)%nat by lia. apply slice_remove; lia.
Qed.

Lemma slice_prefix M o n k : (k <= n)%nat -> l_slice M o k = firstn k (l_slice M o n).
Proof. intros H. unfold l_slice. rewrite firstn_firstn, Nat.min_l by lia. reflexivity. Qed.
Lemma slice_suffix M o n k : (k <= n)%nat -> l_slice M (o + k) (n - k) = skipn k (l_slice M o n).
Proof. intros H. unfold l_slice. rewrite skipn_firstn_comm, skipn_skipn. try (f_equal; try (f_equal; lia)). Qed.

Lemma remove_spec h s hs at_ len r L len' : WF h (s :: hs) -> view h s = Some L -> remove h s at_ len = Ok r ->
  0 <= at_ <= Z.of_nat (length L) ->
  (len = -1 /\ len' = Z.of_nat (length L) - at_ /\ Z.of_nat (length L) < 2^31) \/ (0 <= len <= Z.of_nat (length L) - at_ /\ len' = len) ->
  exists L', post h hs r L' /\ length L' = (length L - Z.to_nat len')%nat /\
    (clean h s \/ at_ = 0 \/ at_ + len' = Z.of_nat (length L) \/ len' = 0 -> L' = l_remove L (Z.to_nat at_) (Z.to_nat len')).
Proof.
  intros W V H AT LEN. assert (K := WF_head _ _ _ W). destruct (view_len h s L K V) as (LN & LB & LO).
  unfold remove in H.
  assert (EL : (if len =? -1 then s32 (s_num s - at_) else len) = len').
  { destruct LEN as [(-> & -> & L31)|[? ->]]; [|destruct (Z.eqb_spec len (-1)); [lia|reflexivity]]. simpl.
    rewrite LN. apply s32_small. lia. }
  rewrite EL in H. clear EL. assert (L0 : 0 <= len' <= Z.of_nat (length L) - at_) by lia. clear LEN.
  assert (U : u32 (s_num s - len') = s_num s - len') by (unfold u32; apply Z.mod_small; lia). rewrite !U in H.
  unfold cassert in H. destruct (_ >=? _) in H; [|discriminate].
  assert (SELF : post h hs (h, s) L) by (split; [exact W|split; [apply same_all_refl; exact (WF_tail_ok _ _ _ W)|exact V]]).
  destruct (Z.eqb_spec at_ (s_num s)) as [Ea|Ea]; [|destruct (Z.eqb_spec len' 0) as [El|El]]; cbn [orb] in H.
  1,2: injection H as <-; exists L; split; [exact SELF|]; assert (len' = 0) by lia; subst len'; split; [cbn; lia|];
    intros _; unfold l_remove; cbn [Z.to_nat]; rewrite Nat.add_0_r; symmetry; apply firstn_skipn.
  destruct (s_body s) as [b|] eqn:Es.
  2:{ unfold slice_ok in K. rewrite Es in K. lia. }
  destruct (view_split h s L b K V Es) as (x & M & Hb & VM & O & B & N & EL).
  assert (NM : b_num x = Z.of_nat (length M)) by apply VM. assert (NB : b_num x < 2^32) by apply VM.
  assert (U2 : u32 (at_ + len') = at_ + len') by (unfold u32; apply Z.mod_small; lia). rewrite U2 in H.
  assert (U3 : u32 (s_off s + len') = s_off s + len') by (unfold u32; apply Z.mod_small; lia). rewrite U3 in H.
  destruct (Z.eqb_spec (at_ + len') (s_num s)) as [Ee|Ee].
  { injection H as <-.
    set (s' := {| s_body := Some b; s_off := s_off s; s_num := s_num s - len' |}).
    assert (PW := same_window h s hs b x M s' W Es Hb VM eq_refl O ltac:(cbn; lia) ltac:(cbn; lia)).
    cbn [s' s_off s_num] in PW. eexists. split; [exact PW|]. split; [rewrite slice_length by lia; subst L; rewrite slice_length by lia; lia|].
    intros _. rewrite (slice_prefix M _ (Z.to_nat (s_num s))) by lia. rewrite <- EL. unfold l_remove.
    rewrite (skipn_all2 L) by lia. rewrite app_nil_r. f_equal. lia. }
  destruct (Z.eqb_spec at_ 0) as [E0|E0].
  { injection H as <-.
    set (s' := {| s_body := Some b; s_off := s_off s + len'; s_num := s_num s - len' |}).
    assert (PW := same_window h s hs b x M s' W Es Hb VM eq_refl ltac:(cbn; lia) ltac:(cbn; lia) ltac:(cbn; lia)).
    cbn [s' s_off s_num] in PW. eexists. split; [exact PW|]. split; [rewrite slice_length by lia; subst L; rewrite slice_length by lia; lia|].
    intros _. replace (Z.to_nat (s_off s + len')) with (Z.to_nat (s_off s) + Z.to_nat len')%nat by lia.
    replace (Z.to_nat (s_num s - len')) with (Z.to_nat (s_num s) - Z.to_nat len')%nat by lia.
    rewrite slice_suffix by lia. rewrite <- EL, E0. reflexivity. }
  apply obind_ok in H as ([h1 s1] & UN & H). cbn beta iota in H.
  destruct (unshare_spec h s hs _ h1 s1 L W V UN) as (W1 & SA & V1 & X1 & N1 & OF).
  destruct (exclusive_inv _ _ X1) as (b1 & x1 & E1 & Hb1 & R1 & ST).
  rewrite E1 in H. apply obind_ok in H as (x0 & G & H). apply hget_ok in G. rewrite Hb1 in G. injection G as <-.
  apply obind_ok in H as (x' & BR & H). injection H as <-.
  destruct (excl_remove h1 s1 hs b1 x1 x' L at_ len' W1 V1 E1 Hb1 R1 ST ltac:(lia) ltac:(lia) ltac:(lia) BR) as (L' & (P1 & P2 & P3) & P4 & P5).
  rewrite N1, U in P1, P2, P3. exists L'. split; [split; [exact P1|split; [eapply same_all_trans; eassumption|exact P3]]|].
  split; [exact P4|]. intros [C|D]; [|lia]. exact (P5 (clean_unshare _ _ 0 _ _ C OF)).
Qed.

(** clear, pull *)
Lemma clear_spec h s hs r L : WF h (s :: hs) -> view h s = Some L -> clear h s = Ok r -> post h hs r [].
Proof.
  intros W V H. injection H as <-. assert (K := WF_head _ _ _ W). destruct (s_body s) as [b|] eqn:Es.
  - destruct (view_split h s L b K V Es) as (x & M & Hb & VM & O & B & N & EL).
    assert (PW := same_window h s hs b x M {| s_body := Some b; s_off := s_off s; s_num := 0 |} W Es Hb VM eq_refl O ltac:(cbn; lia) ltac:(cbn; lia)).
    exact PW.
  - unfold slice_ok in K. rewrite Es in K. destruct K as [O N].
    replace {| s_body := None; s_off := s_off s; s_num := 0 |} with s by (destruct s; cbn in *; subst; reflexivity).
    split; [exact W|]. split; [apply same_all_refl; exact (WF_tail_ok _ _ _ W)|]. apply view_null; assumption.
Qed.

Lemma elem_spec h s i a L : slice_ok h s -> view h s = Some L -> elem h s i = Ok a ->
  0 <= i /\ nth_error L (Z.to_nat i) = Some a.
Proof.
  intros K V H. destruct (view_len h s L K V) as (LN & _). unfold elem, cassert in H. destruct (_ && _) eqn:EB in H; [|discriminate].
  apply andb_true_iff in EB as [EB EC]. apply andb_true_iff in EB as [EA EB]. apply Z.leb_le in EA. apply Z.ltb_lt in EB.
  destruct (view_elem h s L i V K ltac:(lia)) as (a' & E1 & E2). rewrite H in E1. injection E1 as <-. auto.
Qed.
Lemma elem_ok h s i L a : slice_ok h s -> view h s = Some L -> 0 <= i -> nth_error L (Z.to_nat i) = Some a -> elem h s i = Ok a.
Proof.
  intros K V Hi H. destruct (view_len h s L K V) as (LN & _). assert (NL := nth_lt _ _ _ H).
  unfold elem, cassert. destruct (Z.leb_spec 0 i); [|lia]. destruct (Z.ltb_spec i (s_num s)); [|lia].
  destruct (s_body s) eqn:Es.
  - cbn [andb]. destruct (view_elem h s L i V K ltac:(lia)) as (a' & E1 & E2). rewrite E1. congruence.
  - unfold slice_ok in K. rewrite Es in K. lia.
Qed.

Lemma pull_spec h s hs r e L : WF h (s :: hs) -> view h s = Some L -> pull h s = Ok (r, e) ->
  exists L', post h hs r L' /\ L = L' ++ [e].
Proof.
  intros W V H. unfold pull, cassert in H. destruct (Z.gtb_spec (s_num s) 0); [|discriminate].
  apply obind_ok in H as (a & EA & H). injection H as <- <-.
  assert (K := WF_head _ _ _ W). destruct (view_len h s L K V) as (LN & _).
  destruct (elem_spec h s _ _ _ K V EA) as [_ EN].
  destruct (s_body s) as [b|] eqn:Es; [|unfold slice_ok in K; rewrite Es in K; lia].
  destruct (view_split h s L b K V Es) as (x & M & Hb & VM & O & B & N & EL).
  set (s' := {| s_body := Some b; s_off := s_off s; s_num := s_num s - 1 |}).
  assert (PW := same_window h s hs b x M s' W Es Hb VM eq_refl O ltac:(cbn; lia) ltac:(cbn; lia)).
  eexists. split; [exact PW|]. cbn [s' s_off s_num]. rewrite (slice_prefix M _ (Z.to_nat (s_num s))) by lia. rewrite <- EL.
  replace (Z.to_nat (s_num s - 1)) with (length L - 1)%nat in * by lia.
  rewrite <- (firstn_skipn (length L - 1) L) at 1. f_equal.
  assert (LS : length (skipn (length L - 1) L) = 1%nat) by (rewrite skipn_length; lia).
  destruct (skipn (length L - 1) L) as [|q [|? ?]] eqn:ES; cbn in LS; try lia.
  assert (X : nth_error (skipn (length L - 1) L) 0 = Some q) by (rewrite ES; reflexivity). rewrite nth_skipn, Nat.add_0_r in X.
  congruence.
Qed.

(** Constructors *)
Lemma make_spec h hs l al r : WF h hs -> Z.of_nat (length l) < 2^32 -> make h l al = Ok r -> post h hs r l.
Proof.
  intros W B H. unfold make in H. apply obind_ok in H as (x & NB & H). apply obind_ok in H as (h1 & AR & H). injection H as <-.
  assert (SI : src_is (fun i => rdZ l i) l).
  { intros i Hi. destruct (nth_some_lt l (Z.to_nat i) ltac:(lia)) as [a Ha]. exists a. split; [|exact Ha].
    unfold rdZ. destruct (Z.ltb_spec i 0); [lia|]. unfold rd. rewrite Ha. reflexivity. }
  destruct (new_body_spec _ l _ _ SI B NB) as (VX & R0 & S0).
  destruct (fresh_spec h hs x l W VX ltac:(unfold stat; rewrite S0; exact R0)) as (h1' & E1 & F1 & _).
  rewrite AR in E1. injection E1 as <-. exact F1.
Qed.
Lemma make_ok h hs l al : WF h hs -> Z.of_nat (length l) <= 2^32 - 8 -> 0 <= al <= 2^32 - 8 -> exists r, make h l al = Ok r.
Proof.
  intros W B AL. unfold make.
  assert (SI : src_is (fun i => rdZ l i) l).
  { intros i Hi. destruct (nth_some_lt l (Z.to_nat i) ltac:(lia)) as [a Ha]. exists a. split; [|exact Ha].
    unfold rdZ. destruct (Z.ltb_spec i 0); [lia|]. unfold rd. rewrite Ha. reflexivity. }
  destruct (new_body_ok _ l (if al <? Z.of_nat (length l) then Z.of_nat (length l) else al) SI B) as [x NB].
  { destruct (al <? _); lia. }
  rewrite NB. cbn [obind]. unfold addref, hget. rewrite nth_error_app2 by lia. rewrite Nat.sub_diag. cbn. eauto.
Qed.

Lemma make_static_spec h hs l r : WF h hs -> Z.of_nat (length l) < 2^32 -> make_static h l = Ok r -> post h hs r l.
Proof.
  intros W B H. unfold make_static in H. apply obind_ok in H as (h1 & AR & H). injection H as <-.
  set (x := {| b_data := map Some l; b_num := Z.of_nat (length l); b_alloc := 0; b_refs := 0 + 1; b_static := true |}) in *.
  assert (VX : valid x l).
  { split; [|cbn; repeat split; try lia; discriminate]. intros j a Hj. cbn. rewrite nth_error_map, Hj. reflexivity. }
  destruct (fresh_spec h hs x l W VX eq_refl) as (h1' & E1 & F1 & _). rewrite AR in E1. injection E1 as <-. exact F1.
Qed.
Lemma make_static_ok h l : exists r, make_static h l = Ok r.
Proof. unfold make_static, addref, hget. rewrite nth_error_app2 by lia. rewrite Nat.sub_diag. cbn. eauto. Qed.

Lemma null_spec h hs : WF h hs -> post h hs (h, null_slice) [].
Proof.
  intros [WB WS]. split; [|split; [apply same_all_refl; exact WS|reflexivity]]. split; [|constructor; [split; reflexivity|exact WS]].
  intros b x Hb. rewrite cnt_cons. cbn. apply WB. exact Hb.
Qed.

Lemma copy_spec h s hs L : WF h hs -> slice_ok h s -> view h s = Some L -> exists r, copy h s = Ok r /\ post h hs r L.
Proof.
  intros W K V. unfold copy. destruct (addref_spec h s hs W K) as (h' & E & W' & SA & SO). rewrite E. cbn [obind].
  eexists. split; [reflexivity|]. split; [exact W'|]. split; [exact SA|]. cbn [fst snd]. rewrite (same_view _ _ _ SO). exact V.
Qed.

(** slice: the list the C++ expression computes, when the constructor's assertion lets it *)
Definition slice_len (L : list A) at_ len : Z := if (len =? -1) || (len >? Z.of_nat (length L) - at_) then Z.of_nat (length L) - at_ else len.

Lemma slice_op_spec h s hs at_ len r L : WF h hs -> slice_ok h s -> view h s = Some L ->
  0 <= at_ -> slice_op h s at_ len = Ok r ->
  post h hs r (if at_ >=? Z.of_nat (length L) then [] else l_slice L (Z.to_nat at_) (Z.to_nat (slice_len L at_ len))).
Proof.
  intros W K V AT H. destruct (view_len h s L K V) as (LN & LB & LO).
  unfold slice_op, cassert in H. destruct (Z.geb_spec len (-1)); [|discriminate].
  destruct (_ || _) eqn:EB in H.
  { injection H as <-. assert (X := null_spec h hs W). apply orb_true_iff in EB as [EB|EB].
    - rewrite LN in EB. rewrite EB. exact X.
    - apply Z.eqb_eq in EB. subst len. unfold slice_len.
      destruct (Z.geb_spec at_ (Z.of_nat (length L))); [exact X|]. cbn [Z.eqb orb].
      destruct (Z.gtb_spec 0 (Z.of_nat (length L) - at_)); [lia|]. exact X. }
  apply orb_false_iff in EB as [EA EL]. rewrite LN in EA. rewrite EA.
  destruct (Z.geb_spec at_ (Z.of_nat (length L))); [discriminate|]. apply Z.eqb_neq in EL.
  assert (SL : (if len =? -1 then s_num s - at_ else if len >? s_num s - at_ then s_num s - at_ else len) = slice_len L at_ len).
  { unfold slice_len. rewrite LN. destruct (len =? -1); [reflexivity|]. destruct (len >? _); reflexivity. }
  rewrite SL in H. clear SL.
  assert (SB : 0 <= slice_len L at_ len <= Z.of_nat (length L) - at_).
  { unfold slice_len. destruct (Z.eqb_spec len (-1)); cbn [orb]; [lia|]. destruct (Z.gtb_spec len (Z.of_nat (length L) - at_)); lia. }
  unfold mk_slice in H. apply obind_ok in H as (h1 & AR & H).
  destruct (s_body s) as [b|] eqn:Es; [|discriminate].
  apply obind_ok in H as (x & G & H). unfold cassert in H. destruct (_ <? _) eqn:A1 in H; [|discriminate]. destruct (_ <? _) eqn:A2 in H; [|discriminate].
  injection H as <-.
  destruct (view_split h s L b K V Es) as (y & M & Hb & VM & O & B & N & ELL).
  assert (NB : b_num y < 2^32) by apply VM. assert (NM : b_num y = Z.of_nat (length M)) by apply VM.
  assert (U : u32 (s_off s + at_) = s_off s + at_) by (unfold u32; apply Z.mod_small; lia). rewrite U in *.
  set (s' := {| s_body := Some b; s_off := s_off s + at_; s_num := slice_len L at_ len |}).
  assert (K' : slice_ok h s'). { unfold slice_ok. cbn. exists y, M. repeat split; try assumption; try lia; apply VM. }
  destruct (addref_spec h s' hs W K') as (h1' & E1 & W' & SA & SO). cbn [s' s_body] in E1. rewrite AR in E1. injection E1 as <-.
  split; [exact W'|]. split; [exact SA|]. cbn [fst snd]. rewrite (same_view _ _ _ SO).
  rewrite (view_body h s' b y M) by (try assumption; try reflexivity; cbn; lia). f_equal. cbn [s' s_off s_num]. subst L.
  unfold l_slice. rewrite skipn_firstn_comm, skipn_skipn, firstn_firstn.
  rewrite slice_length in SB by lia.
  fold (l_slice M (Z.to_nat (s_off s)) (Z.to_nat (s_num s))). rewrite Nat.min_l by lia.
  try (f_equal; try (f_equal; lia)).
Qed.

End Ops.
