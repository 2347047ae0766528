(** Proofs about string comparison and search. *)
From Verif Require Import Base RefModel RefProofs UTF8Model UTF8Spec UTF8Proofs ArrayModel ArraySpec ArrayProofs StrModel StrSpec StrHeap StrState StrText StrOps StrEdit StrMore StrInv StrProps.
From Verif Require Import StrFindModel StrFindSpec.
Ltac Zify.zify_post_hook ::= Z.div_mod_to_equations.

(** *** UTF-8 preserves order *)
(** [a] and [b] first differ where [a] has the smaller byte. *)
Definition below (a b : list Z) : Prop := exists u x y ra rb, a = u ++ x :: ra /\ b = u ++ y :: rb /\ x < y.

Lemma below_cons c a b : below a b -> below (c :: a) (c :: b).
Proof. intros (u & x & y & ra & rb & -> & -> & L). exists (c :: u), x, y, ra, rb. auto. Qed.
Lemma below_hd x y a b : x < y -> below (x :: a) (y :: b).
Proof. intros L. exists [], x, y, a, b. auto. Qed.

Lemma tails_below ta : Forall continuation ta -> forall tb h, Forall continuation tb -> length ta = length tb ->
  tail_value h ta < tail_value h tb -> below ta tb.
Proof.
  induction 1 as [|x ta Cx Ct IH]; intros [|y tb] h Cb L V; cbn [length] in L; try discriminate.
  - unfold tail_value in V. cbn in V. lia.
  - inversion Cb as [|? ? Cy Ct']; subst. rewrite !tail_value_cons in V. destruct (Z.lt_trichotomy x y) as [H|[->|H]].
    + apply below_hd. exact H.
    + apply below_cons. eapply IH; [exact Ct'|lia|exact V].
    + exfalso. assert (A := tail_value_bounds ta Ct (h * 64 + (x - 0x80))). assert (B := tail_value_bounds tb Ct' (h * 64 + (y - 0x80))).
      assert (E : length ta = length tb) by lia. rewrite E in A. assert (P : 0 < 64 ^ Z.of_nat (length tb)) by (apply Z.pow_pos_nonneg; lia). nia.
Qed.

Lemma put_below a b : good a -> good b -> a < b -> below (UTF8Put a) (UTF8Put b).
Proof.
  intros [Ga Ra] [Gb Rb] H. destruct (len_cases a Ga Ra) as (n & En & Hn & Ca & Ma). destruct (len_cases b Gb Rb) as (m & Em & Hm & Cb & Mb).
  assert (LE : (n <= m)%nat). { destruct (Nat.le_gt_cases n m) as [|X]; [assumption|]. specialize (Ma m X). lia. }
  assert (La := put_length a Ga). assert (Lb := put_length b Gb). destruct (put_seq a Ga Ra) as (la & ta & lo & pay & Ea & F & Hl & Ct & Va).
  destruct (put_seq b Gb Rb) as (lb & tb & lo' & pay' & Eb & F' & Hl' & Ct' & Vb). rewrite Ea in La, F. rewrite Eb in Lb, F'. rewrite Ea, Eb.
  apply form_some in F. apply form_some in F'. cbn [length] in *.
  destruct (Nat.eq_dec n m) as [E|NE].
  - assert (LT : length ta = length tb) by lia. assert (lo' = lo) by lia. subst lo'. destruct (Z.lt_trichotomy la lb) as [X|[->|X]].
    + apply below_hd. exact X.
    + apply below_cons. eapply tails_below with (h := lb - lo); [exact Ct|exact Ct'|exact LT|lia].
    + exfalso. assert (A := tail_value_bounds ta Ct (la - lo)). assert (B := tail_value_bounds tb Ct' (lb - lo)). rewrite LT in A.
      assert (P : 0 < 64 ^ Z.of_nat (length tb)) by (apply Z.pow_pos_nonneg; lia). nia.
  - apply below_hd. lia.
Qed.

(** *** memcmp *)
Lemma memcmp_same u : forall a b n, memcmp (u ++ a) (u ++ b) (length u + n) = memcmp a b n.
Proof. induction u as [|x u IH]; intros a b n; [reflexivity|]. cbn [app length Nat.add memcmp rd nth_error obind tl]. rewrite Z.eqb_refl. apply IH. Qed.
Lemma memcmp_below a b : below a b -> forall x y n, (length a <= n)%nat -> memcmp (a ++ x) (b ++ y) n = Ok (-1).
Proof.
  intros (u & c & d & ra & rb & -> & -> & L) x y n H. rewrite app_length in H. cbn [length] in H. rewrite <- !app_assoc.
  replace n with (length u + S (n - length u - 1))%nat by lia. rewrite memcmp_same. cbn [app memcmp rd nth_error obind tl].
  destruct (Z.eqb_spec c d); [lia|]. destruct (Z.ltb_spec c d); [reflexivity|lia].
Qed.
(** The longer side counts in neither direction: the difference is in both. *)
Lemma memcmp_below' a b : below a b -> forall x y n, (length b <= n)%nat -> memcmp (a ++ x) (b ++ y) n = Ok (-1).
Proof.
  intros (u & c & d & ra & rb & -> & -> & L) x y n H. rewrite app_length in H. cbn [length] in H. rewrite <- !app_assoc.
  replace n with (length u + S (n - length u - 1))%nat by lia. rewrite memcmp_same. cbn [app memcmp rd nth_error obind tl].
  destruct (Z.eqb_spec c d); [lia|]. destruct (Z.ltb_spec c d); [reflexivity|lia].
Qed.
Lemma memcmp_above a b : below b a -> forall x y n, (length a <= n)%nat -> memcmp (a ++ x) (b ++ y) n = Ok 1.
Proof.
  intros (u & c & d & ra & rb & -> & -> & L) x y n H. rewrite app_length in H. cbn [length] in H. rewrite <- !app_assoc.
  replace n with (length u + S (n - length u - 1))%nat by lia. rewrite memcmp_same. cbn [app memcmp rd nth_error obind tl].
  destruct (Z.eqb_spec d c); [lia|]. destruct (Z.ltb_spec d c); [lia|reflexivity].
Qed.
Lemma memcmp_above' a b : below b a -> forall x y n, (length b <= n)%nat -> memcmp (a ++ x) (b ++ y) n = Ok 1.
Proof.
  intros (u & c & d & ra & rb & -> & -> & L) x y n H. rewrite app_length in H. cbn [length] in H. rewrite <- !app_assoc.
  replace n with (length u + S (n - length u - 1))%nat by lia. rewrite memcmp_same. cbn [app memcmp rd nth_error obind tl].
  destruct (Z.eqb_spec d c); [lia|]. destruct (Z.ltb_spec d c); [lia|reflexivity].
Qed.

(** Comparing all of [a] against what is stored from [b] on. *)
Fixpoint pcmp (a b : list Z) : Z :=
  match a, b with
  | [], _ => 0
  | _ :: _, [] => 1
  | x :: a', y :: b' => if x =? y then pcmp a' b' else if x <? y then -1 else 1
  end.

Lemma put_hd c : good c -> c <> 0 -> exists b tl, UTF8Put c = b :: tl /\ 0 < b.
Proof.
  intros G N. assert (Z0 := put_nonzero c G N). assert (B := put_bytes c G). assert (L := put_len_pos c G). destruct (UTF8Put c) as [|b tl]; [cbn in L; lia|].
  exists b, tl. split; [reflexivity|]. inversion Z0; subst. inversion B as [|? ? HB _]; subst. unfold is_byte in HB. lia.
Qed.

Lemma memcmp_enc a : Forall good a -> forall b x y, Forall good b -> (~ In 0 a \/ (length a <= length b)%nat) ->
  memcmp (enc a ++ x) (enc b ++ 0 :: y) (length (enc a)) = Ok (pcmp a b).
Proof.
  induction 1 as [|c a G GA IH]; intros [|d b] x y GB H; [reflexivity|reflexivity| |].
  - destruct H as [H|H]; [|cbn in H; lia]. destruct (put_hd c G) as (h & t & E & P); [intros ->; apply H; left; reflexivity|].
    rewrite enc_cons, enc_nil, E. cbn [app length memcmp rd nth_error obind pcmp]. destruct (Z.eqb_spec h 0); [lia|]. destruct (Z.ltb_spec h 0); [lia|reflexivity].
  - inversion GB as [|? ? Gd GB']; subst. rewrite !enc_cons, <- !app_assoc, app_length. cbn [pcmp].
    destruct (Z.eqb_spec c d) as [->|NE].
    + rewrite memcmp_same. apply IH; [exact GB'|]. destruct H as [H|H]; [left; intros I; apply H; right; exact I|right; cbn [length] in H; lia].
    + destruct (Z.ltb_spec c d).
      * apply memcmp_below; [apply put_below; [exact G|exact Gd|lia]|lia].
      * apply memcmp_above; [apply put_below; [exact Gd|exact G|lia]|lia].
Qed.
(** The same against a fixed needle on the right. *)
Lemma memcmp_needle b : Forall good b -> forall a x y, Forall good a -> (~ In 0 b \/ (length b <= length a)%nat) ->
  exists r, memcmp (enc a ++ 0 :: x) (enc b ++ y) (length (enc b)) = Ok r /\ (r = 0 <-> firstn (length b) a = b).
Proof.
  induction 1 as [|d b G GB IH]; intros [|c a] x y GA H.
  - exists 0. cbn. tauto.
  - exists 0. cbn. tauto.
  - destruct H as [H|H]; [|cbn in H; lia]. destruct (put_hd d G) as (h & t & E & P); [intros ->; apply H; left; reflexivity|].
    rewrite enc_cons, enc_nil, E. cbn [app length memcmp rd nth_error obind]. exists (-1). destruct (Z.eqb_spec 0 h); [lia|]. destruct (Z.ltb_spec 0 h); [|lia].
    split; [reflexivity|]. cbn. split; [lia|discriminate].
  - inversion GA as [|? ? Gc GA']; subst. rewrite !enc_cons, <- !app_assoc, app_length. cbn [length firstn].
    destruct (Z.eq_dec c d) as [->|NE].
    + rewrite memcmp_same. destruct (IH a x y GA') as (r & E & R); [destruct H as [H|H]; [left; intros I; apply H; right; exact I|right; cbn [length] in H; lia]|].
      exists r. split; [exact E|]. rewrite R. split; [intros ->; reflexivity|congruence].
    + destruct (Z.lt_ge_cases c d).
      * exists (-1). split; [|split; [lia|congruence]]. apply memcmp_below'; [apply put_below; assumption|lia].
      * exists 1. split; [|split; [lia|congruence]]. apply memcmp_above'; [apply put_below; [assumption|assumption|lia]|lia].
Qed.

(** *** compare *)
Lemma at_ptr_ok h s chs k : vin h s chs -> at_ptr h s (Z.of_nat (bpos chs k)) = Ok (enc (skipn k chs) ++ [0]).
Proof.
  intros V. unfold at_ptr. rewrite (sv_mem_ok _ _ _ V). cbn [obind]. destruct (Z.ltb_spec (Z.of_nat (bpos chs k)) 0); [lia|]. rewrite Nat2Z.id, skipn_bpos. reflexivity.
Qed.
Lemma vin_good h s chs : vin h s chs -> Forall good chs.
Proof. intros ((x & _ & B) & _). apply B. Qed.
Lemma vin_small h s chs : vin h s chs -> Z.of_nat (length (enc chs)) < 2^30 /\ v_len s < 2^30.
Proof. intros ((x & _ & B) & O & L & OL & _). assert (S := bchars_small _ _ B). destruct B as (_ & _ & _ & B). lia. Qed.

(** What is stored from [s] on: its text and the rest of its body. *)
Definition rest (s : sval) (chs : list Z) : list Z := skipn (Z.to_nat (v_off s + v_len s)) chs.
Lemma from_split h s chs : vin h s chs -> skipn (Z.to_nat (v_off s)) chs = vtext s chs ++ rest s chs.
Proof.
  intros (_ & O & L & OL & _). unfold vtext, rest, l_slice. rewrite Z2Nat.inj_add by lia. rewrite <- ArrayOps.skipn_skipn. symmetry. apply firstn_skipn.
Qed.
Lemma good_rest s chs : Forall good chs -> Forall good (rest s chs).
Proof. intros G. apply Forall_forall. intros c Hc. eapply Forall_forall; [exact G|]. rewrite <- (firstn_skipn (Z.to_nat (v_off s + v_len s)) chs). apply in_app_iff. right. exact Hc. Qed.
Lemma good_text s chs : Forall good chs -> Forall good (vtext s chs).
Proof. apply good_slice. Qed.
Lemma nbytes_text_le h s chs : vin h s chs -> (length (enc (vtext s chs)) <= length (enc chs))%nat.
Proof.
  intros V. assert (E := from_split _ _ _ V). assert (X : length (enc chs) = length (enc (firstn (Z.to_nat (v_off s)) chs ++ skipn (Z.to_nat (v_off s)) chs))) by (rewrite firstn_skipn; reflexivity). rewrite X, E, !enc_app, !app_length. lia.
Qed.

Lemma compare_ok h s w chs cw : BG h -> vin h s chs -> vin h w cw -> (~ In 0 (vtext s chs) \/ (length (vtext s chs) <= length (vtext w cw))%nat) ->
  exists h', compare h s w = Ok (h', if pcmp (vtext s chs) (vtext w cw ++ rest w cw) =? 0 then nbytes (vtext s chs) - nbytes (vtext w cw)
                                      else pcmp (vtext s chs) (vtext w cw ++ rest w cw)) /\ BG h' /\ hsim h h'.
Proof.
  intros G V W H. assert (OV : 0 <= v_len s) by apply V. assert (OW : 0 <= v_len w) by apply W. unfold compare.
  destruct (nth_c_ok h s chs 0 G V ltac:(lia)) as (h1 & -> & G1 & S1 & V1). cbn [obind fst snd].
  assert (W1 := sim_vin _ _ _ _ G1 S1 W). destruct (nth_c_ok h1 w cw 0 G1 W1 ltac:(lia)) as (h2 & -> & G2 & S2 & W2). cbn [obind fst snd].
  assert (V2 := sim_vin _ _ _ _ G2 S2 V1). destruct (num_bytes_ok h2 s chs G2 V2) as (h3 & -> & G3 & S3 & V3). cbn [obind fst snd].
  assert (W3 := sim_vin _ _ _ _ G3 S3 W2). rewrite !Z.add_0_r. rewrite (at_ptr_ok _ _ _ _ V3). cbn [obind]. rewrite (at_ptr_ok _ _ _ _ W3). cbn [obind].
  rewrite (from_split _ _ _ V), (from_split _ _ _ W), Nat2Z.id. rewrite enc_app, <- app_assoc.
  rewrite (memcmp_enc (vtext s chs)); [|apply good_text; eapply vin_good; exact V| |].
  2:{ apply Forall_app. split; [apply good_text|apply good_rest]; eapply vin_good; exact W. }
  2:{ destruct H as [H|H]; [left; exact H|right; rewrite app_length; lia]. }
  cbn [obind]. assert (S13 := hsim_trans _ _ _ S1 (hsim_trans _ _ _ S2 S3)).
  destruct (Z.eqb_spec (pcmp (vtext s chs) (vtext w cw ++ rest w cw)) 0) as [E|E].
  - destruct (num_bytes_ok h3 s chs G3 V3) as (h4 & -> & G4 & S4 & V4). cbn [obind fst snd]. assert (W4 := sim_vin _ _ _ _ G4 S4 W3).
    destruct (num_bytes_ok h4 w cw G4 W4) as (h5 & -> & G5 & S5 & W5). cbn [obind fst snd]. exists h5. split; [|split; [exact G5|exact (hsim_trans _ _ _ S13 (hsim_trans _ _ _ S4 S5))]].
    do 2 f_equal. unfold nbytes. change encode_all with enc. assert (A := nbytes_text_le _ _ _ V). assert (B := nbytes_text_le _ _ _ W). apply vin_small in V. apply vin_small in W.
    unfold s32, u32. match goal with |- context [?a <? ?b] => destruct (Z.ltb_spec a b) end; lia.
  - exists h3. auto.
Qed.

Lemma pcmp_0 a : forall b, pcmp a b = 0 <-> exists r, b = a ++ r.
Proof.
  induction a as [|x a IH]; intros b; cbn [pcmp].
  - split; [intros _; exists b; reflexivity|reflexivity].
  - destruct b as [|y b]; [split; [lia|intros (r & E); discriminate]|]. destruct (Z.eqb_spec x y) as [->|N].
    + rewrite IH. split; intros (r & E); exists r; [rewrite E; reflexivity|cbn [app] in E; congruence].
    + split; [destruct (x <? y); lia|intros (r & E); cbn [app] in E; congruence].
Qed.
Lemma same_start a b r q : Forall good a -> Forall good b -> a ++ r = b ++ q -> nbytes a = nbytes b -> a = b.
Proof.
  revert b. induction a as [|x a IH]; intros [|y b] GA GB E N; [reflexivity| | |].
  - exfalso. inversion GB as [|? ? Gy _]; subst. apply put_len_pos in Gy. unfold nbytes in N. rewrite enc_cons, app_length in N. cbn [enc length] in N. cbn in N. lia.
  - exfalso. inversion GA as [|? ? Gy _]; subst. apply put_len_pos in Gy. unfold nbytes in N. rewrite enc_cons, app_length in N. cbn in N. lia.
  - inversion GA; inversion GB; subst. cbn [app] in E. injection E as -> E. f_equal. apply IH; [assumption|assumption|exact E|].
    unfold nbytes in *. rewrite !enc_cons, !app_length in N. change encode_all with enc. lia.
Qed.
Lemma pcmp_lex a : forall b r, (r = [] \/ (length a <= length b)%nat) -> pcmp a (b ++ r) <> 0 -> sign (pcmp a (b ++ r)) = lex a b.
Proof.
  induction a as [|x a IH]; intros [|y b] r H N; cbn [pcmp app lex length] in *; try lia; [|].
  - destruct H as [->|H]; [reflexivity|lia].
  - destruct (Z.eqb_spec x y) as [->|NE].
    + rewrite Z.compare_refl. apply IH; [destruct H; [left; assumption|right; lia]|exact N].
    + destruct (Z.ltb_spec x y); [rewrite (proj2 (Z.compare_lt_iff x y)) by lia|rewrite (proj2 (Z.compare_gt_iff x y)) by lia]; reflexivity.
Qed.
Lemma lex_prefix a : forall b r q, (r = [] \/ (length a <= length b)%nat) -> b ++ r = a ++ q -> Forall good a -> Forall good b -> sign (nbytes a - nbytes b) = lex a b.
Proof.
  induction a as [|x a IH]; intros [|y b] r q H E GA GB; cbn [app lex length] in *.
  - reflexivity.
  - inversion GB as [|? ? Gy _]; subst. apply put_len_pos in Gy. unfold nbytes. rewrite enc_cons, app_length. cbn [enc encode_all map concat length]. unfold sign. apply Z.compare_lt_iff. lia.
  - destruct H as [->|H]; [discriminate|lia].
  - injection E as -> E. rewrite Z.compare_refl. inversion GA; inversion GB; subst. rewrite <- (IH b r q); [|destruct H; [left; assumption|right; lia]|exact E|assumption|assumption].
    f_equal. unfold nbytes. rewrite !enc_cons, !app_length. change encode_all with enc. lia.
Qed.

(** *** lex is a total order *)
Lemma lex_eq a : forall b, lex a b = Eq <-> a = b.
Proof.
  induction a as [|x a IH]; intros [|y b]; cbn [lex]; try (split; [discriminate|discriminate]); [tauto|].
  destruct (Z.compare_spec x y) as [->|L|L].
  - rewrite IH. split; congruence.
  - split; [discriminate|intros E; injection E; lia].
  - split; [discriminate|intros E; injection E; lia].
Qed.
Lemma lex_opp a : forall b, lex b a = CompOpp (lex a b).
Proof.
  induction a as [|x a IH]; intros [|y b]; cbn [lex]; try reflexivity. rewrite (Z.compare_antisym x y). destruct (x ?= y); cbn [CompOpp]; auto.
Qed.
Lemma lex_trans a : forall b c, lex a b = Lt -> lex b c = Lt -> lex a c = Lt.
Proof.
  induction a as [|x a IH]; intros [|y b] [|z c]; cbn [lex]; try discriminate; try reflexivity.
  destruct (Z.compare_spec x y) as [->|L|L]; destruct (Z.compare_spec y z) as [->|M|M]; intros A B; try discriminate.
  - eauto.
  - reflexivity.
  - rewrite (proj2 (Z.compare_lt_iff x z)) by lia. reflexivity.
  - rewrite (proj2 (Z.compare_lt_iff x z)) by lia. reflexivity.
Qed.

(** *** Searching *)
Definition tests (h0 : sheap) (s : sval) (chs : list Z) test (Q : Z -> bool) (hi : Z) : Prop :=
  forall h i, BG h -> hsim h0 h -> 0 <= i <= hi ->
    exists h', test h (enc (skipn (Z.to_nat (v_off s + i)) chs) ++ [0]) = Ok (h', Q i) /\ BG h' /\ hsim h0 h'.

Lemma nth_c_beyond h s n : n > v_len s -> nth_c h s n = Ok (h, None).
Proof. intros H. unfold nth_c, sv_nth. destruct (Z.gtb_spec n (v_len s)); [reflexivity|lia]. Qed.

Lemma scan_fwd h0 s chs lim test Q : vin h0 s chs -> tests h0 s chs test Q (Z.min lim (v_len s)) -> v_len s < 2^30 ->
  forall fuel h n, BG h -> hsim h0 h -> 0 <= n -> v_len s - n + 2 <= Z.of_nat fuel -> (1 <= fuel)%nat ->
  exists h' r, scan fuel h s n lim 1 test = Ok (h', r) /\ BG h' /\ hsim h0 h' /\ found_first (fun p => Q p = true) n (Z.min lim (v_len s) + 1) r.
Proof.
  intros V TS SM. induction fuel as [|f IH]; intros h n G S Hn HF H1; [lia|]. cbn [scan]. assert (V1 := sim_vin _ _ _ _ G S V).
  destruct (Z.leb_spec n lim) as [L|L].
  2:{ exists h, (-1). split; [reflexivity|]. split; [exact G|]. split; [exact S|]. left. split; [reflexivity|]. intros p Hp. lia. }
  destruct (Z.le_gt_cases n (v_len s)) as [L2|L2].
  2:{ rewrite nth_c_beyond by lia. cbn [obind fst snd]. exists h, (-1). split; [reflexivity|]. split; [exact G|]. split; [exact S|]. left. split; [reflexivity|]. intros p Hp. lia. }
  destruct (nth_c_ok h s chs n G V1 ltac:(lia)) as (h1 & -> & G1 & S1 & V2). cbn [obind fst snd]. rewrite (at_ptr_ok _ _ _ _ V2). cbn [obind].
  assert (S01 := hsim_trans _ _ _ S S1).
  destruct (TS h1 n G1 S01 ltac:(lia)) as (h2 & -> & G2 & S2). cbn [obind fst snd]. destruct (Q n) eqn:EQ.
  - exists h2, n. split; [|split; [exact G2|split; [exact S2|right; split; [lia|split; [exact EQ|intros p Hp; lia]]]]].
    do 2 f_equal. unfold s32. match goal with |- context [?a <? ?b] => destruct (Z.ltb_spec a b) end; lia.
  - replace (u32 (n + 1)) with (n + 1) by (unfold u32; lia).
    destruct (IH h2 (n + 1) G2 S2 ltac:(lia) ltac:(lia) ltac:(lia)) as (h3 & r & E & G3 & S3 & R). exists h3, r. split; [exact E|]. split; [exact G3|]. split; [exact S3|].
    destruct R as [[-> R]|(B & QR & R)].
    + left. split; [reflexivity|]. intros p Hp. destruct (Z.eq_dec p n) as [->|]; [congruence|]. apply R. lia.
    + right. split; [lia|]. split; [exact QR|]. intros p Hp. destruct (Z.eq_dec p n) as [->|]; [congruence|]. apply R. lia.
Qed.

Lemma scan_bwd h0 s chs test Q hi : vin h0 s chs -> tests h0 s chs test Q hi -> v_len s < 2^30 -> hi <= v_len s ->
  forall fuel h n, BG h -> hsim h0 h -> 0 <= n <= hi -> n + 2 <= Z.of_nat fuel ->
  exists h' r, scan fuel h s n no_lim (-1) test = Ok (h', r) /\ BG h' /\ hsim h0 h' /\ found_last (fun p => Q p = true) 0 (n + 1) r.
Proof.
  intros V TS SM HI. induction fuel as [|f IH]; intros h n G S Hn HF; [lia|]. cbn [scan]. assert (V1 := sim_vin _ _ _ _ G S V).
  unfold no_lim in *. destruct (Z.leb_spec n 0xFFFFFFFF) as [L|L]; [|lia].
  destruct (nth_c_ok h s chs n G V1 ltac:(lia)) as (h1 & -> & G1 & S1 & V2). cbn [obind fst snd]. rewrite (at_ptr_ok _ _ _ _ V2). cbn [obind].
  assert (S01 := hsim_trans _ _ _ S S1).
  destruct (TS h1 n G1 S01 ltac:(lia)) as (h2 & -> & G2 & S2). cbn [obind fst snd]. destruct (Q n) eqn:EQ.
  - exists h2, n. split; [|split; [exact G2|split; [exact S2|right; split; [lia|split; [exact EQ|intros p Hp; lia]]]]].
    do 2 f_equal. unfold s32. match goal with |- context [?a <? ?b] => destruct (Z.ltb_spec a b) end; lia.
  - destruct (Z.eq_dec n 0) as [->|N].
    + change (u32 (0 + -1)) with 4294967295. destruct f as [|f]; [lia|]. cbn [scan]. rewrite Z.leb_refl. rewrite nth_c_beyond by lia. cbn [obind fst snd].
      exists h2, (-1). split; [reflexivity|]. split; [exact G2|]. split; [exact S2|]. left. split; [reflexivity|]. intros p Hp. assert (p = 0) by lia. subst. congruence.
    + replace (u32 (n + -1)) with (n - 1) by (unfold u32; lia).
      destruct (IH h2 (n - 1) G2 S2 ltac:(lia) ltac:(lia)) as (h3 & r & E & G3 & S3 & R). exists h3, r. split; [exact E|]. split; [exact G3|]. split; [exact S3|].
      destruct R as [[-> R]|(B & QR & R)].
      * left. split; [reflexivity|]. intros p Hp. destruct (Z.eq_dec p n) as [->|]; [congruence|]. apply R. lia.
      * right. split; [lia|]. split; [exact QR|]. intros p Hp. destruct (Z.eq_dec p n) as [->|]; [congruence|]. apply R. lia.
Qed.
Lemma scan_beyond h s n test f : (1 <= f)%nat -> v_len s < n <= no_lim -> scan f h s n no_lim (-1) test = Ok (h, -1).
Proof. intros H N. destruct f; [lia|]. cbn [scan]. destruct (Z.leb_spec n no_lim); [|lia]. rewrite nth_c_beyond by lia. reflexivity. Qed.

(** The character stored at position [i] of [s], also just after its end. *)
Definition char_at (s : sval) (chs : list Z) (i : Z) : Z := nth (Z.to_nat (v_off s + i)) chs 0.
Lemma get_at chs k : Forall good chs -> exists n, UTF8Get (enc (skipn k chs) ++ [0]) = Ok (nth k chs 0, n).
Proof.
  intros G. destruct (nth_error chs k) as [c|] eqn:E.
  - rewrite <- (skipn_bpos chs k [0]). rewrite (skipn_at _ _ _ [0] E). rewrite (nth_error_nth _ _ _ E). rewrite get_good by (eapply Forall_forall; [exact G|eapply nth_error_In; exact E]). eauto.
  - apply nth_error_None in E. rewrite skipn_all2 by exact E. rewrite nth_overflow by exact E. exists 1%nat. reflexivity.
Qed.

Lemma tests_char h0 s chs ch hi : vin h0 s chs -> tests h0 s chs (is_char ch) (fun i => ch =? char_at s chs i) hi.
Proof.
  intros V h i G S Hi. unfold is_char. destruct (get_at chs (Z.to_nat (v_off s + i)) (vin_good _ _ _ V)) as (n & ->). cbn [obind fst]. exists h. auto.
Qed.

Lemma in_set_ok h0 s1 c1 ch : vin h0 s1 c1 -> forall k h i, BG h -> hsim h0 h -> 0 <= i -> i + Z.of_nat k = v_len s1 ->
  exists h', in_set k h s1 i ch = Ok (h', existsb (Z.eqb ch) (skipn (Z.to_nat i) (vtext s1 c1))) /\ BG h' /\ hsim h0 h'.
Proof.
  intros V. assert (LT := vtext_len _ _ _ V). assert (SM := proj2 (vin_small _ _ _ V)). induction k as [|k IH]; intros h i G S Hi HK; cbn [in_set].
  - exists h. rewrite skipn_all2 by lia. auto.
  - destruct (sv_index_ok h s1 c1 i G (sim_vin _ _ _ _ G S V) ltac:(lia)) as (h1 & -> & G1 & S1). cbn [obind fst snd].
    destruct (Z.eqb_spec i (v_len s1)); [lia|]. destruct (nth_some_lt (vtext s1 c1) (Z.to_nat i) ltac:(lia)) as [c Hc]. rewrite Hc.
    destruct (Z.ltb_spec i 0); [lia|].
    assert (E : skipn (Z.to_nat i) (vtext s1 c1) = c :: skipn (Z.to_nat (i + 1)) (vtext s1 c1)).
    { replace (Z.to_nat (i + 1)) with (Datatypes.S (Z.to_nat i)) by lia. clear - Hc. revert Hc. generalize (Z.to_nat i) as j. generalize (vtext s1 c1) as l.
      induction l as [|a l IHl]; intros [|j] Hc; cbn in *; try discriminate; [injection Hc as <-; reflexivity|]. apply IHl. exact Hc. }
    rewrite E. cbn [existsb]. assert (S2 := hsim_trans _ _ _ S S1). destruct (ch =? c); cbn [orb].
    + exists h1. auto.
    + destruct (IH h1 (i + 1) G1 S2 ltac:(lia) ltac:(lia)) as (h2 & E2 & G2 & S3). exists h2. auto.
Qed.
Lemma tests_any h0 s chs s1 c1 want hi : vin h0 s chs -> vin h0 s1 c1 ->
  tests h0 s chs (is_any s1 want) (fun i => Bool.eqb (existsb (Z.eqb (char_at s chs i)) (vtext s1 c1)) want) hi.
Proof.
  intros V V1 h i G S Hi. unfold is_any. destruct (get_at chs (Z.to_nat (v_off s + i)) (vin_good _ _ _ V)) as (n & ->). cbn [obind fst].
  assert (0 <= v_len s1) by apply V1. destruct (in_set_ok h0 s1 c1 (nth (Z.to_nat (v_off s + i)) chs 0) V1 (Z.to_nat (v_len s1)) h 0 G S ltac:(lia) ltac:(lia)) as (h1 & -> & G1 & S1). cbn [obind fst snd skipn].
  exists h1. auto.
Qed.
Lemma tests_str h0 s chs s1 c1 hi tl : vin h0 s chs -> vin h0 s1 c1 -> (~ In 0 (vtext s1 c1) \/ hi <= v_len s - v_len s1) ->
  tests h0 s chs (is_str s1 (enc (vtext s1 c1) ++ tl)) (fun i => if list_eq_dec Z.eq_dec (firstn (length (vtext s1 c1)) (skipn (Z.to_nat (v_off s + i)) chs)) (vtext s1 c1) then true else false) hi.
Proof.
  intros V V1 H h i G S Hi. unfold is_str. destruct (num_bytes_ok h s1 c1 G (sim_vin _ _ _ _ G S V1)) as (h1 & -> & G1 & S1 & _). cbn [obind fst snd]. rewrite Nat2Z.id.
  assert (L1 := vtext_len _ _ _ V1). assert (O := proj1 (proj2 V)). assert (OL := proj1 (proj2 (proj2 (proj2 V)))).
  destruct (memcmp_needle (vtext s1 c1) (good_text _ _ (vin_good _ _ _ V1)) (skipn (Z.to_nat (v_off s + i)) chs) [] tl) as (r & -> & R).
  - apply Forall_forall. intros c Hc. eapply Forall_forall; [exact (vin_good _ _ _ V)|]. rewrite <- (firstn_skipn (Z.to_nat (v_off s + i)) chs). apply in_app_iff. right. exact Hc.
  - destruct H as [H|H]; [left; exact H|right]. rewrite skipn_length. lia.
  - cbn [obind]. exists h1. split; [|split; [exact G1|exact (hsim_trans _ _ _ S S1)]]. do 2 f_equal.
    destruct (list_eq_dec Z.eq_dec _ _) as [E|N]; destruct (Z.eqb_spec r 0); try reflexivity; exfalso; tauto.
Qed.
