From Verif Require Import Base UTF8Model UTF8Spec UTF8Proofs PtrModel.

(** Text [s] (no NUL inside) followed by its terminator. *)
Definition no_nul (s : list Z) : Prop := Forall (fun b => b <> 0) s.

Lemma rdZ_app (s t : list Z) p b : 0 <= p -> nth_error s (Z.to_nat p) = Some b -> rdZ (s ++ t) p = Ok b.
Proof.
  intros Hp H. apply rdZ_ok; [exact Hp|]. rewrite nth_error_app1; [exact H|].
  apply nth_error_Some. congruence.
Qed.
Lemma rdZ_nul (s t : list Z) : rdZ (s ++ 0 :: t) (Z.of_nat (length s)) = Ok 0.
Proof. apply rdZ_ok; [lia|]. rewrite Nat2Z.id, nth_error_app2, Nat.sub_diag by lia. reflexivity. Qed.

Lemma text_read s p : no_nul s -> 0 <= p <= Z.of_nat (length s) ->
  exists b, rdZ (s ++ [0]) p = Ok b /\ ((b =? 0) = true <-> p = Z.of_nat (length s)).
Proof.
  intros Hs Hp. destruct (Z.eq_dec p (Z.of_nat (length s))) as [->|N].
  - exists 0. split; [apply rdZ_nul|]. split; reflexivity.
  - destruct (nth_error s (Z.to_nat p)) as [b|] eqn:E; [|apply nth_error_None in E; lia].
    exists b. split; [apply rdZ_app; [lia|exact E]|].
    assert (b <> 0) by (unfold no_nul in Hs; rewrite Forall_forall in Hs; apply Hs; eapply nth_error_In; exact E).
    split; intros; lia.
Qed.

Lemma adv_spec s : no_nul s -> forall n p, 0 <= p <= Z.of_nat (length s) ->
  adv (s ++ [0]) p n =
   Ok (Z.min (p + Z.of_nat n) (Z.of_nat (length s)),
       Z.max 0 (p + Z.of_nat n - Z.of_nat (length s))).
Proof.
  intros Hs. induction n as [|n IH]; intros p Hp.
  - cbn [adv]. f_equal. f_equal; lia.
  - cbn [adv]. destruct (text_read s p Hs Hp) as (b & -> & Hb). cbn [obind].
    destruct (b =? 0).
    + assert (p = Z.of_nat (length s)) by (apply Hb; reflexivity). f_equal. f_equal; lia.
    + assert (p <> Z.of_nat (length s)) by (intros E; apply Hb in E; discriminate).
      rewrite IH by lia. f_equal. f_equal; lia.
Qed.

(** ---- UTF-8: positions of characters ---- *)
Definition char_ok (ch : Z) : Prop := ucs4 ch /\ ~ replacement ch /\ ch <> 0.
Definition offs (chs : list Z) (k : nat) : Z := Z.of_nat (length (encode_all (firstn k chs))).

Lemma encode_app a b : encode_all (a ++ b) = encode_all a ++ encode_all b.
Proof. unfold encode_all. rewrite map_app, concat_app. reflexivity. Qed.

Lemma encode_split chs k c : nth_error chs k = Some c ->
  encode_all chs = encode_all (firstn k chs) ++ UTF8Put c ++ encode_all (skipn (S k) chs).
Proof.
  intros H. rewrite <- (firstn_skipn k chs) at 1. rewrite encode_app. f_equal.
  assert (E : skipn k chs = c :: skipn (S k) chs).
  { clear -H. revert k H. induction chs as [|x l IH]; intros [|k] H; simpl in *; try discriminate.
    - inversion H; reflexivity.
    - apply IH; exact H. }
  rewrite E. reflexivity.
Qed.

Lemma offs_S chs k c : nth_error chs k = Some c -> offs chs (S k) = offs chs k + Z.of_nat (length (UTF8Put c)).
Proof.
  intros H. unfold offs.
  assert (E : firstn (S k) chs = firstn k chs ++ [c]).
  { clear -H. revert k H. induction chs as [|x l IH]; intros [|k] H; simpl in *; try discriminate.
    - inversion H; reflexivity.
    - f_equal. apply IH; exact H. }
  rewrite E, encode_app, app_length. unfold encode_all at 2. cbn [map concat]. rewrite app_nil_r. lia.
Qed.

Lemma offs_all chs k : (length chs <= k)%nat -> offs chs k = Z.of_nat (length (encode_all chs)).
Proof. intros H. unfold offs. rewrite firstn_all2 by exact H. reflexivity. Qed.

Lemma skipn_pre (A:Type) (a b : list A) : skipn (length a) (a ++ b) = b.
Proof. induction a; simpl; auto. Qed.

Lemma put_nonzero c : char_ok c -> Forall (fun b => b <> 0) (UTF8Put c).
Proof.
  intros (Hu & Hr & Hz). destruct (put_seq c Hu Hr) as (lead & tl & lo & pay & E & F & Hl & Ht & V).
  rewrite E in *. constructor.
  - apply form_some in F. cbn [length] in F. destruct F as [(L & -> & ->)|F]; [|lia].
    assert (tl = []) by (destruct tl; [reflexivity|discriminate]). subst tl.
    unfold tail_value in V. simpl in V. lia.
  - eapply Forall_impl; [|exact Ht]. unfold continuation; intros; lia.
Qed.

Lemma encode_no_nul chs : Forall char_ok chs -> no_nul (encode_all chs).
Proof.
  induction 1 as [|c chs Hc _ IH]; [constructor|]. unfold encode_all. cbn [map concat].
  apply Forall_app. split; [apply put_nonzero; exact Hc|exact IH].
Qed.

Lemma get_at_char chs k c : Forall char_ok chs -> nth_error chs k = Some c ->
  get_at (encode_all chs ++ [0]) (offs chs k) = Ok (c, offs chs (S k)).
Proof.
  intros Hc H. unfold get_at. destruct (Z.ltb_spec (offs chs k) 0); [unfold offs in *; lia|].
  unfold offs at 1. rewrite Nat2Z.id. rewrite (encode_split chs k c H).
  rewrite <- !app_assoc. rewrite skipn_pre.
  assert (Ok' : char_ok c) by (eapply Forall_forall; [exact Hc|eapply nth_error_In; exact H]).
  destruct Ok' as (Hu & Hr & Hz).
  rewrite (get_seq _ _ _ (put_seq c Hu Hr)). cbn [obind fst snd]. rewrite (offs_S chs k c H). reflexivity.
Qed.

Lemma offs_read chs k c : Forall char_ok chs -> nth_error chs k = Some c ->
  exists b, rdZ (encode_all chs ++ [0]) (offs chs k) = Ok b /\ (b =? 0) = false.
Proof.
  intros Hc H.
  assert (Ok' : char_ok c) by (eapply Forall_forall; [exact Hc|eapply nth_error_In; exact H]).
  assert (P := put_nonzero c Ok').
  destruct (UTF8Put c) as [|b r] eqn:E.
  - destruct Ok' as (Hu & Hr & Hz). destruct (put_seq c Hu Hr) as (? & ? & ? & ? & E' & _). congruence.
  - exists b. inversion P; subst. split; [|lia].
    apply rdZ_app; [unfold offs; lia|]. unfold offs. rewrite Nat2Z.id.
    rewrite (encode_split chs k c H), E. rewrite nth_error_app2, Nat.sub_diag by lia. reflexivity.
Qed.

Lemma uadv_spec chs : Forall char_ok chs -> forall n k, (k <= length chs)%nat ->
  uadv (encode_all chs ++ [0]) (offs chs k) n = Ok (offs chs (Nat.min (k + n) (length chs))).
Proof.
  intros Hc. induction n as [|n IH]; intros k Hk.
  - cbn [uadv]. f_equal. f_equal. lia.
  - cbn [uadv]. destruct (nth_error chs k) as [c|] eqn:E.
    + destruct (offs_read chs k c Hc E) as (b & -> & Hb). cbn [obind]. rewrite Hb.
      rewrite (get_at_char chs k c Hc E). cbn [obind snd].
      assert (k < length chs)%nat by (apply nth_error_Some; congruence).
      rewrite IH by lia. f_equal. f_equal. lia.
    + apply nth_error_None in E. rewrite offs_all by lia. rewrite rdZ_nul. cbn [obind].
      change (0 =? 0) with true. cbv iota. f_equal. rewrite offs_all by lia. reflexivity.
Qed.

Lemma ubackup_char chs k : Forall char_ok chs -> (k < length chs)%nat ->
  UTF8Backup (encode_all chs ++ [0]) (offs chs (S k)) None = Ok (Some (offs chs k)).
Proof.
  intros Hc Hk. destruct (nth_error chs k) as [c|] eqn:E; [|apply nth_error_None in E; lia].
  assert (Ok' : char_ok c) by (eapply Forall_forall; [exact Hc|eapply nth_error_In; exact E]).
  destruct Ok' as (Hu & Hr & Hz).
  rewrite (offs_S chs k c E). rewrite (encode_split chs k c E). rewrite <- !app_assoc.
  unfold offs. rewrite <- Nat2Z.inj_add.
  exact (backup_seq _ _ c _ None (put_seq c Hu Hr) I).
Qed.

Lemma offs_pos chs k : Forall char_ok chs -> (0 < k <= length chs)%nat -> offs chs k > 0.
Proof.
  intros Hc Hk. destruct k as [|k]; [lia|].
  destruct (nth_error chs k) as [c|] eqn:E; [|apply nth_error_None in E; lia].
  rewrite (offs_S chs k c E).
  assert (Ok' : char_ok c) by (eapply Forall_forall; [exact Hc|eapply nth_error_In; exact E]).
  destruct Ok' as (Hu & Hr & Hz). destruct (put_seq c Hu Hr) as (? & ? & ? & ? & E' & _). rewrite E'.
  cbn [length]. unfold offs. lia.
Qed.

Lemma ubackup_g_spec chs : Forall char_ok chs -> forall n k, (k <= length chs)%nat ->
  ubackup_g (encode_all chs ++ [0]) (offs chs k) n = Ok (offs chs (k - n)).
Proof.
  intros Hc. induction n as [|n IH]; intros k Hk.
  - cbn [ubackup_g]. f_equal. f_equal. lia.
  - cbn [ubackup_g]. destruct k as [|k].
    + unfold offs. simpl. reflexivity.
    + assert (P := offs_pos chs (S k) Hc ltac:(lia)).
      destruct (Z.gtb_spec (offs chs (S k)) 0); [|lia].
      rewrite ubackup_char by (exact Hc || lia). cbn [obind].
      rewrite IH by lia. f_equal.
Qed.

Lemma uguarded_plus_spec chs k i : Forall char_ok chs -> (k <= length chs)%nat ->
  uguarded_plus (encode_all chs ++ [0]) (offs chs k) i =
    Ok (offs chs (Z.to_nat (Z.max 0 (Z.min (Z.of_nat k + i) (Z.of_nat (length chs)))))).
Proof.
  intros Hc Hk. unfold uguarded_plus. destruct (Z.geb_spec i 0).
  - rewrite uadv_spec by assumption. f_equal. f_equal. lia.
  - rewrite ubackup_g_spec by assumption. f_equal. f_equal. lia.
Qed.

Lemma unul_incr_spec chs k : Forall char_ok chs -> (k <= length chs)%nat ->
  unul_incr (encode_all chs ++ [0]) (offs chs k) = Ok (offs chs (Nat.min (S k) (length chs))).
Proof.
  intros Hc Hk. unfold unul_incr. destruct (nth_error chs k) as [c|] eqn:E.
  - rewrite (get_at_char chs k c Hc E). cbn [obind fst snd].
    assert (Ok' : char_ok c) by (eapply Forall_forall; [exact Hc|eapply nth_error_In; exact E]).
    destruct Ok' as (_ & _ & Hz). replace (c =? 0) with false by lia.
    assert (k < length chs)%nat by (apply nth_error_Some; congruence). f_equal. f_equal. lia.
  - apply nth_error_None in E. rewrite (offs_all chs k) by lia. unfold get_at.
    destruct (Z.ltb_spec (Z.of_nat (length (encode_all chs))) 0); [lia|]. rewrite Nat2Z.id, skipn_pre.
    change (UTF8Get [0]) with (Ok (0, 1%nat)). cbn [obind fst]. change (0 =? 0) with true. cbv iota.
    f_equal. rewrite offs_all by lia. reflexivity.
Qed.

Lemma ubackup_n_spec chs : Forall char_ok chs -> forall n k, (n <= k <= length chs)%nat ->
  ubackup_n (encode_all chs ++ [0]) (offs chs k) n = Ok (offs chs (k - n)).
Proof.
  intros Hc. induction n as [|n IH]; intros k Hk.
  - cbn [ubackup_n]. f_equal. f_equal. lia.
  - cbn [ubackup_n]. destruct k as [|k]; [lia|].
    rewrite ubackup_char by (exact Hc || lia). cbn [obind]. rewrite IH by lia. f_equal.
Qed.
Lemma unul_plus_spec chs k i : Forall char_ok chs -> (k <= length chs)%nat -> 0 <= Z.of_nat k + i ->
  unul_plus (encode_all chs ++ [0]) (offs chs k) i =
    Ok (offs chs (Z.to_nat (Z.min (Z.of_nat k + i) (Z.of_nat (length chs))))).
Proof.
  intros Hc Hk Hi. unfold unul_plus. destruct (Z.geb_spec i 0).
  - rewrite uadv_spec by assumption. f_equal. f_equal. lia.
  - rewrite ubackup_n_spec by (assumption || lia). f_equal. f_equal. lia.
Qed.
Lemma unul_decr_spec chs k : Forall char_ok chs -> (0 < k <= length chs)%nat ->
  unul_decr (encode_all chs ++ [0]) (offs chs k) = Ok (offs chs (k - 1)).
Proof.
  intros Hc Hk. destruct k as [|k]; [lia|]. unfold unul_decr.
  rewrite ubackup_char by (exact Hc || lia). cbn [obind]. f_equal. f_equal. lia.
Qed.

(** ---- Any bytes ---- *)
Definition starts_ok (s : list Z) : Prop := match s with b :: _ => ~ continuation b | [] => True end.

Lemma skipn_app_le (s : list Z) n : (n <= length s)%nat -> skipn n (s ++ [0]) = skipn n s ++ [0].
Proof. intros H. rewrite skipn_app. replace (n - length s)%nat with 0%nat by lia. reflexivity. Qed.
Lemma bytes_skipn s n : bytes s -> bytes (skipn n s).
Proof. intros H. unfold bytes in *. rewrite <- (firstn_skipn n s) in H. apply Forall_app in H. apply H. Qed.

(** One character forward from inside the text: stays inside, and moves unless at the end. *)
Lemma get_at_inside s p : bytes s -> no_nul s -> 0 <= p < Z.of_nat (length s) ->
  exists ch q, get_at (s ++ [0]) p = Ok (ch, q) /\ p < q <= Z.of_nat (length s).
Proof.
  intros Hb Hs Hp. unfold get_at. destruct (Z.ltb_spec p 0); [lia|].
  rewrite skipn_app_le by lia.
  assert (Hb' := bytes_skipn s (Z.to_nat p) Hb).
  assert (Hl : length (skipn (Z.to_nat p) s) = (length s - Z.to_nat p)%nat) by apply skipn_length.
  destruct (get_nul (skipn (Z.to_nat p) s ++ [0]) (length (skipn (Z.to_nat p) s)) (bytes_nul _ Hb')) as ([ch k] & G).
  { rewrite nth_error_app2, Nat.sub_diag by lia. reflexivity. }
  assert (Hne : skipn (Z.to_nat p) s <> []). { intros E. rewrite E in Hl. cbn [length] in Hl. lia. }
  assert (W := get_within _ [] ch k Hb' ltac:(constructor) Hne G).
  destruct (get_advance _ _ _ (bytes_nul _ Hb') G) as [A _].
  rewrite G. cbn [obind fst snd]. do 2 eexists. split; [reflexivity|]. lia.
Qed.
Lemma get_at_end s : get_at (s ++ [0]) (Z.of_nat (length s)) = Ok (0, Z.of_nat (length s) + 1).
Proof.
  unfold get_at. destruct (Z.ltb_spec (Z.of_nat (length s)) 0); [lia|]. rewrite Nat2Z.id, skipn_pre.
  change (UTF8Get [0]) with (Ok (0, 1%nat)). reflexivity.
Qed.
Lemma unul_incr_inside s p : bytes s -> no_nul s -> 0 <= p <= Z.of_nat (length s) ->
  exists q, unul_incr (s ++ [0]) p = Ok q /\ p <= q <= Z.of_nat (length s).
Proof.
  intros Hb Hs Hp. unfold unul_incr. destruct (Z.eq_dec p (Z.of_nat (length s))) as [->|N].
  - rewrite get_at_end. cbn [obind fst]. eexists. split; [reflexivity|]. cbn. lia.
  - destruct (get_at_inside s p Hb Hs ltac:(lia)) as (ch & q & -> & Hq). cbn [obind fst snd].
    eexists. split; [reflexivity|]. destruct (ch =? 0); lia.
Qed.
Lemma uadv_inside s : bytes s -> no_nul s -> forall n p, 0 <= p <= Z.of_nat (length s) ->
  exists q, uadv (s ++ [0]) p n = Ok q /\ p <= q <= Z.of_nat (length s).
Proof.
  intros Hb Hs. induction n as [|n IH]; intros p Hp; cbn [uadv].
  - eexists. split; [reflexivity|lia].
  - destruct (text_read s p Hs Hp) as (b & -> & Hz). cbn [obind]. destruct (b =? 0) eqn:E.
    + eexists. split; [reflexivity|lia].
    + assert (p <> Z.of_nat (length s)) by (intros F; apply Hz in F; discriminate).
      destruct (get_at_inside s p Hb Hs ltac:(lia)) as (ch & q & -> & Hq). cbn [obind snd].
      destruct (IH q ltac:(lia)) as (q' & -> & Hq'). eexists. split; [reflexivity|lia].
Qed.
Lemma scan_inside m cp : bytes m -> (forall b, nth_error m 0 = Some b -> ~ continuation b) -> cp <= Z.of_nat (length m) ->
  forall n sp, 0 <= sp < cp -> exists q, UTF8Backup_scan m cp sp n = Ok q /\ 0 <= q < cp.
Proof.
  intros Hb H0 Hcp. induction n as [|n IH]; intros sp Hsp; cbn [UTF8Backup_scan].
  - eexists. split; [reflexivity|lia].
  - destruct (nth_error m (Z.to_nat sp)) as [b|] eqn:E; [|apply nth_error_None in E; lia].
    rewrite (rdZ_ok m sp b ltac:(lia) E). cbn [obind].
    destruct (UTF8Is1st b) eqn:F.
    + match goal with |- context [if ?c then _ else _] => destruct c end; eexists; (split; [reflexivity|lia]).
    + destruct (Z.eq_dec sp 0) as [->|N]; [|apply IH; lia].
      exfalso. apply (H0 b E).
      assert (is_byte b) by (eapply Forall_forall; [exact Hb|eapply nth_error_In; exact E]).
      assert (G := is2nd_spec b ltac:(assumption)). unfold UTF8Is1st in F. unfold UTF8Is2nd in G.
      destruct (Z.land b 192 =? 128); [|discriminate]. unfold continuation. unfold is_byte in *. lia.
Qed.
Lemma backup_inside s p : bytes s -> starts_ok s -> 0 < p <= Z.of_nat (length s) ->
  exists q, UTF8Backup (s ++ [0]) p None = Ok (Some q) /\ 0 <= q < p.
Proof.
  intros Hb H0 Hp. unfold UTF8Backup. cbv zeta. destruct (Z.geb_spec (p - 6) p); [lia|].
  destruct (scan_inside (s ++ [0]) p (bytes_nul _ Hb)) with (n := Z.to_nat (p - (p - 6))) (sp := p - 1)
    as (q & -> & Hq).
  - intros b E. destruct s as [|c s]; cbn [app nth_error] in E.
    + inversion E; subst b. unfold continuation. lia.
    + inversion E; subst b. exact H0.
  - rewrite app_length. cbn [length]. lia.
  - lia.
  - cbn [obind]. eexists. split; [reflexivity|lia].
Qed.
Lemma ubackup_g_inside s : bytes s -> starts_ok s -> forall n p, 0 <= p <= Z.of_nat (length s) ->
  exists q, ubackup_g (s ++ [0]) p n = Ok q /\ 0 <= q <= p.
Proof.
  intros Hb H0. induction n as [|n IH]; intros p Hp; cbn [ubackup_g].
  - eexists. split; [reflexivity|lia].
  - destruct (Z.gtb_spec p 0); [|eexists; split; [reflexivity|lia]].
    destruct (backup_inside s p Hb H0 ltac:(lia)) as (q & -> & Hq). cbn [obind].
    destruct (IH q ltac:(lia)) as (q' & -> & Hq'). eexists. split; [reflexivity|lia].
Qed.
