From Verif Require Import Base CharTables CharModel CharSpec.
Ltac Zify.zify_post_hook ::= Z.div_mod_to_equations.

(** ** Sorted key lists *)
Fixpoint sortedb (l : list Z) : bool :=
  match l with
  | [] => true
  | a :: r => match r with [] => true | b :: _ => (a <? b) && sortedb r end
  end.

Lemma sortedb_cons a l : sortedb (a :: l) = true -> sortedb l = true /\ forall x, In x l -> a < x.
Proof.
  revert a. induction l as [|b l IH]; intros a H; [split; [reflexivity|intros x []]|].
  cbn [sortedb] in H. apply andb_true_iff in H as [H1 H2].
  destruct (IH b H2) as [H3 H4]. split; [exact H2|].
  intros x [->|Hx]; [lia|]. specialize (H4 x Hx). lia.
Qed.

Lemma sorted_lt l : sortedb l = true -> forall i j x y, (i < j)%nat ->
  nth_error l i = Some x -> nth_error l j = Some y -> x < y.
Proof.
  induction l as [|a l IH]; intros H i j x y Hij Hi Hj; [destruct i; discriminate|].
  destruct (sortedb_cons _ _ H) as [H1 H2].
  destruct j as [|j]; [lia|]. destruct i as [|i]; simpl in *.
  - inversion Hi; subst. apply H2. eapply nth_error_In; exact Hj.
  - apply (IH H1 i j); [lia|assumption|assumption].
Qed.

Lemma rdZ_in {A} (l : list A) i : 0 <= i < Z.of_nat (length l) -> exists x, rdZ l i = Ok x /\ nth_error l (Z.to_nat i) = Some x.
Proof.
  intros H. unfold rdZ. destruct (Z.ltb_spec i 0); [lia|]. unfold rd.
  destruct (nth_error l (Z.to_nat i)) as [x|] eqn:E; [eauto|]. apply nth_error_None in E. lia.
Qed.

(** The search finds the key, or stops with [hi] just below its place. *)
Lemma bsearch_spec keys ch : sortedb keys = true -> forall fuel lo hi,
  0 <= lo -> hi < Z.of_nat (length keys) -> lo <= hi + 1 -> hi - lo < Z.of_nat fuel ->
  (forall i k, nth_error keys i = Some k -> Z.of_nat i < lo -> k < ch) ->
  (forall i k, nth_error keys i = Some k -> hi < Z.of_nat i -> ch < k) ->
  exists b p, bsearch keys fuel ch lo hi = Ok (b, p) /\
    if b : bool then 0 <= p /\ nth_error keys (Z.to_nat p) = Some ch
    else -1 <= p < Z.of_nat (length keys) /\
         (forall i k, nth_error keys i = Some k -> Z.of_nat i <= p -> k < ch) /\
         (forall i k, nth_error keys i = Some k -> p < Z.of_nat i -> ch < k).
Proof.
  intros Hs. induction fuel as [|fuel IH]; intros lo hi H0 Hhi Hlh Hf Hlow Hhigh; cbn [bsearch];
    destruct (Z.geb_spec hi lo) as [Hge|Hlt].
  1: lia.
  1,3: exists false, hi; split; [reflexivity|]; split; [lia|]; split; [|exact Hhigh];
     intros i k Hi Hle; apply (Hlow i k Hi); lia.
  set (mid := (lo + hi) / 2). assert (Hm : lo <= mid <= hi) by (unfold mid; lia).
  destruct (rdZ_in keys mid ltac:(lia)) as (k & -> & Hk). cbn [obind].
  destruct (Z.ltb_spec ch k).
  - apply IH; [lia|lia|lia|lia|exact Hlow|]. intros i k' Hi Hgt.
    destruct (Z.eq_dec (Z.of_nat i) mid) as [E|].
    + replace i with (Z.to_nat mid) in Hi by lia. rewrite Hk in Hi. inversion Hi; subst. lia.
    + assert (k < k') by (apply (sorted_lt keys Hs (Z.to_nat mid) i); [lia|exact Hk|exact Hi]). lia.
  - destruct (Z.gtb_spec ch k).
    + apply IH; [lia|lia|lia|lia| |exact Hhigh]. intros i k' Hi Hlt.
      destruct (Z.eq_dec (Z.of_nat i) mid) as [E|].
      * replace i with (Z.to_nat mid) in Hi by lia. rewrite Hk in Hi. inversion Hi; subst. lia.
      * assert (k' < k) by (apply (sorted_lt keys Hs i (Z.to_nat mid)); [lia|exact Hi|exact Hk]). lia.
    + exists true, mid. split; [reflexivity|]. split; [lia|]. replace ch with k by lia. exact Hk.
Qed.

(** ** Case tables *)
Fixpoint ranges_ok (t : list (Z * Z * Z)) : bool :=
  match t with
  | [] => true
  | e :: r => (0 <=? efirst e) && (efirst e <=? elast e) && (elast e <? 65536)
              && (0 <=? efirst e + edelta e) && (elast e + edelta e <? 65536)
              && match r with [] => true | e' :: _ => elast e <? efirst e' end && ranges_ok r
  end.

Lemma ranges_cons e t : ranges_ok (e :: t) = true ->
  (0 <= efirst e /\ efirst e <= elast e < 65536 /\ 0 <= efirst e + edelta e /\ elast e + edelta e < 65536) /\
  ranges_ok t = true /\ (forall x, In x t -> elast e < efirst x).
Proof.
  revert e. induction t as [|e' t IH]; intros e H; cbn [ranges_ok] in H.
  - repeat (apply andb_true_iff in H as [H ?]). split; [lia|]. split; [reflexivity|intros x []].
  - apply andb_true_iff in H as [H HR]. destruct (IH e' HR) as (A & B & C).
    repeat (apply andb_true_iff in H as [H ?]). split; [lia|]. split; [exact HR|].
    intros x [<-|Hx]; [lia|]. specialize (C x Hx). lia.
Qed.

Lemma ranges_in t e : ranges_ok t = true -> In e t ->
  0 <= efirst e /\ efirst e <= elast e < 65536 /\ 0 <= efirst e + edelta e /\ elast e + edelta e < 65536.
Proof.
  induction t as [|x t IH]; intros H []; destruct (ranges_cons _ _ H) as (A & B & C).
  - subst. exact A.
  - apply IH; assumption.
Qed.

Lemma ranges_sorted t : ranges_ok t = true -> sortedb (map efirst t) = true.
Proof.
  induction t as [|e t IH]; intros H; [reflexivity|].
  destruct (ranges_cons _ _ H) as (A & B & C). cbn [map sortedb].
  destruct t as [|e' t]; [reflexivity|]. cbn [map]. apply andb_true_iff. split.
  - specialize (C e' (or_introl eq_refl)). lia.
  - apply IH; exact B.
Qed.

Lemma ranges_order t : ranges_ok t = true -> forall i j e e', (i < j)%nat ->
  nth_error t i = Some e -> nth_error t j = Some e' -> elast e < efirst e'.
Proof.
  induction t as [|a t IH]; intros H i j e e' Hij Hi Hj; [destruct i; discriminate|].
  destruct (ranges_cons _ _ H) as (_ & H1 & H2).
  destruct j as [|j]; [lia|]. destruct i as [|i]; simpl in *.
  - inversion Hi; subst. apply H2. eapply nth_error_In; exact Hj.
  - apply (IH H1 i j); [lia|assumption|assumption].
Qed.

Definition valid_memo (t : list (Z * Z * Z)) (m : Z) : Prop := 0 <= m < Z.of_nat (length t).

Lemma case_convert_spec t : ranges_ok t = true -> forall last ch, valid_memo t last -> 0 <= ch < 2^32 ->
  exists r w, case_convert t last ch = Ok (r, w) /\ table_maps t ch r /\
    match w with Some m => valid_memo t m | None => True end.
Proof.
  intros Ht last ch Hv Hch. unfold case_convert.
  destruct (rdZ_in t last Hv) as (e & -> & He). cbn [obind].
  assert (U : forall e, In e t -> in_entry e ch -> u32 (ch + edelta e) = ch + edelta e).
  { intros x Hx Hi. destruct (ranges_in t x Ht Hx) as (A & B & C & D). unfold in_entry in Hi. unfold u32. lia. }
  destruct (Z.geb_spec ch (efirst e)) as [G1|G1]; destruct (Z.leb_spec ch (elast e)) as [G2|G2]; cbn [andb].
  1:{ assert (I : In e t) by (eapply nth_error_In; exact He).
      do 2 eexists. split; [reflexivity|]. split; [|exact Logic.I].
      left. exists e. split; [exact I|]. split; [unfold in_entry; lia|]. apply U; [exact I|unfold in_entry; lia]. }
  all: clear G1 G2;
  destruct (bsearch_spec (map efirst t) ch (ranges_sorted t Ht) (S (length t)) 0 (Z.of_nat (length t) - 1))
    as (b & p & -> & P);
  [ lia | rewrite map_length; lia | lia | lia
  | intros; lia
  | intros i k Hi Hgt; assert (i < length (map efirst t))%nat by (apply nth_error_Some; congruence);
    rewrite map_length in *; lia | ];
  cbn [obind]; destruct b;
  [ destruct P as [P1 P2]; rewrite nth_error_map in P2;
    destruct (nth_error t (Z.to_nat p)) as [em|] eqn:Em; [|discriminate];
    cbn [option_map] in P2; injection P2 as P2;
    assert (p < Z.of_nat (length t)) by (assert (Z.to_nat p < length t)%nat by (apply nth_error_Some; congruence); lia);
    destruct (rdZ_in t p ltac:(lia)) as (em' & -> & Em'); rewrite Em in Em'; inversion Em'; subst em';
    cbn [obind]; assert (I : In em t) by (eapply nth_error_In; exact Em);
    destruct (ranges_in t em Ht I) as (A & B & C & D);
    do 2 eexists; split; [reflexivity|]; split; [|unfold valid_memo; lia];
    left; exists em; split; [exact I|]; split; [unfold in_entry; lia|]; apply U; [exact I|unfold in_entry; lia]
  | destruct P as (P1 & P2 & P3); rewrite map_length in P1;
    assert (N : forall e', In e' t -> in_entry e' ch -> nth_error t (Z.to_nat p) = Some e' /\ 0 <= p) by
     (intros e' He' Hin; apply In_nth_error in He' as (i & Hi);
      assert (Ki : nth_error (map efirst t) i = Some (efirst e')) by (rewrite nth_error_map, Hi; reflexivity);
      unfold in_entry in Hin;
      assert (Hip : Z.of_nat i <= p) by
        (destruct (Z.le_gt_cases (Z.of_nat i) p); [assumption|]; specialize (P3 _ _ Ki ltac:(lia)); lia);
      assert (Hpl : (Z.to_nat p < length t)%nat) by lia;
      destruct (nth_error t (Z.to_nat p)) as [ep|] eqn:Ep; [|apply nth_error_None in Ep; lia];
      destruct (Nat.eq_dec i (Z.to_nat p)) as [->|Hne]; [split; [congruence|lia]|];
      assert (elast e' < efirst ep) by (apply (ranges_order t Ht i (Z.to_nat p)); [lia|exact Hi|exact Ep]);
      assert (Kp : nth_error (map efirst t) (Z.to_nat p) = Some (efirst ep)) by (rewrite nth_error_map, Ep; reflexivity);
      specialize (P2 _ _ Kp ltac:(lia)); lia);
    destruct (Z.geb_spec p 0) as [Hp|Hp];
    [ destruct (rdZ_in t p ltac:(lia)) as (eh & -> & Eh); cbn [obind];
      assert (I : In eh t) by (eapply nth_error_In; exact Eh);
      destruct ((ch >=? efirst eh) && (ch <=? elast eh)) eqn:Q;
      [ do 2 eexists; split; [reflexivity|]; split; [|unfold valid_memo; lia];
        left; exists eh; split; [exact I|]; split; [unfold in_entry; lia|]; apply U; [exact I|unfold in_entry; lia]
      | do 2 eexists; split; [reflexivity|]; split; [|exact Logic.I]; right; split; [|reflexivity];
        intros e' He' Hin; destruct (N e' He' Hin) as [E' _]; rewrite Eh in E'; inversion E'; subst e';
        unfold in_entry in Hin; lia ]
    | do 2 eexists; split; [reflexivity|]; split; [|exact Logic.I]; right; split; [|reflexivity];
      intros e' He' Hin; destruct (N e' He' Hin) as [_ E']; lia ] ].
Qed.

Lemma table_maps_fun t : ranges_ok t = true -> forall ch r r', table_maps t ch r -> table_maps t ch r' -> r = r'.
Proof.
  intros Ht ch r r' [(e & I & Hin & ->)|[N ->]] [(e' & I' & Hin' & ->)|[N' ->]]; try reflexivity.
  - apply In_nth_error in I as (i & Hi). apply In_nth_error in I' as (j & Hj). unfold in_entry in *.
    destruct (Nat.lt_trichotomy i j) as [L|[->|L]].
    + assert (elast e < efirst e') by (apply (ranges_order t Ht i j); assumption). lia.
    + congruence.
    + assert (elast e' < efirst e) by (apply (ranges_order t Ht j i); assumption). lia.
  - exfalso. exact (N' e I Hin).
  - exfalso. exact (N e' I' Hin').
Qed.

Lemma memo_values_valid t : ranges_ok t = true -> (0 < length t)%nat ->
  forall m, memo_value (case_convert t) m -> valid_memo t m.
Proof.
  intros Ht Hl m H. induction H as [|last ch r w Hm IH Hch E].
  - unfold valid_memo. lia.
  - destruct (case_convert_spec t Ht last ch IH Hch) as (r' & w' & E' & _ & V).
    rewrite E in E'. inversion E'; subst. exact V.
Qed.

Lemma upper_ok : ranges_ok UnicodeToUpper = true. Proof. vm_compute; reflexivity. Qed.
Lemma lower_ok : ranges_ok UnicodeToLower = true. Proof. vm_compute; reflexivity. Qed.
Lemma nocase_sorted : sortedb UnicodeNoCaseConvLetters = true. Proof. vm_compute; reflexivity. Qed.

Lemma case_table_memo t : ranges_ok t = true -> (0 < length t)%nat ->
  forall m ch, memo_value (case_convert t) m -> 0 <= ch < 2^32 ->
  exists r w, case_convert t m ch = Ok (r, w) /\ table_maps t ch r.
Proof.
  intros Ht Hl m ch Hm Hch.
  destruct (case_convert_spec t Ht m ch (memo_values_valid t Ht Hl m Hm) Hch) as (r & w & E & M & _). eauto.
Qed.

Lemma case_table_runs t : ranges_ok t = true -> (0 < length t)%nat ->
  forall chs m, memo_value (case_convert t) m -> Forall (fun ch => 0 <= ch < 2^32) chs ->
  exists rs, run_calls (case_convert t) m chs = Ok rs /\ Forall2 (table_maps t) chs rs.
Proof.
  intros Ht Hl chs. induction chs as [|ch chs IH]; intros m Hm Hc; [exists []; split; [reflexivity|constructor]|].
  inversion Hc as [|? ? H1 H2]; subst.
  destruct (case_table_memo t Ht Hl m ch Hm H1) as (r & w & E & M).
  cbn [run_calls]. rewrite E. cbn [obind fst snd].
  destruct (IH (match w with Some x => x | None => m end)) as (rs & -> & F).
  - destruct w as [x|]; [|exact Hm]. eapply memo_stored; eassumption.
  - exact H2.
  - cbn [obind]. eexists; split; [reflexivity|]. constructor; assumption.
Qed.

(** ** Idempotence: a finite check over the characters a table moves. *)
Definition table_chars (t : list (Z * Z * Z)) : list Z :=
  flat_map (fun e => map (fun i => efirst e + Z.of_nat i) (List.seq 0 (Z.to_nat (elast e - efirst e + 1)))) t.

Definition find_entry (t : list (Z * Z * Z)) (ch : Z) : option (Z * Z * Z) :=
  find (fun e => (efirst e <=? ch) && (ch <=? elast e)) t.
Definition conv (t : list (Z * Z * Z)) (ch : Z) : Z :=
  match find_entry t ch with Some e => ch + edelta e | None => ch end.

Lemma conv_maps t ch : table_maps t ch (conv t ch).
Proof.
  unfold conv, find_entry. destruct (find _ t) as [e|] eqn:E.
  - apply find_some in E as [I H]. left. exists e. split; [exact I|]. split; [unfold in_entry; lia|reflexivity].
  - right. split; [|reflexivity]. intros e I Hin. apply find_none with (x := e) in E; [|exact I]. unfold in_entry in Hin. lia.
Qed.

Lemma table_chars_in t ch : (exists e, In e t /\ in_entry e ch) <-> In ch (table_chars t).
Proof.
  unfold table_chars. rewrite in_flat_map. split; intros (e & I & H); exists e; (split; [exact I|]).
  - unfold in_entry in H. apply in_map_iff. exists (Z.to_nat (ch - efirst e)). split; [lia|]. apply in_seq. lia.
  - apply in_map_iff in H as (i & <- & Hi). apply in_seq in Hi. unfold in_entry. lia.
Qed.

Lemma conv_out t ch : ~ In ch (table_chars t) -> conv t ch = ch.
Proof.
  intros H. destruct (conv_maps t ch) as [(e & I & Hin & _)|[_ E]]; [|exact E].
  exfalso. apply H. apply table_chars_in. eauto.
Qed.

Lemma conv_idem_lift t : forallb (fun c => conv t (conv t c) =? conv t c) (table_chars t) = true ->
  forall ch, conv t (conv t ch) = conv t ch.
Proof.
  intros H ch. rewrite forallb_forall in H.
  destruct (in_dec Z.eq_dec ch (table_chars t)) as [I|N].
  - specialize (H ch I). lia.
  - rewrite (conv_out t ch N). apply conv_out; exact N.
Qed.

Lemma upper_idem : forall ch, conv UnicodeToUpper (conv UnicodeToUpper ch) = conv UnicodeToUpper ch.
Proof. apply conv_idem_lift. vm_compute. reflexivity. Qed.
Lemma lower_idem : forall ch, conv UnicodeToLower (conv UnicodeToLower ch) = conv UnicodeToLower ch.
Proof. apply conv_idem_lift. vm_compute. reflexivity. Qed.

Lemma case_convert_idem t : ranges_ok t = true -> (0 < length t)%nat ->
  (forall ch, conv t (conv t ch) = conv t ch) ->
  forall m m' ch r w, memo_value (case_convert t) m -> memo_value (case_convert t) m' -> 0 <= ch < 2^32 ->
    case_convert t m ch = Ok (r, w) -> exists w', case_convert t m' r = Ok (r, w').
Proof.
  intros Ht Hl Hid m m' ch r w Hm Hm' Hch E.
  destruct (case_table_memo t Ht Hl m ch Hm Hch) as (r1 & w1 & E1 & M1).
  rewrite E in E1. inversion E1; subst r1 w1.
  assert (R : r = conv t ch) by (apply (table_maps_fun t Ht ch); [exact M1|apply conv_maps]).
  assert (Hr : 0 <= r < 2^32).
  { destruct M1 as [(e & I & Hin & ->)|[_ ->]]; [|exact Hch].
    destruct (ranges_in t e Ht I) as (A & B & C & D). unfold in_entry in Hin. lia. }
  destruct (case_table_memo t Ht Hl m' r Hm' Hr) as (r2 & w2 & E2 & M2).
  exists w2. rewrite E2. f_equal. f_equal.
  transitivity (conv t r).
  - apply (table_maps_fun t Ht r); [exact M2|apply conv_maps].
  - rewrite R. apply Hid.
Qed.

(** ** Digits *)
Fixpoint droks (t : list (Z * Z)) : bool :=
  match t with
  | [] => true
  | (l, h) :: r => (l <=? h) && (h - l <=? 9) && match r with [] => true | (l', _) :: _ => h <? l' end && droks r
  end.

Lemma droks_cons l h t : droks ((l, h) :: t) = true ->
  l <= h <= l + 9 /\ droks t = true /\ (forall l' h', In (l', h') t -> h < l').
Proof.
  revert l h. induction t as [|[l1 h1] t IH]; intros l h H; cbn [droks] in H.
  - repeat (apply andb_true_iff in H as [H ?]). split; [lia|]. split; [reflexivity|intros ? ? []].
  - apply andb_true_iff in H as [H HR]. destruct (IH l1 h1 HR) as (A & B & C).
    repeat (apply andb_true_iff in H as [H ?]). split; [lia|]. split; [exact HR|].
    intros l' h' [E|Hx]; [inversion E; subst; lia|]. specialize (C l' h' Hx). lia.
Qed.

Lemma digit_loop_spec t : droks t = true -> forall i ch,
  match digit_loop t i ch with
  | Some (Some (v, j)) => digit_value t ch v /\ 0 <= v <= 9 /\ i <= j < i + Z.of_nat (length t)
  | Some None => (forall v, ~ digit_value t ch v) /\ exists l h, In (l, h) t /\ ch < l
  | None => (forall v, ~ digit_value t ch v) /\ (forall l h, In (l, h) t -> h < ch)
  end.
Proof.
  induction t as [|[l h] t IH]; intros H i ch; cbn [digit_loop].
  - split; [intros v (? & ? & [] & _)|intros ? ? []].
  - destruct (droks_cons _ _ _ H) as (A & B & C).
    destruct (Z.ltb_spec ch l).
    + split; [|exists l, h; split; [left; reflexivity|assumption]].
      intros v (l' & h' & [E|I] & R & _); [inversion E; subst; lia|]. specialize (C _ _ I). lia.
    + destruct (Z.leb_spec ch h).
      * split; [exists l, h; split; [left; reflexivity|]; split; [lia|reflexivity]|]. cbn [length]. lia.
      * specialize (IH B (i + 1) ch). destruct (digit_loop t (i + 1) ch) as [[[v j]|]|].
        -- destruct IH as ((l' & h' & I & R) & V & J). split; [exists l', h'; split; [right; exact I|exact R]|].
           cbn [length]. lia.
        -- destruct IH as (N & l' & h' & I & R). split; [|exists l', h'; split; [right; exact I|exact R]].
           intros v (l2 & h2 & [E|I2] & R2 & V); [inversion E; subst; lia|].
           apply (N v). exists l2, h2. auto.
        -- destruct IH as (N & R). split.
           ++ intros v (l2 & h2 & [E|I2] & R2 & V); [inversion E; subst; lia|]. apply (N v). exists l2, h2. auto.
           ++ intros l2 h2 [E|I2]; [inversion E; subst; lia|]. eapply R; exact I2.
Qed.

Lemma digit_ok : droks UCS4_DigitRanges = true. Proof. vm_compute; reflexivity. Qed.

Lemma digit_value_range t ch v : droks t = true -> digit_value t ch v -> 0 <= v <= 9.
Proof.
  intros H (l & h & I & R & ->). assert (l <= h <= l + 9).
  { clear R. revert H I. induction t as [|[l1 h1] t IH]; intros H []; destruct (droks_cons _ _ _ H) as (A & B & C).
    - inversion H0; subst. exact A.
    - apply IH; assumption. }
  lia.
Qed.

Lemma ucs4digit_spec last ch : 0 <= last < Z.of_nat (length UCS4_DigitRanges) ->
  exists v w, UCS4Digit last ch = Ok (v, w) /\ digit_spec ch v /\ -1 <= v <= 9 /\
    match w with Some m => 0 <= m < Z.of_nat (length UCS4_DigitRanges) | None => True end.
Proof.
  intros Hl. unfold UCS4Digit. destruct (rdZ_in _ _ Hl) as ([low high] & -> & E). cbn [obind fst snd].
  destruct ((ch >=? low) && (ch <=? high)) eqn:Q.
  - assert (D : digit_value UCS4_DigitRanges ch (9 - (high - ch))).
    { exists low, high. split; [eapply nth_error_In; exact E|]. split; [lia|reflexivity]. }
    do 2 eexists. split; [reflexivity|]. split; [left; exact D|]. split; [|exact I].
    assert (X := digit_value_range _ _ _ digit_ok D). lia.
  - assert (S := digit_loop_spec _ digit_ok 0 ch).
    destruct (digit_loop UCS4_DigitRanges 0 ch) as [[[v j]|]|].
    + destruct S as (D & V & J). do 2 eexists. split; [reflexivity|]. split; [left; exact D|]. split; [lia|lia].
    + destruct S as (N & _). do 2 eexists. split; [reflexivity|]. split; [right; auto|]. split; [lia|exact I].
    + destruct S as (N & R).
      assert (0xFF19 < ch) by (apply (R 0xFF10); vm_compute; tauto).
      replace (ch =? 0x3007) with false by lia.
      replace ((ch >=? 0x3021) && (ch <=? 0x3029)) with false by lia.
      do 2 eexists. split; [reflexivity|]. split; [right; auto|]. split; [lia|exact I].
Qed.

Lemma digit_memo_valid m : memo_value UCS4Digit m -> 0 <= m < Z.of_nat (length UCS4_DigitRanges).
Proof.
  induction 1 as [|last ch r w Hm IH Hch E]; [vm_compute; split; [discriminate|reflexivity]|].
  destruct (ucs4digit_spec last ch IH) as (v & w' & E' & _ & _ & V). rewrite E in E'. inversion E'; subst. exact V.
Qed.

(** ** Alphabetic *)
Lemma alphabetic_spec mu ml ch : memo_value UCS4ToUpper mu -> memo_value UCS4ToLower ml -> 0 <= ch < 2^32 ->
  exists b, UCS4IsAlphabetic mu ml ch = Ok b /\
    (b = true <-> (~ table_maps UnicodeToUpper ch ch \/ ~ table_maps UnicodeToLower ch ch \/ caseless_letter ch)).
Proof.
  intros Hu Hl Hch. unfold UCS4IsAlphabetic.
  destruct (case_table_memo _ upper_ok ltac:(vm_compute; lia) mu ch Hu Hch) as (u & wu & Eu & Mu).
  unfold UCS4ToUpper. rewrite Eu. cbn [obind fst].
  destruct (Z.eqb_spec u ch) as [->|Nu]; cbn [negb].
  2:{ exists true. split; [reflexivity|]. split; [intros _|reflexivity]. left. intros M.
      apply Nu. exact (table_maps_fun _ upper_ok _ _ _ Mu M). }
  destruct (case_table_memo _ lower_ok ltac:(vm_compute; lia) ml ch Hl Hch) as (l & wl & El & Ml).
  unfold UCS4ToLower. rewrite El. cbn [obind fst].
  destruct (Z.eqb_spec l ch) as [->|Nl]; cbn [negb].
  2:{ exists true. split; [reflexivity|]. split; [intros _|reflexivity]. right; left. intros M.
      apply Nl. exact (table_maps_fun _ lower_ok _ _ _ Ml M). }
  destruct (bsearch_spec UnicodeNoCaseConvLetters ch nocase_sorted (S (length UnicodeNoCaseConvLetters)) 0
     (Z.of_nat (length UnicodeNoCaseConvLetters) - 1)) as (b & p & -> & P).
  - lia. - lia. - lia. - lia. - intros; lia.
  - intros i k Hi Hgt. assert (i < length UnicodeNoCaseConvLetters)%nat by (apply nth_error_Some; congruence). lia.
  - cbn [obind fst]. exists b. split; [reflexivity|]. destruct b.
    + split; [intros _|reflexivity]. right; right. destruct P as [_ P]. eapply nth_error_In; exact P.
    + split; [discriminate|]. intros [N|[N|N]]; [exfalso; exact (N Mu)|exfalso; exact (N Ml)|].
      destruct P as (P1 & P2 & P3). apply In_nth_error in N as (i & Hi).
      destruct (Z.le_gt_cases (Z.of_nat i) p).
      * specialize (P2 _ _ Hi ltac:(lia)). lia.
      * specialize (P3 _ _ Hi ltac:(lia)). lia.
Qed.

Lemma title_lookup_spec t ch : match title_lookup t ch with
  | Some r => exists c d, In (c, d) t /\ ch = c /\ r = u32 (ch + d)
  | None => forall d, ~ In (ch, d) t end.
Proof.
  induction t as [|[c d] t IH]; cbn [title_lookup]; [intros d []|].
  destruct (Z.eqb_spec ch c) as [->|N]; [exists c, d; repeat split; left; reflexivity|].
  destruct (title_lookup t ch) as [r|].
  - destruct IH as (c' & d' & I & E). exists c', d'. split; [right; exact I|exact E].
  - intros d' [E|I]; [inversion E; subst; congruence|exact (IH _ I)].
Qed.
