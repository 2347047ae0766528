(** Proofs for C54: the character count cached in a shared body. *)
From Verif Require Import Base UTF8Model UTF8Spec UTF8Proofs RefModel RefSpec RefProofs ConcModel ConcSpec ConcProofs.
From Verif Require StrModel StrText.

(** ** How many characters countChars finds *)
Definition ch (m : list Z) (i : nat) : nat := chars_from (length m - i) m i.

Lemma chars_fuel m : bytes m -> forall f g i, (length m - i <= f)%nat -> (length m - i <= g)%nat -> chars_from f m i = chars_from g m i.
Proof.
  intros B. induction f as [|f IH]; intros g i Hf Hg.
  - destruct g; cbn [chars_from]; destruct (Nat.ltb_spec i (length m)); try reflexivity; lia.
  - cbn [chars_from]. destruct (Nat.ltb_spec i (length m)) as [L|L].
    + destruct g as [|g]; [lia|]. cbn [chars_from]. destruct (Nat.ltb_spec i (length m)); [|lia].
      destruct (get_text m i B L) as (r & E & K). rewrite E. destruct (_ || _); [reflexivity|]. f_equal. apply IH; lia.
    + destruct g as [|g]; cbn [chars_from]; destruct (Nat.ltb_spec i (length m)); try reflexivity; lia.
Qed.

Lemma ch_end m i : (length m <= i)%nat -> ch m i = 0%nat.
Proof. intros L. unfold ch. replace (length m - i)%nat with 0%nat by lia. cbn [chars_from]. destruct (Nat.ltb_spec i (length m)); [lia|reflexivity]. Qed.

Lemma ch_step m i r : bytes m -> (i < length m)%nat -> UTF8Get (skipn i (m ++ [0])) = Ok r ->
  ch m i = if (fst r =? StrModel.UCS4_NONE) || (length m <? i + snd r)%nat then 0%nat else S (ch m (i + snd r)).
Proof.
  intros B L E. unfold ch. destruct (length m - i)%nat as [|f] eqn:Ef; [lia|]. cbn [chars_from].
  destruct (Nat.ltb_spec i (length m)); [|lia]. rewrite E. destruct (_ || _); [reflexivity|]. f_equal.
  destruct (get_text m i B L) as (r' & E' & K). assert (r' = r) by congruence. subst r'. apply chars_fuel; [exact B|lia|lia].
Qed.

Lemma ch_text l : Forall StrText.good l -> forall pre, bytes pre ->
  ch (pre ++ encode_all l) (length pre) = length l.
Proof.
  induction 1 as [|c l Gc GL IH]; intros pre Bp.
  - rewrite StrText.enc_nil, app_nil_r. apply ch_end. lia.
  - rewrite StrText.enc_cons. assert (PL := StrText.put_len_pos _ Gc). set (m := pre ++ UTF8Put c ++ encode_all l).
    assert (Lm : length m = (length pre + (length (UTF8Put c) + length (encode_all l)))%nat) by (unfold m; rewrite !app_length; reflexivity).
    assert (Bm : bytes m).
    { unfold m. apply Forall_app; split; [exact Bp|]. apply Forall_app; split; [apply StrText.put_bytes; exact Gc|apply StrText.enc_bytes; exact GL]. }
    assert (E : UTF8Get (skipn (length pre) (m ++ [0])) = Ok (c, length (UTF8Put c))).
    { unfold m. rewrite <- app_assoc, skipn_app, (skipn_all2 pre) by lia. rewrite Nat.sub_diag. cbn [skipn app]. rewrite <- app_assoc. apply StrText.get_good. exact Gc. }
    assert (Lp : (length pre < length m)%nat) by lia. rewrite (ch_step m _ _ Bm Lp E). cbn [fst snd]. destruct (Z.eqb_spec c StrModel.UCS4_NONE) as [->|_].
    { exfalso. destruct Gc as [_ Gc]. apply Gc. right. reflexivity. }
    cbn [orb]. destruct (Nat.ltb_spec (length m) (length pre + length (UTF8Put c))); [lia|]. cbn [length]. f_equal.
    unfold m. rewrite app_assoc. replace (length pre + length (UTF8Put c))%nat with (length (pre ++ UTF8Put c)) by apply app_length.
    apply IH. apply Forall_app; split; [exact Bp|apply StrText.put_bytes; exact Gc].
Qed.

(** ** Counts of bodies *)
Definition cx (s : cstate) (h : nat) : Z := count_at s (target (rc s) h).
Definition total (s : cstate) (h : nat) : Z := Z.of_nat (ch (tx s h) 0).
Definition cmp (s : cstate) (h : nat) : Prop := cx s h = total s h.

Definition sole (r : state) (h : nat) : Prop := exists o, target r h = Some o /\ refs r o = 1%nat.

Definition wbusy (w : work) (h : nat) : Prop :=
  match w with
  | Counting k c _ => k = h /\ match c with CLoop _ | CInc _ | CWr _ _ => True | _ => False end
  | Writing k _ => k = h
  | _ => False
  end.
Definition busy (s : cstate) (h : nat) : Prop :=
  exists t w, owns (rc s) t h = true /\ nth_error (wk s) t = Some w /\ wbusy w h.

Definition Q (s : cstate) (h : nat) : Prop :=
  cmp s h \/ (sole (rc s) h /\ known (log s) h = false /\ (cx s h = 0 \/ busy s h)).

Definition CW (s : cstate) (w : work) : Prop :=
  match w with
  | Counting h c k =>
      match c with
      | CTest => True
      | CLoop i => cx s h + Z.of_nat (ch (tx s h) i) = total s h
      | CInc i => cx s h + 1 + Z.of_nat (ch (tx s h) i) = total s h
      | CWr i v => v = cx s h /\ v + 1 + Z.of_nat (ch (tx s h) i) = total s h
      | CRet => cmp s h
      end /\
      match k with KCopy _ | KWrite _ => known (log s) h = false | _ => True end
  | Reading h _ _ => cmp s h
  | Copying h _ _ _ | Writing h _ => known (log s) h = false
  | Free => True
  end.

Record C (s : cstate) : Prop := {
  c_q : forall h, Q s h;
  c_w : forall t w, nth_error (wk s) t = Some w -> CW s w }.

Lemma owner_refs r h o : target r h = Some o ->
  (exists v, nth_error (slots r) h = Some v /\ in_slot o v = 1%nat) \/
  (exists t p, owns r t h = true /\ nth_error (pcs r) t = Some p /\ pc_dst p = Some h /\ token o p = 1%nat).
Proof.
  unfold target. intros H. destruct (nth_error (owner r) h) as [t|] eqn:E; [|discriminate].
  assert (SL : slot_of r h = Some o -> exists v, nth_error (slots r) h = Some v /\ in_slot o v = 1%nat).
  { unfold slot_of. intros X. destruct (nth_error (slots r) h) as [v|]; [|discriminate]. exists v. split; [reflexivity|]. subst v. simpl. rewrite Nat.eqb_refl. reflexivity. }
  assert (Oh : owns r t h = true) by (unfold owns; rewrite E; apply Nat.eqb_refl).
  unfold pc_target in H. destruct (nth_error (pcs r) t) as [p|] eqn:Ep; [|auto].
  destruct p as [|d q|d w|q|q|q]; auto; destruct (Nat.eqb_spec d h); auto; subst d; right; exists t; eexists; (split; [exact Oh|]); (split; [exact Ep|]); (split; [reflexivity|]); simpl.
  - injection H as ->. rewrite Nat.eqb_refl. reflexivity.
  - subst w. rewrite Nat.eqb_refl. reflexivity.
Qed.

Lemma sole_only r h k o : Inv r -> refs r o = 1%nat -> target r h = Some o -> target r k = Some o -> h = k.
Proof.
  intros I R H K. destruct (Nat.eq_dec h k) as [|N]; [assumption|exfalso]. unfold refs, handles, tokens in R.
  destruct (owner_refs _ _ _ H) as [(v & V1 & V2)|(t & p & T1 & T2 & T3 & T4)]; destruct (owner_refs _ _ _ K) as [(v' & V1' & V2')|(t' & p' & T1' & T2' & T3' & T4')].
  - assert (X := sum_two (in_slot o) (slots r) h k _ _ N V1 V1'). lia.
  - assert (X := sum_pos (in_slot o) (slots r) h _ V1). assert (Y := sum_pos (token o) (pcs r) t' _ T2'). lia.
  - assert (X := sum_pos (in_slot o) (slots r) k _ V1'). assert (Y := sum_pos (token o) (pcs r) t _ T2). lia.
  - destruct (Nat.eq_dec t t') as [->|Nt]; [congruence|]. assert (X := sum_two (token o) (pcs r) t t' _ _ Nt T2 T2'). lia.
Qed.

(** What thread [t]'s action leaves alone. *)
Lemma preserveC s s' t w' : G s -> G s' -> C s -> Frame s s' t ->
  (forall h, owns (rc s) t h = false -> cx s' h = cx s h /\ known (log s') h = known (log s) h) ->
  (forall h o, owns (rc s) t h = false -> target (rc s) h = Some o -> (refs (rc s') o <= refs (rc s) o)%nat \/ cmp s h) ->
  nth_error (wk s') t = Some w' -> CW s' w' -> (forall h, owns (rc s) t h = true -> Q s' h) -> C s'.
Proof.
  intros Gs Gs' [CQ CW0] (S & FW & FT & FP) FC FR Hw W QT.
  assert (SO := same_owns _ _ _ S).
  assert (CM : forall h, owns (rc s) t h = false -> cmp s h -> cmp s' h).
  { intros h Hh X. unfold cmp, total in *. rewrite (proj1 (FC h Hh)), (FT h Hh). exact X. }
  constructor.
  - intros h. destruct (owns (rc s) t h) eqn:E; [exact (QT h E)|].
    destruct (CQ h) as [X|((o & T & R) & K & B)]; [left; exact (CM h E X)|].
    destruct (FR h o E T) as [LE|X]; [|left; exact (CM h E X)].
    right. assert (T' : target (rc s') h = Some o) by (rewrite (so_target _ _ _ _ S E); exact T).
    split; [exists o; split; [exact T'|]; assert (P := target_refs _ _ _ (g_inv s' Gs') T'); lia|].
    destruct (FC h E) as [E1 E2]. split; [congruence|]. destruct B as [B|(u & w & Bo & Bw & Bb)]; [left; congruence|right].
    exists u, w. split; [rewrite SO; exact Bo|]. split; [|exact Bb]. rewrite FW; [exact Bw|]. intros ->. congruence.
  - intros u w Hu. destruct (Nat.eq_dec u t) as [->|N]; [rewrite Hw in Hu; injection Hu as <-; exact W|].
    rewrite (FW u N) in Hu. specialize (CW0 u w Hu). assert (WK := g_work s Gs u w Hu).
    assert (OO : forall h, owns (rc s) u h = true -> owns (rc s) t h = false) by (intros h Hh; exact (owns_other _ _ _ _ Hh N)).
    assert (KK : forall h, owns (rc s) u h = true -> cx s' h = cx s h /\ known (log s') h = known (log s) h /\ tx s' h = tx s h /\ total s' h = total s h).
    { intros h Hh. destruct (FC h (OO h Hh)). split_and; auto. unfold total. rewrite (FT h (OO h Hh)). reflexivity. }
    destruct w as [|h c k|h i got|h i got fs|h fs]; cbn [CW WOK] in *; auto.
    + destruct WK as (Oh & _). destruct (KK h Oh) as (E1 & E2 & E3 & E4). unfold cmp. rewrite E1, E2, E3, E4. exact CW0.
    + destruct WK as (Oh & _). exact (CM h (OO h Oh) CW0).
    + destruct WK as (Oh & _). destruct (KK h Oh) as (E1 & E2 & E3 & E4). rewrite E2. exact CW0.
    + destruct WK as (Oh & _). destruct (KK h Oh) as (E1 & E2 & E3 & E4). rewrite E2. exact CW0.
Qed.

(** Nothing but the work of [t] (and the log) changes. *)
Lemma only_work_frame s s' t w' : rc s' = rc s -> txt s' = txt s -> wk s' = upd (wk s) t w' -> Frame s s' t.
Proof.
  intros E1 E2 E3. split; [rewrite E1; apply same_refl|]. split; [intros u N; rewrite E3; apply nth_upd_ne; congruence|].
  split; [intros h _; unfold tx, text_at; rewrite E1, E2; reflexivity|]. rewrite E1. auto.
Qed.

Lemma only_workC s s' t w w' : G s -> G s' -> C s -> nth_error (wk s) t = Some w ->
  rc s' = rc s -> txt s' = txt s -> cnt s' = cnt s -> wk s' = upd (wk s) t w' ->
  (forall h, owns (rc s) t h = false -> known (log s') h = known (log s) h) ->
  (CW s w -> CW s' w') ->
  (forall h, owns (rc s) t h = true -> Q s h -> Q s' h) -> C s'.
Proof.
  intros Gs Gs' Cs Hw E1 E2 E3 E4 K W QT.
  apply (preserveC s s' t w' Gs Gs' Cs (only_work_frame s s' t w' E1 E2 E4)).
  - intros h Hh. split; [unfold cx, count_at; rewrite E1, E3; reflexivity|exact (K h Hh)].
  - intros h o _ _. left. rewrite E1. lia.
  - rewrite E4. eapply nth_upd_eq; exact Hw.
  - exact (W (c_w s Cs t w Hw)).
  - intros h Hh. exact (QT h Hh (c_q s Cs h)).
Qed.

(** Keeping [Q] when the work of the owner changes. *)
Lemma Q_keep s s' t w w' h : nth_error (wk s) t = Some w -> owns (rc s) t h = true -> nth_error (wk s') t = Some w' ->
  rc s' = rc s -> txt s' = txt s -> cnt s' = cnt s -> 
  (known (log s) h = false -> known (log s') h = false) -> (wbusy w h -> wbusy w' h \/ cmp s h) -> Q s h -> Q s' h.
Proof.
  intros Hw Oh Hw' E1 E2 E3 K B [X|(S & Kn & Z)].
  - left. unfold cmp, cx, total, tx, text_at, count_at in *. rewrite E1, E2, E3. exact X.
  - assert (CE : cmp s h -> cmp s' h) by (unfold cmp, cx, total, tx, text_at, count_at; rewrite E1, E2, E3; auto).
    destruct Z as [Z|(u & wu & Bo & Bw & Bb)].
    + right. split; [rewrite E1; exact S|]. split; [exact (K Kn)|]. left. unfold cx, count_at in *. rewrite E1, E3. exact Z.
    + assert (u = t) by exact (owns_uniq _ _ _ _ Bo Oh). subst u. assert (wu = w) by congruence. subst wu.
      destruct (B Bb) as [B'|B']; [|left; exact (CE B')]. right. split; [rewrite E1; exact S|]. split; [exact (K Kn)|]. right.
      exists t, w'. split; [rewrite E1; exact Oh|]. split; [exact Hw'|exact B'].
Qed.

Lemma known_snoc l e : known (l ++ [e]) = known_after (known l) e.
Proof. unfold known. rewrite fold_left_app. reflexivity. Qed.

Lemma cx_rc s r : (forall h, target r h = target (rc s) h) -> forall h, cx (set_rc s r) h = cx s h.
Proof. intros T h. unfold cx. cbn [rc set_rc]. rewrite T. reflexivity. Qed.

Lemma counts_first_pre l e : counts_first (l ++ [e]) -> counts_first l.
Proof. intros H l1 d s l2 ->. apply (H l1 d s (l2 ++ [e])). rewrite <- app_assoc. reflexivity. Qed.

Lemma upd_same {A} (l : list A) t x : nth_error l t = Some x -> upd l t x = l.
Proof. revert t; induction l as [|a l IH]; intros [|t] H; simpl in *; try discriminate; [congruence|]. rewrite (IH t H). reflexivity. Qed.

Ltac owC Gs Gs' Cs Hw := eapply (only_workC _ _ _ _ _ Gs Gs' Cs Hw); [reflexivity|reflexivity|reflexivity|reflexivity| | |].
Ltac qk Hw := intros h' Hh'; eapply Q_keep; [exact Hw|exact Hh'|cbn [wk set_wk add_log]; eapply nth_upd_eq; exact Hw|reflexivity|reflexivity|reflexivity| | ].

Lemma cx_eq s s' h : target (rc s') h = target (rc s) h -> cnt s' = cnt s -> cx s' h = cx s h.
Proof. intros A B. unfold cx, count_at. rewrite A, B. reflexivity. Qed.

Lemma tx_len_bytes s h : G s -> bytes (tx s h).
Proof. intros Gs. apply text_bytes, Gs. Qed.

Lemma count_step_C s t h c k s' : G s -> G s' -> C s -> idle (rc s) t = true -> nth_error (wk s) t = Some (Counting h c k) ->
  count_step s t h (target (rc s) h) c k = Ok s' -> C s'.
Proof.
  intros Gs Gs' Cs Hi Hw H. assert (W := g_work s Gs t _ Hw). cbn [WOK] in W. destruct W as (Oh & Bk & Ck & Dc).
  assert (CC := c_w s Cs t _ Hw). cbn [CW] in CC. destruct CC as [CC CK].
  destruct c as [|i|i|i v|]; cbn [count_step] in H.
  - injection H as <-. fold (cx s h) in *. owC Gs Gs' Cs Hw; [reflexivity| |].
    + intros _. cbn [CW log set_wk]. split; [|exact CK]. destruct (Z.eqb_spec (cx s h) 0) as [Z|Z].
      * change (cx s h + Z.of_nat (ch (tx s h) 0) = total s h). rewrite Z. reflexivity.
      * destruct (c_q s Cs h) as [X|(_ & _ & [X|(u & w & Bo & Bw & Bb)])]; [exact X|contradiction|].
        assert (u = t) by exact (owns_uniq _ _ _ _ Bo Oh). subst u. rewrite Hw in Bw. injection Bw as <-. destruct Bb as [_ []].
    + qk Hw; [auto|]. intros [_ []].
  - fold (tx s h) in H. destruct (Nat.ltb_spec i (length (tx s h))) as [L|L].
    + apply obind_ok in H as (r & E & H). assert (St := ch_step _ _ _ (tx_len_bytes s h Gs) L E).
      destruct ((fst r =? StrModel.UCS4_NONE) || (length (tx s h) <? i + snd r)%nat); injection H as <-.
      * assert (CM : cmp s h) by (unfold cmp; lia). owC Gs Gs' Cs Hw; [reflexivity|intros _; split; [exact CM|exact CK]|]. qk Hw; [auto|]. intros [<- _]. auto.
      * owC Gs Gs' Cs Hw; [reflexivity| |].
        -- intros _. cbn [CW log set_wk]. split; [|exact CK]. change (cx s h + 1 + Z.of_nat (ch (tx s h) (i + snd r)) = total s h). lia.
        -- qk Hw; [auto|]. intros [<- _]. left. split; [reflexivity|exact Logic.I].
    + injection H as <-. assert (CM : cmp s h) by (unfold cmp; rewrite ch_end in CC by exact L; lia).
      owC Gs Gs' Cs Hw; [reflexivity|intros _; split; [exact CM|exact CK]|]. qk Hw; [auto|]. intros [<- _]. auto.
  - injection H as <-. owC Gs Gs' Cs Hw; [reflexivity| |].
    + intros _. cbn [CW log set_wk]. split; [|exact CK]. split; [reflexivity|]. exact CC.
    + qk Hw; [auto|]. intros [<- _]. left. split; [reflexivity|exact Logic.I].
  - destruct (target (rc s) h) as [o|] eqn:TH; [|discriminate]. injection H as <-.
    set (s' := set_wk (set_cnt s o (v + 1)) t (Counting h (CLoop i) k)) in *.
    destruct CC as [Ev CC].
    assert (CQ := c_q s Cs h). destruct CQ as [X|((o' & T' & R) & Kn & _)]; [unfold cmp in X; lia|].
    assert (o' = o) by congruence. subst o'.
    assert (OTH : forall h2, h2 <> h -> cx s' h2 = cx s h2).
    { intros h2 N. unfold cx. change (rc s') with (rc s). destruct (target (rc s) h2) as [q|] eqn:T2; [|reflexivity]. cbn [count_at].
      unfold s'. cbn [cnt set_wk set_cnt]. apply nth_upd_ne'. intros <-. exact (N (sole_only _ _ _ _ (g_inv s Gs) R T2 TH)). }
    assert (CXH : cx s' h = v + 1).
    { unfold cx. change (rc s') with (rc s). rewrite TH. cbn [count_at]. unfold s'. cbn [cnt set_wk set_cnt]. apply nth_upd_eq'.
      rewrite (g_cnt s Gs). exact (target_lt _ _ _ (g_inv s Gs) TH). }
    assert (TXE : forall h2, tx s' h2 = tx s h2) by reflexivity.
    assert (W' : nth_error (wk s') t = Some (Counting h (CLoop i) k)) by (eapply nth_upd_eq; exact Hw).
    apply (preserveC s s' t (Counting h (CLoop i) k) Gs Gs' Cs); [apply (only_work_frame _ _ _ (Counting h (CLoop i) k)); reflexivity| | |exact W'| |].
    + intros h2 N. split; [|reflexivity]. apply OTH. intros ->. congruence.
    + intros h2 q _ _. left. change (rc s') with (rc s). lia.
    + cbn [CW]. split; [|exact CK]. rewrite CXH. change (total s' h) with (total s h). rewrite TXE. lia.
    + intros h2 Hh2. destruct (Nat.eq_dec h2 h) as [->|N].
      * right. split; [exists o; auto|]. split; [exact Kn|]. right. exists t, (Counting h (CLoop i) k). split; [exact Oh|]. split; [exact W'|]. split; [reflexivity|exact Logic.I].
      * destruct (c_q s Cs h2) as [Y|(S2 & K2 & [Z2|(u & w & Bo & Bw & Bb)])].
        -- left. unfold cmp. rewrite (OTH h2 N). exact Y.
        -- right. split; [exact S2|]. split; [exact K2|]. left. rewrite (OTH h2 N). exact Z2.
        -- assert (u = t) by exact (owns_uniq _ _ _ _ Bo Hh2). subst u. rewrite Hw in Bw. injection Bw as <-. destruct Bb as [Bb _]. congruence.
  - assert (CM : cmp s h) by exact CC.
    destruct k as [| |fs|fs]; cbn [counted] in H; injection H as <-.
    + owC Gs Gs' Cs Hw; cbn [log set_wk add_log].
      * intros h' N. rewrite known_snoc. cbn [known_after]. apply set_ne. intros ->. congruence.
      * intros _. exact Logic.I.
      * intros h' Hh' Qh. destruct (Nat.eq_dec h' h) as [->|N]; [left; exact CM|].
        revert Qh. revert h' Hh' N. intros h' Hh' N. eapply Q_keep; [exact Hw|exact Hh'|eapply nth_upd_eq; exact Hw|reflexivity|reflexivity|reflexivity| |].
        -- cbn [log set_wk add_log]. rewrite known_snoc. cbn [known_after]. rewrite set_ne by exact N. auto.
        -- intros [E _]. congruence.
    + owC Gs Gs' Cs Hw; [reflexivity|intros _; exact CM|]. qk Hw; [auto|]. intros [_ []].
    + owC Gs Gs' Cs Hw; [reflexivity|intros _; exact CK|]. qk Hw; [auto|]. intros [_ []].
    + owC Gs Gs' Cs Hw; [reflexivity|intros _; exact CK|]. qk Hw; [auto|]. intros [_ []].
Qed.

(** [Q] of a handle whose target, text, count, references and owner's work stay. *)
Lemma Q_same s s' h : G s' -> target (rc s') h = target (rc s) h -> tx s' h = tx s h -> cx s' h = cx s h ->
  known (log s') h = known (log s) h -> (forall o, target (rc s) h = Some o -> (refs (rc s') o <= refs (rc s) o)%nat \/ cmp s h) ->
  (busy s h -> busy s' h) -> Q s h -> Q s' h.
Proof.
  intros Gs' ET EX EC EK R B [X|((o & T & R1) & K & Z)].
  - left. unfold cmp, total. rewrite EC, EX. exact X.
  - destruct (R o T) as [LE|X]; [|left; unfold cmp, total; rewrite EC, EX; exact X].
    right. rewrite EK, EC. split; [|split; [exact K|destruct Z; auto]].
    exists o. rewrite ET. split; [exact T|]. rewrite <- ET in T. assert (P := target_refs _ _ _ (g_inv s' Gs') T). lia.
Qed.

Lemma busy_keep s s' h : (forall u, owns (rc s) u h = true -> owns (rc s') u h = true) -> wk s' = wk s -> busy s h -> busy s' h.
Proof. intros O E (u & w & A & B & D). exists u, w. rewrite E. auto. Qed.

Lemma free_not_busy s t h w : owns (rc s) t h = true -> nth_error (wk s) t = Some w -> ~ wbusy w h -> ~ busy s h.
Proof. intros Oh Hw N (u & w' & A & B & D). assert (u = t) by exact (owns_uniq _ _ _ _ A Oh). subst u. assert (w' = w) by congruence. subst w'. contradiction. Qed.

Lemma cmp_target s h k : target (rc s) h = target (rc s) k -> cmp s h -> cmp s k.
Proof. intros E. unfold cmp, cx, total, tx. rewrite E. auto. Qed.

Lemma assignC s t d r en : G s -> G (add_log (set_rc s r) en) -> C s -> free s t = true -> owns (rc s) t d = true ->
  same_other (rc s) r t -> (forall u h o, u <> t -> Pend (rc s) u h o -> Pend r u h o) ->
  (forall k, k <> d -> target r k = target (rc s) k) ->
  (forall k o, target (rc s) k = Some o -> (refs r o <= refs (rc s) o)%nat \/ cmp s k) ->
  (forall k, k <> d -> known_after (known (log s)) en k = known (log s) k) ->
  cmp (add_log (set_rc s r) en) d -> C (add_log (set_rc s r) en).
Proof.
  intros Gs Gs' Cs Hf Od S FP T R K CD. destruct (free_true _ _ Hf) as [Hi Hw]. set (s' := add_log (set_rc s r) en) in *.
  assert (TX : forall k, k <> d -> tx s' k = tx s k) by (intros k N; unfold tx; cbn [rc s' add_log set_rc]; rewrite (T k N); reflexivity).
  assert (CX : forall k, k <> d -> cx s' k = cx s k) by (intros k N; unfold cx; cbn [rc s' add_log set_rc]; rewrite (T k N); reflexivity).
  assert (KX : forall k, k <> d -> known (log s') k = known (log s) k) by (intros k N; unfold s'; cbn [log add_log set_rc]; rewrite known_snoc; exact (K k N)).
  apply (preserveC s s' t Free Gs Gs' Cs).
  - split; [exact S|]. split; [reflexivity|]. split; [|exact FP]. intros k Hk. apply TX. intros ->. congruence.
  - intros k Hk. assert (k <> d) by (intros ->; congruence). auto.
  - intros k o _. exact (R k o).
  - exact Hw.
  - exact Logic.I.
  - intros k Hk. destruct (Nat.eq_dec k d) as [->|N]; [left; exact CD|].
    apply (Q_same s s' k Gs' (T k N) (TX k N) (CX k N) (KX k N) (R k)); [|exact (c_q s Cs k)].
    apply busy_keep; [|reflexivity]. intros u Hu. rewrite (same_owns _ _ _ S). exact Hu.
Qed.

Lemma new_bodyC s t h w w' b n r e : G s -> C s -> idle (rc s) t = true -> owns (rc s) t h = true -> nth_error (wk s) t = Some w ->
  step (rc s) (New t h) = Ok r ->
  let s' := {| rc := r; txt := txt s ++ [b]; cnt := cnt s ++ [n]; wk := upd (wk s) t w'; log := log s ++ e |} in
  G s' -> (forall k, ~ wbusy w k) -> (forall k, k <> h -> known (log s ++ e) k = known (log s) k) -> CW s' w' ->
  (n = Z.of_nat (ch b 0) \/ (n = 0 /\ known (log s ++ e) h = false)) -> C s'.
Proof.
  intros Gs Cs Hi Oh Hw E s' Gs' NB K W HN.
  destruct (r_new _ _ _ _ (g_inv s Gs) Hi Oh E) as (S & LO & T & P & R).
  assert (TN : target r h = Some (length (txt s))) by (rewrite (g_txt s Gs); exact (pend_target _ _ _ _ P)).
  assert (TX : tx s' h = b). { unfold tx. cbn [rc s']. rewrite TN. cbn [text_at txt s']. rewrite app_nth2, Nat.sub_diag by lia. reflexivity. }
  assert (CX : cx s' h = n).
  { unfold cx. cbn [rc s']. rewrite TN. cbn [count_at cnt s']. rewrite (g_txt s Gs), <- (g_cnt s Gs). rewrite app_nth2, Nat.sub_diag by lia. reflexivity. }
  assert (TO : forall k, k <> h -> tx s' k = tx s k /\ cx s' k = cx s k).
  { intros k N. unfold tx, cx. cbn [rc s']. rewrite (T k N). destruct (target (rc s) k) as [o|] eqn:Ek; [|auto].
    assert (L := target_lt _ _ _ (g_inv s Gs) Ek). cbn [text_at count_at txt cnt s']. rewrite !app_nth1; auto; [rewrite (g_cnt s Gs)|rewrite (g_txt s Gs)]; exact L. }
  assert (RR : forall k o, target (rc s) k = Some o -> (refs r o <= refs (rc s) o)%nat).
  { intros k o Tk. rewrite R; [lia|]. assert (L := target_lt _ _ _ (g_inv s Gs) Tk). lia. }
  assert (W' : nth_error (wk s') t = Some w') by (eapply nth_upd_eq; exact Hw).
  apply (preserveC s s' t w' Gs Gs' Cs).
  - split; [exact S|]. split; [intros u N; apply nth_upd_ne; congruence|]. split.
    + intros k Hk. apply TO. intros ->. congruence.
    + intros u k o N. exact (frame_pend _ _ (New t h) t (g_own s Gs) E eq_refl u k o N).
  - intros k Hk. assert (k <> h) by (intros ->; congruence). split; [apply TO; assumption|apply K; assumption].
  - intros k o _ Tk. left. exact (RR k o Tk).
  - exact W'.
  - exact W.
  - intros k Hk. destruct (Nat.eq_dec k h) as [->|N].
    + destruct HN as [HN|[HN HK]].
      * left. unfold cmp, total. rewrite CX, TX. exact HN.
      * right. split; [exists (length (objs (rc s))); split; [exact (pend_target _ _ _ _ P)|apply P]|]. split; [exact HK|]. left. rewrite CX. exact HN.
    + destruct (TO k N) as [E1 E2]. apply (Q_same s s' k Gs' (T k N) E1 E2 (K k N)); [intros o Tk; left; exact (RR k o Tk)| |exact (c_q s Cs k)].
      intros B. exfalso. exact (free_not_busy s t k w Hk Hw (NB k) B).
Qed.

Lemma thread_step_C s t s' : G s -> G s' -> C s -> thread_step s t = Ok s' -> C s'.
Proof.
  intros Gs Gs' Cs H. unfold thread_step in H. destruct (idle (rc s) t) eqn:Hi; cbn [negb] in H.
  2:{ apply obind_ok in H as (r & E & H). injection H as <-.
      destruct (r_step _ _ _ (g_inv s Gs) (g_own s Gs) E) as (S & LO & T & RR).
      destruct (nth_error (wk s) t) as [w|] eqn:Hw.
      - assert (TX : forall h, tx (set_rc s r) h = tx s h) by (intros h; unfold tx; cbn [rc set_rc]; rewrite T; reflexivity).
        assert (CX := cx_rc s r T).
        apply (preserveC s (set_rc s r) t w Gs Gs' Cs).
        + split; [exact S|]. split; [reflexivity|]. split; [intros; apply TX|].
          intros u h o N. exact (frame_pend _ _ (Step t) t (g_own s Gs) E eq_refl u h o N).
        + intros h _. split; [apply CX|reflexivity].
        + intros h o _ _. left. apply RR.
        + exact Hw.
        + assert (W := c_w s Cs t w Hw). destruct w as [|h c k|h i got|h i got fs|h fs]; cbn [CW log set_rc] in *; unfold cmp, total in *; rewrite ?CX, ?TX; exact W.
        + intros h Hh. apply (Q_same s (set_rc s r) h Gs' (T h) (TX h) (CX h) eq_refl); [intros; left; apply RR| |exact (c_q s Cs h)].
          apply busy_keep; [|reflexivity]. intros u Hu. cbn [rc set_rc]. rewrite (same_owns _ _ _ S). exact Hu.
      - apply nth_error_None in Hw. rewrite (g_wk s Gs) in Hw. apply nth_error_None in Hw. cbn [step] in E. rewrite Hw in E.
        assert (r = rc s) by congruence. subst r. destruct s; exact Cs. }
  destruct (nth_error (wk s) t) as [w|] eqn:Hw; [|assert (s' = s) by congruence; subst; exact Cs].
  assert (W := g_work s Gs t w Hw). assert (CC := c_w s Cs t w Hw).
  destruct w as [|h c k|h i got|h i got fs|h fs]; cbn [WOK] in W; [assert (s' = s) by congruence; subst; exact Cs| | | |].
  - rewrite (body_of_ok s t h Gs (proj1 W) Hi) in H. cbn [obind] in H. exact (count_step_C s t h c k s' Gs Gs' Cs Hi Hw H).
  - destruct W as (Oh & _). rewrite (body_of_ok s t h Gs Oh Hi) in H. cbn [obind] in H. cbn [CW] in CC.
    destruct (nth_error (text_at s (target (rc s) h)) i) as [x|]; injection H as <-.
    + owC Gs Gs' Cs Hw; [reflexivity|intros _; exact CC|]. qk Hw; [auto|]. intros [].
    + owC Gs Gs' Cs Hw; cbn [log set_wk add_log].
      * intros h' N. rewrite known_snoc. cbn [known_after]. apply set_ne. intros ->. congruence.
      * intros _. exact Logic.I.
      * intros h' Hh' Qh. destruct (Nat.eq_dec h' h) as [->|N]; [left; exact CC|].
        eapply Q_keep; [exact Hw|exact Hh'|eapply nth_upd_eq; exact Hw|reflexivity|reflexivity|reflexivity| | |exact Qh].
        -- cbn [log set_wk add_log]. rewrite known_snoc. cbn [known_after]. rewrite set_ne by exact N. auto.
        -- intros [].
  - destruct W as (Oh & _ & Eg & Li & Bf). rewrite (body_of_ok s t h Gs Oh Hi) in H. cbn [obind] in H. cbn [CW] in CC.
    destruct (nth_error (text_at s (target (rc s) h)) i) as [x|].
    + injection H as <-. owC Gs Gs' Cs Hw; [reflexivity|intros _; exact CC|]. qk Hw; [auto|]. intros [].
    + apply obind_ok in H as (r & E & H). injection H as <-.
      assert (EQ : set_wk (add_body (set_rc s r) got 0) t (Counting h CTest (KWrite fs)) =
        {| rc := r; txt := txt s ++ [got]; cnt := cnt s ++ [0]; wk := upd (wk s) t (Counting h CTest (KWrite fs)); log := log s ++ [] |})
        by (rewrite app_nil_r; reflexivity).
      rewrite EQ in *. eapply (new_bodyC s t h _ _ got 0 r []); eauto; rewrite ?app_nil_r; auto.
      split; [exact Logic.I|exact CC].
  - destruct W as (Oh & Bf & [o P]). rewrite (body_of_ok s t h Gs Oh Hi) in H. cbn [obind] in H. cbn [CW] in CC.
    assert (TH := pend_target _ _ _ _ P). rewrite TH in H.
    assert (LO := proj1 P). assert (R1 := proj1 (proj2 P)).
    assert (SOLE : sole (rc s) h) by (exists o; auto).
    destruct fs as [|f fs]; injection H as <-.
    + set (s' := set_wk (set_cnt s o 0) t Free) in *.
      assert (OTH : forall h2, h2 <> h -> cx s' h2 = cx s h2).
      { intros h2 N. unfold cx. change (rc s') with (rc s). destruct (target (rc s) h2) as [q|] eqn:T2; [|reflexivity]. cbn [count_at].
        unfold s'. cbn [cnt set_wk set_cnt]. apply nth_upd_ne'. intros <-. exact (N (pend_only _ _ _ _ _ P T2)). }
      assert (CXH : cx s' h = 0).
      { unfold cx. change (rc s') with (rc s). rewrite TH. cbn [count_at]. unfold s'. cbn [cnt set_wk set_cnt]. apply nth_upd_eq'. rewrite (g_cnt s Gs). exact LO. }
      apply (preserveC s s' t Free Gs Gs' Cs); [apply (only_work_frame _ _ _ Free); reflexivity| | |eapply nth_upd_eq; exact Hw|exact Logic.I|].
      * intros h2 N. split; [|reflexivity]. apply OTH. intros ->. congruence.
      * intros h2 q _ _. left. change (rc s') with (rc s). lia.
      * intros h2 Hh2. destruct (Nat.eq_dec h2 h) as [->|N]; [right; split; [exact SOLE|]; split; [exact CC|left; exact CXH]|].
        destruct (c_q s Cs h2) as [Y|(S2 & K2 & [Z2|B2])].
        -- left. unfold cmp. rewrite (OTH h2 N). exact Y.
        -- right. split; [exact S2|]. split; [exact K2|]. left. rewrite (OTH h2 N). exact Z2.
        -- exfalso. refine (free_not_busy s t h2 _ Hh2 Hw _ B2). cbn [wbusy]. congruence.
    + set (s' := set_wk (set_txt s o (f (text_at s (Some o)))) t (Writing h fs)) in *.
      assert (OTH : forall h2, h2 <> h -> tx s' h2 = tx s h2).
      { intros h2 N. unfold tx. change (rc s') with (rc s). destruct (target (rc s) h2) as [q|] eqn:T2; [|reflexivity].
        unfold s'. cbn [text_at txt set_wk set_txt]. apply nth_upd_ne'. intros <-. exact (N (pend_only _ _ _ _ _ P T2)). }
      assert (W' : nth_error (wk s') t = Some (Writing h fs)) by (eapply nth_upd_eq; exact Hw).
      apply (preserveC s s' t (Writing h fs) Gs Gs' Cs); [| | |exact W'|exact CC|].
      * split; [apply same_refl|]. split; [intros u N; apply nth_upd_ne; congruence|]. split; [|auto].
        intros k Hk. apply OTH. intros ->. congruence.
      * intros h2 N. split; reflexivity.
      * intros h2 q _ _. left. change (rc s') with (rc s). lia.
      * intros h2 Hh2. destruct (Nat.eq_dec h2 h) as [->|N].
        { right. split; [exact SOLE|]. split; [exact CC|]. right. exists t, (Writing h fs). split; [exact Oh|]. split; [exact W'|reflexivity]. }
        destruct (c_q s Cs h2) as [Y|(S2 & K2 & [Z2|B2])].
        -- left. unfold cmp, total. rewrite (OTH h2 N). exact Y.
        -- right. split; [exact S2|]. split; [exact K2|]. left. exact Z2.
        -- exfalso. refine (free_not_busy s t h2 _ Hh2 Hw _ B2). cbn [wbusy]. congruence.
Qed.

Lemma cstep_C s e s' : G s -> G s' -> C s -> byte_event e -> cstep s e = Ok s' -> counts_first (log s') -> C s'.
Proof.
  intros Gs Gs' Cs Be H CF. destruct e as [t h b|t d h|t h|t h t'|t h fs|t h|t h|t]; cbn [cstep byte_event] in *.
  - destruct (free s t && owns (rc s) t h) eqn:Cd; [|assert (s' = s) by congruence; subst; exact Cs]. apply andb_true_iff in Cd as [Hf Oh].
    destruct (free_true _ _ Hf) as [Hi Hw]. apply obind_ok in H as (r & E & H). injection H as <-.
    assert (EQ : add_log (add_body (set_rc s r) b (Z.of_nat (chars_from (length b) b 0))) (LMake h b) =
      {| rc := r; txt := txt s ++ [b]; cnt := cnt s ++ [Z.of_nat (chars_from (length b) b 0)]; wk := upd (wk s) t Free; log := log s ++ [LMake h b] |})
      by (rewrite (upd_same _ _ _ Hw); reflexivity).
    rewrite EQ in *. eapply (new_bodyC s t h Free Free b); eauto.
    + intros k N. rewrite known_snoc. cbn [known_after]. apply set_ne. exact N.
    + exact Logic.I.
    + left. unfold ch. rewrite Nat.sub_0_r. reflexivity.
  - destruct (free s t && owns (rc s) t d && owns (rc s) t h) eqn:Cd; [|assert (s' = s) by congruence; subst; exact Cs].
    apply andb_true_iff in Cd as [Cd Oh]. apply andb_true_iff in Cd as [Hf Od].
    destruct (free_true _ _ Hf) as [Hi Hw]. apply obind_ok in H as (r & E & H). injection H as <-.
    destruct (r_copy _ _ _ _ _ (g_inv s Gs) Hi Od Oh E) as (S & LO & T & TD & RR).
    assert (KH : known (log s) h = true) by exact (CF (log s) d h [] eq_refl).
    assert (CM : cmp s h). { destruct (c_q s Cs h) as [X|(_ & K & _)]; [exact X|congruence]. }
    apply (assignC s t d r _ Gs Gs' Cs Hf Od S); auto.
    + intros u k o N. exact (frame_pend _ _ (Copy t d h) t (g_own s Gs) E eq_refl u k o N).
    + intros k o Tk. destruct (target (rc s) h) as [q|] eqn:Th.
      * destruct (Nat.eq_dec q o) as [->|N]; [right; apply (cmp_target s h k); [congruence|exact CM]|left; rewrite RR by congruence; lia].
      * left. rewrite RR by discriminate. lia.
    + intros k N. cbn [known_after]. apply set_ne. exact N.
    + unfold cmp, cx, total, tx in *. cbn [rc add_log set_rc]. rewrite TD. exact CM.
  - destruct (free s t && owns (rc s) t h) eqn:Cd; [|assert (s' = s) by congruence; subst; exact Cs]. apply andb_true_iff in Cd as [Hf Oh].
    destruct (free_true _ _ Hf) as [Hi Hw]. apply obind_ok in H as (r & E & H). injection H as <-.
    destruct (r_drop _ _ _ _ Hi Oh E) as (S & LO & T & TD & RR).
    apply (assignC s t h r _ Gs Gs' Cs Hf Oh S); auto.
    + intros u k o N. exact (frame_pend _ _ (Drop t h) t (g_own s Gs) E eq_refl u k o N).
    + intros k o Tk. left. rewrite RR. lia.
    + intros k N. cbn [known_after]. apply set_ne. exact N.
    + unfold cmp, cx, total, tx. cbn [rc add_log set_rc]. rewrite TD. reflexivity.
  - destruct (free s t && owns (rc s) t h && free s t') eqn:Cd; [|assert (s' = s) by congruence; subst; exact Cs].
    apply andb_true_iff in Cd as [Cd Hf']. apply andb_true_iff in Cd as [Hf Oh].
    destruct (free_true _ _ Hf) as [Hi Hw]. destruct (free_true _ _ Hf') as [Hi' Hw'].
    apply obind_ok in H as (r & E & H). injection H as <-.
    destruct (r_give _ _ _ _ _ Hi Oh Hi' E) as (E1 & E2 & E3 & E4 & T & RR).
    assert (TX : forall k, tx (set_rc s r) k = tx s k) by (intros k; unfold tx; cbn [rc set_rc]; rewrite T; reflexivity).
    assert (CX := cx_rc s r T). constructor.
    + intros k. apply (Q_same s (set_rc s r) k Gs' (T k) (TX k) (CX k) eq_refl); [intros o _; left; cbn [rc set_rc]; rewrite RR; lia| |exact (c_q s Cs k)].
      intros (u & w & A & B & D). destruct (Nat.eq_dec k h) as [->|N].
      * exfalso. assert (u = t) by exact (owns_uniq _ _ _ _ A Oh). subst u. rewrite Hw in B. injection B as <-. exact D.
      * exists u, w. split; [|split; [exact B|exact D]]. unfold owns in *. cbn [rc set_rc]. rewrite E4, nth_upd_ne by congruence. exact A.
    + intros u w Hu. assert (W := c_w s Cs u w Hu).
      destruct w as [|k c kk|k i got|k i got fs|k fs]; cbn [CW log set_rc] in *; unfold cmp, total in *; rewrite ?CX, ?TX; exact W.
  - destruct (free s t && owns (rc s) t h) eqn:Cd; [|assert (s' = s) by congruence; subst; exact Cs]. apply andb_true_iff in Cd as [Hf Oh].
    destruct (free_true _ _ Hf) as [Hi Hw].
    assert (EX : exists k, s' = set_wk (add_log s (LEdit h fs)) t (Counting h CTest k)).
    { destruct (nth_error (slots (rc s)) h) as [[o|]|]; [| |discriminate].
      - apply obind_ok in H as (ob & _ & H). injection H as <-. eauto.
      - injection H as <-. eauto. }
    destruct EX as [k ->].
    assert (KN : forall h', known (log s ++ [LEdit h fs]) h' = if Nat.eqb h' h then false else known (log s) h').
    { intros h'. rewrite known_snoc. reflexivity. }
    owC Gs Gs' Cs Hw; cbn [log set_wk add_log].
    + intros h' N. rewrite KN. destruct (Nat.eqb_spec h' h); [congruence|reflexivity].
    + intros _. cbn [CW log set_wk add_log]. rewrite KN, Nat.eqb_refl. split; [exact Logic.I|]. destruct k; auto.
    + qk Hw.
      * cbn [log set_wk add_log]. rewrite KN. destruct (Nat.eqb h' h); auto.
      * intros [].
  - destruct (free s t && owns (rc s) t h) eqn:Cd; [|assert (s' = s) by congruence; subst; exact Cs]. apply andb_true_iff in Cd as [Hf Oh].
    destruct (free_true _ _ Hf) as [Hi Hw]. injection H as <-.
    owC Gs Gs' Cs Hw; [reflexivity|intros _; split; exact Logic.I|]. qk Hw; [auto|]. intros [].
  - destruct (free s t && owns (rc s) t h) eqn:Cd; [|assert (s' = s) by congruence; subst; exact Cs]. apply andb_true_iff in Cd as [Hf Oh].
    destruct (free_true _ _ Hf) as [Hi Hw]. injection H as <-.
    owC Gs Gs' Cs Hw; [reflexivity|intros _; split; exact Logic.I|]. qk Hw; [auto|]. intros [].
  - exact (thread_step_C s t s' Gs Gs' Cs H).
Qed.

Lemma init_C nt owners : C (cinit nt owners).
Proof.
  assert (TN : forall h, target (init nt owners) h = None).
  { intros h. unfold target. cbn [init owner pcs]. destruct (nth_error owners h) as [u|]; [|reflexivity].
    assert (SL : slot_of (init nt owners) h = None).
    { unfold slot_of. simpl. destruct (nth_error (repeat None (length owners)) h) as [v|] eqn:Es; [|reflexivity]. apply nth_repeat in Es. exact Es. }
    rewrite SL. destruct (nth_error (repeat Idle nt) u) as [p|] eqn:Ep; [apply nth_repeat in Ep; subst p|]; reflexivity. }
  constructor.
  - intros h. left. unfold cmp, cx, total, tx. cbn [rc cinit]. rewrite TN. reflexivity.
  - intros t w H. apply nth_repeat in H. subst. exact Logic.I.
Qed.

Lemma crun_log es : forall s s', G s -> Forall byte_event es -> crun s es = Ok s' -> exists l, log s' = log s ++ l.
Proof.
  induction es as [|e es IH]; intros s s' Gs F H; [injection H as <-; exists []; rewrite app_nil_r; reflexivity|].
  inversion F as [|? ? F1 F2]; subst. cbn [crun] in H. apply obind_ok in H as (s1 & E & H).
  destruct (cstep_G s e Gs F1) as (s1' & E1 & G1). assert (s1' = s1) by congruence. subst s1'.
  destruct (IH s1 s' G1 F2 H) as [l EL]. destruct (cstep_log s e s1 Gs E) as [E2|(en & E2 & _)]; rewrite EL, E2; [eauto|].
  exists ([en] ++ l). rewrite <- app_assoc. reflexivity.
Qed.

Lemma counts_first_app l l' : counts_first (l ++ l') -> counts_first l.
Proof. intros H l1 d s l2 ->. apply (H l1 d s (l2 ++ l')). rewrite <- app_assoc. reflexivity. Qed.

Definition counts_ok (l : list entry) : Prop :=
  forall l1 t h n l2, l = l1 ++ LCount t h n :: l2 -> n = Z.of_nat (ch (value l1 h) 0).

Lemma crun_C es : forall s s', G s -> C s -> Forall byte_event es -> counts_ok (log s) -> crun s es = Ok s' -> counts_first (log s') ->
  C s' /\ counts_ok (log s').
Proof.
  induction es as [|e es IH]; intros s s' Gs Cs F R H CF; [injection H as <-; auto|].
  inversion F as [|? ? F1 F2]; subst. cbn [crun] in H. apply obind_ok in H as (s1 & E & H).
  destruct (cstep_G s e Gs F1) as (s1' & E1 & G1). assert (s1' = s1) by congruence. subst s1'.
  destruct (crun_log es s1 s' G1 F2 H) as [l EL].
  assert (CF1 : counts_first (log s1)) by (rewrite EL in CF; exact (counts_first_app _ _ CF)).
  assert (C1 := cstep_C s e s1 Gs G1 Cs F1 E CF1).
  apply (IH s1 s' G1 C1 F2); [|exact H|exact CF].
  destruct (cstep_log s e s1 Gs E) as [E2|(en & E2 & K)]; rewrite E2; [exact R|].
  intros l1 t h n l2 X. apply snoc_split in X as [(_ & <- & ->)|(l2' & X)]; [|exact (R _ _ _ _ _ X)].
  destruct K as (V & -> & Hw). assert (W := c_w s Cs _ _ Hw). cbn [CW] in W. destruct W as [W _]. rewrite V. exact W.
Qed.

Lemma no_count_race s t u a b o : G s -> C s -> t <> u -> about_to s t a o -> about_to s u b o -> ~ count_conflict a b.
Proof.
  intros Gs Cs N A B X.
  assert (KEY : forall t u b, t <> u -> about_to s t CountWrite o -> about_to s u b o -> b <> Destroy -> False).
  { clear - Gs Cs. intros t u b N A B Nb.
    destruct (about_uses _ _ _ _ Gs B) as [(Eb & _)|(_ & k & Ok' & Tk & _)]; [contradiction|].
    destruct (about_uses _ _ _ _ Gs A) as [(Eb & _)|(_ & h & Oh & Th & _)]; [discriminate|].
    assert (SOLE : exists h', owns (rc s) t h' = true /\ target (rc s) h' = Some o /\ refs (rc s) o = 1%nat).
    { unfold about_to in A. destruct (nth_error (pcs (rc s)) t) as [p|] eqn:Hp; [|contradiction]. destruct p; try contradiction; [|destruct A; discriminate].
      destruct A as (h' & Hs & A). destruct (nth_error (wk s) t) as [w|] eqn:Hw; [|contradiction].
      assert (Hi : idle (rc s) t = true) by (unfold idle; rewrite Hp; reflexivity).
      assert (W := g_work s Gs t w Hw). assert (CC := c_w s Cs t w Hw).
      assert (TG : owns (rc s) t h' = true -> target (rc s) h' = Some o) by (intros O'; rewrite (target_idle _ _ _ O' Hi); unfold slot_of; rewrite Hs; reflexivity).
      destruct w as [|hh c kk|hh i got|hh i got fs|hh fs]; [contradiction| |destruct A; discriminate|destruct A; discriminate|].
      - destruct A as [-> A]. destruct c as [|i|i|i v|]; try discriminate. cbn [WOK CW] in *. destruct W as (O' & _). destruct CC as [[E1 E2] _].
        exists h'. split; [exact O'|]. split; [exact (TG O')|]. destruct (c_q s Cs h') as [Y|((q & T & R) & _)]; [unfold cmp in Y; lia|].
        assert (T2 := TG O'). congruence.
      - cbn [WOK] in W. destruct W as (O' & _ & [q P]). destruct fs as [|f fs]; [|destruct A as [_ [A|A]]; discriminate].
        destruct A as [-> _]. exists h'. split; [exact O'|]. split; [exact (TG O')|]. assert (T2 := pend_target _ _ _ _ P). rewrite (TG O') in T2.
        assert (q = o) by congruence. subst q. apply P. }
    destruct SOLE as (h' & O' & T' & R). assert (h' = k) by exact (sole_only _ _ _ _ (g_inv s Gs) R T' Tk). subst k.
    exact (N (owns_uniq _ _ _ _ O' Ok')). }
  assert (Y : a = CountWrite /\ b <> Destroy \/ b = CountWrite /\ a <> Destroy) by (destruct a, b; simpl in X; try contradiction; intuition discriminate).
  destruct Y as [[-> Y]|[-> Y]]; [exact (KEY t u b N A B Y)|]. exact (KEY u t a (not_eq_sym N) B A Y).
Qed.
