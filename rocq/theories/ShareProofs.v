(** Proofs for C55: arrays and maps shared by several threads. *)
From Verif Require Import Base RefModel RefSpec RefProofs ConcProofs ShareModel ShareSpec.

Section Proofs.
Context {A : Type}.
Implicit Types s : sstate A.

Definition bt s (h : nat) : list A := text_at s (target (rc s) h).
Definition cut (v : option (nat * nat)) (b : list A) : list A :=
  match v with Some (o, n) => firstn n (skipn o b) | None => b end.
Definition fits (v : option (nat * nat)) (b : list A) : Prop :=
  match v with Some (o, n) => (o + n <= length b)%nat | None => True end.
Definition el s (h : nat) : list A := cut (view s h) (bt s h).
Definition samelen (f : edit A) : Prop := forall l, length (f l) = length l.

Lemma cut_length v b : fits v b -> length (cut v b) = snd (bounds v b).
Proof. destruct v as [[o n]|]; simpl; auto. intros H. rewrite firstn_length, skipn_length. lia. Qed.

Lemma nth_error_skip {B} (l : list B) o i : nth_error (skipn o l) i = nth_error l (o + i).
Proof. revert l; induction o as [|o IH]; intros [|a l]; simpl; auto. destruct i; reflexivity. Qed.

Lemma nth_error_first {B} (l : list B) n i : (i < n)%nat -> nth_error (firstn n l) i = nth_error l i.
Proof. revert l i; induction n as [|n IH]; intros [|a l] [|i] H; simpl; auto; try lia. apply IH. lia. Qed.

Lemma elem_cut v b i : fits v b -> elem_at v b i = Ok (nth_error (cut v b) i).
Proof.
  intros F. assert (L := cut_length v b F). unfold elem_at. destruct (bounds v b) as [o n] eqn:E. simpl in L.
  destruct (Nat.ltb_spec i n) as [H|H].
  - assert (X : nth_error b (o + i) = nth_error (cut v b) i).
    { destruct v as [[o' n']|]; simpl in E; injection E as <- <-; [|reflexivity].
      cbn [cut]. rewrite nth_error_first by lia. symmetry. apply nth_error_skip. }
    rewrite X. destruct (nth_error (cut v b) i) eqn:Y; [reflexivity|]. apply nth_error_None in Y. lia.
  - f_equal. symmetry. apply nth_error_None. lia.
Qed.

Lemma write_cut v b f : fits v b -> v = None \/ samelen f -> cut v (write_at v b f) = f (cut v b) /\ fits v (write_at v b f).
Proof.
  intros F S. destruct v as [[o n]|]; unfold write_at; cbn [bounds cut fits] in *.
  - destruct S as [S|S]; [discriminate|].
    assert (L1 : length (firstn o b) = o) by (rewrite firstn_length; lia).
    assert (L2 : length (f (firstn n (skipn o b))) = n) by (rewrite S, firstn_length, skipn_length; lia).
    split.
    + rewrite skipn_app, L1, Nat.sub_diag. rewrite skipn_all2 by lia. cbn [app skipn].
      rewrite firstn_app, L2, Nat.sub_diag. cbn [firstn]. rewrite app_nil_r. apply firstn_all2. lia.
    + rewrite !app_length, L1, L2. lia.
  - split; [|exact Logic.I]. cbn [firstn skipn app Nat.add]. rewrite firstn_all, skipn_all, app_nil_r. reflexivity.
Qed.

(** ** The invariant *)
Definition WOK s (t : nat) (w : work A) : Prop :=
  match w with
  | Free => True
  | Reading h i got | Copying h i got _ =>
      owns (rc s) t h = true /\ idle (rc s) t = true /\ got = firstn i (el s h) /\ (i <= length (el s h))%nat
  | Finding h f _ => owns (rc s) t h = true /\ idle (rc s) t = true /\ view s h = None /\ f (el s h) = None
  | Poking _ _ _ => False
  | Writing h fs => owns (rc s) t h = true /\ (view s h = None \/ Forall samelen fs) /\ exists o, Pend (rc s) t h o
  end.

(** The part of an edit that is still to be done to handle [h]. *)
Definition wpend (w : work A) (h : nat) : list (edit A) :=
  match w with
  | Copying h' _ _ fs | Writing h' fs | Finding h' _ fs => if Nat.eqb h' h then fs else []
  | _ => []
  end.

Definition pending s (h : nat) : list (edit A) :=
  match nth_error (owner (rc s)) h with
  | Some u => match nth_error (wk s) u with Some w => wpend w h | None => [] end
  | None => []
  end.

Definition fut s (h : nat) : list A := all_of (pending s h) (el s h).

Record G s : Prop := {
  g_inv : Inv (rc s);
  g_own : Own (rc s);
  g_mem : length (mem s) = length (objs (rc s));
  g_vw : length (vw s) = length (owner (rc s));
  g_wk : length (wk s) = length (pcs (rc s));
  g_fits : forall h, fits (view s h) (bt s h);
  g_work : forall t w, nth_error (wk s) t = Some w -> WOK s t w;
  g_val : forall h, fut s h = value (log s) h }.

Lemma pending_owned s t h w : owns (rc s) t h = true -> nth_error (wk s) t = Some w -> pending s h = wpend w h.
Proof.
  unfold owns, pending. destruct (nth_error (owner (rc s)) h) as [u|]; [|discriminate]. intros E. apply Nat.eqb_eq in E. subst u.
  intros ->. reflexivity.
Qed.

(** What thread [t]'s action leaves alone. *)
Definition Frame s s' (t : nat) : Prop :=
  same_other (rc s) (rc s') t /\
  (forall u, u <> t -> nth_error (wk s') u = nth_error (wk s) u) /\
  (forall h, owns (rc s) t h = false -> bt s' h = bt s h /\ view s' h = view s h) /\
  (forall u h o, u <> t -> Pend (rc s) u h o -> Pend (rc s') u h o).

Lemma frame_el s s' t h : Frame s s' t -> owns (rc s) t h = false -> el s' h = el s h.
Proof. intros (_ & _ & F & _) H. unfold el. destruct (F h H) as [-> ->]. reflexivity. Qed.

Lemma frame_wok s s' t u w : Frame s s' t -> u <> t -> WOK s u w -> WOK s' u w.
Proof.
  intros F N. assert (FE := frame_el s s' t). destruct F as (S & FW & FT & FP).
  assert (FO : forall h, owns (rc s) u h = true -> owns (rc s') u h = true) by (intros h H; rewrite (same_owns _ _ _ S); exact H).
  assert (FI : idle (rc s) u = true -> idle (rc s') u = true).
  { intros H. unfold idle in *. destruct S as (_ & _ & _ & EP & _). rewrite (EP u N). exact H. }
  assert (FX : forall h, owns (rc s) u h = true -> el s' h = el s h).
  { intros h H. apply FE; [exact (conj S (conj FW (conj FT FP)))|exact (owns_other _ _ _ _ H N)]. }
  assert (FV : forall h, owns (rc s) u h = true -> view s' h = view s h) by (intros h H; apply FT; exact (owns_other _ _ _ _ H N)).
  destruct w as [|h i got|h f fs|h f fs|h i got fs|h fs]; cbn [WOK]; auto.
  - intros (B1 & B & C & D). rewrite (FX h B1). auto.
  - intros (B1 & B & C & D). rewrite (FX h B1), (FV h B1). auto.
  - intros (B1 & B & C & D). rewrite (FX h B1). auto.
  - intros (B1 & B & [o C]). rewrite (FV h B1). split; [auto|]. split; [exact B|]. exists o. apply FP; assumption.
Qed.

Lemma preserve s s' t w' : G s -> Inv (rc s') -> Own (rc s') ->
  length (mem s') = length (objs (rc s')) -> length (vw s') = length (vw s) -> length (wk s') = length (wk s) ->
  Frame s s' t -> nth_error (wk s') t = Some w' -> WOK s' t w' ->
  (forall h, owns (rc s) t h = true -> fits (view s' h) (bt s' h)) ->
  (forall h, owns (rc s) t h = true -> all_of (wpend w' h) (el s' h) = value (log s') h) ->
  (forall h, owns (rc s) t h = false -> value (log s') h = value (log s) h) -> G s'.
Proof.
  intros Gs I O L1 L2 L3 F Hw W V0 V1 V2. assert (FE := frame_el s s' t). assert (F0 := F). destruct F as (S & FW & FT & FP).
  destruct Gs as [GI GO G1 G2 G3 GF GW GV].
  constructor; auto.
  - rewrite L2, G2. destruct S as (E & _). congruence.
  - rewrite L3, G3. destruct S as (_ & _ & E & _). congruence.
  - intros h. destruct (owns (rc s) t h) eqn:E; [auto|]. destruct (FT h E) as [-> ->]. apply GF.
  - intros u w Hu. destruct (Nat.eq_dec u t) as [->|N]; [rewrite Hw in Hu; injection Hu as <-; exact W|].
    rewrite (FW u N) in Hu. apply (frame_wok s s' t); [exact F0|exact N|exact (GW u w Hu)].
  - intros h. destruct (owns (rc s) t h) eqn:E.
    + unfold fut. rewrite (pending_owned s' t h w'); [|rewrite (same_owns _ _ _ S); exact E|exact Hw]. apply V1. exact E.
    + rewrite (V2 h E), <- GV. unfold fut. rewrite (FE h F0 E). f_equal. unfold pending.
      destruct S as (EO & _). rewrite EO. unfold owns in E. destruct (nth_error (owner (rc s)) h) as [u|]; [|reflexivity].
      apply Nat.eqb_neq in E. rewrite (FW u E). reflexivity.
Qed.

Lemma free_true s t : free s t = true -> idle (rc s) t = true /\ nth_error (wk s) t = Some Free.
Proof.
  unfold free. intros H. apply andb_true_iff in H as [H1 B]. split; [exact H1|].
  destruct (nth_error (wk s) t) as [w|]; [|discriminate]. destruct w; try discriminate. reflexivity.
Qed.

(** A thread changes only what it is doing (and perhaps the log). *)
Lemma only_work s s' t w w' : G s -> nth_error (wk s) t = Some w ->
  rc s' = rc s -> mem s' = mem s -> vw s' = vw s -> wk s' = upd (wk s) t w' ->
  (WOK s t w -> WOK s t w') ->
  (forall h, owns (rc s) t h = true -> all_of (wpend w h) (el s h) = value (log s) h ->
     all_of (wpend w' h) (el s h) = value (log s') h) ->
  (forall h, owns (rc s) t h = false -> value (log s') h = value (log s) h) -> G s'.
Proof.
  intros Gs Hw E1 E2 E3 E4 W V1 V2.
  assert (EB : forall h, bt s' h = bt s h) by (intros h; unfold bt, text_at; rewrite E1, E2; reflexivity).
  assert (EV : forall h, view s' h = view s h) by (intros h; unfold view; rewrite E3; reflexivity).
  assert (ET : forall h, el s' h = el s h) by (intros h; unfold el; rewrite EB, EV; reflexivity).
  apply (preserve s s' t w' Gs); rewrite ?E1, ?E2; try apply Gs.
  - rewrite E3. reflexivity.
  - rewrite E4. apply upd_length.
  - split; [rewrite E1; apply same_refl|]. split; [intros u N; rewrite E4; apply nth_upd_ne; congruence|].
    split; [intros; auto|]. rewrite E1. auto.
  - rewrite E4. eapply nth_upd_eq. exact Hw.
  - assert (X := W (g_work s Gs t w Hw)). destruct w' as [|h i got|h f fs|h f fs|h i got fs|h fs]; cbn [WOK] in *; rewrite ?E1, ?ET, ?EV; exact X.
  - intros h _. rewrite EB, EV. apply Gs.
  - intros h Oh. rewrite ET. apply V1; [exact Oh|]. rewrite <- (g_val s Gs). unfold fut. rewrite (pending_owned s t h w Oh Hw). reflexivity.
  - exact V2.
Qed.

Lemma value_snoc l (e : entry A) : value (l ++ [e]) = after (value l) e.
Proof. unfold value. rewrite fold_left_app. reflexivity. Qed.

Lemma put_eq {B} (v : nat -> B) h x : put_in v h x h = x.
Proof. unfold put_in. rewrite Nat.eqb_refl. reflexivity. Qed.
Lemma put_ne {B} (v : nat -> B) h x k : k <> h -> put_in v h x k = v k.
Proof. unfold put_in. intros N. destruct (Nat.eqb_spec k h); congruence. Qed.

(** The slot of a handle whose owner is idle holds its target, alive. *)
Lemma body_of_ok s t h : G s -> owns (rc s) t h = true -> idle (rc s) t = true -> body_of s h = Ok (target (rc s) h).
Proof.
  intros Gs Oh Hi. assert (I := g_inv s Gs). unfold body_of. rewrite (target_idle _ _ _ Oh Hi). unfold slot_of.
  destruct (nth_error (slots (rc s)) h) as [[o|]|] eqn:E; [|reflexivity|].
  - destruct (access_ok (rc s) o I (or_introl (slot_refs _ _ _ E))) as (ob & _ & X & _). rewrite X. reflexivity.
  - apply nth_error_None in E. assert (L := owns_lt _ _ _ I Oh). lia.
Qed.

Lemma rc_step_ok s e : G s -> exists r, step (rc s) e = Ok r /\ Inv r /\ Own r.
Proof.
  intros Gs. destruct (step_inv (rc s) e (g_inv s Gs)) as (r & E & I). exists r. split; [exact E|]. split; [exact I|].
  exact (step_own _ _ _ (g_own s Gs) E).
Qed.

Lemma thread_rc s t : G s -> idle (rc s) t = false ->
  exists r, step (rc s) (Step t) = Ok r /\ G (set_rc s r).
Proof.
  intros Gs Hi. destruct (rc_step_ok s (Step t) Gs) as (r & E & I & O). exists r. split; [exact E|].
  destruct (nth_error (wk s) t) as [w|] eqn:Hw.
  - destruct (r_step _ _ _ (g_inv s Gs) (g_own s Gs) E) as (S & LO & T & _).
    assert (EB : forall h, bt (set_rc s r) h = bt s h) by (intros h; unfold bt; cbn [rc set_rc]; rewrite T; reflexivity).
    assert (ET : forall h, el (set_rc s r) h = el s h) by (intros h; unfold el; rewrite EB; reflexivity).
    apply (preserve s (set_rc s r) t w Gs I O); cbn [mem vw wk log rc set_rc]; auto.
    + rewrite LO. apply Gs.
    + split; [exact S|]. split; [reflexivity|]. split; [intros; split; [apply EB|reflexivity]|]. cbn [rc set_rc].
      intros u h o N. exact (frame_pend _ _ (Step t) t (g_own s Gs) E eq_refl u h o N).
    + assert (W := g_work s Gs t w Hw). assert (SO := same_owns _ _ _ S).
      destruct w as [|h i got|h f fs|h f fs|h i got fs|h fs]; cbn [WOK] in *; auto; try (destruct W as (_ & B & _); congruence).
      destruct W as (H1 & B & [o C]). cbn [rc set_rc]. rewrite SO. split; [exact H1|]. split; [exact B|]. exists o. exact (pend_self _ _ _ _ _ (g_inv s Gs) C E).
    + intros h _. rewrite EB. apply Gs.
    + intros h Oh. rewrite ET, <- (g_val s Gs). unfold fut. rewrite (pending_owned s t h w Oh Hw). reflexivity.
  - apply nth_error_None in Hw. rewrite (g_wk s Gs) in Hw. apply nth_error_None in Hw. cbn [step] in E. rewrite Hw in E.
    assert (r = rc s) by congruence. subst r. destruct s; exact Gs.
Qed.

Lemma all_nil (b : list A) : all_of [] b = b. Proof. reflexivity. Qed.

Lemma view_upd_eq s h v : (h < length (vw s))%nat -> nth h (upd (vw s) h v) None = v.
Proof. intros. apply nth_upd_eq'. assumption. Qed.

Lemma owns_view s t h : G s -> owns (rc s) t h = true -> (h < length (vw s))%nat.
Proof. intros Gs H. rewrite (g_vw s Gs). unfold owns in H. destruct (nth_error (owner (rc s)) h) eqn:E; [|discriminate]. apply nth_error_Some. congruence. Qed.

Lemma new_body_G s t h w w' b r e : G s -> idle (rc s) t = true -> owns (rc s) t h = true -> nth_error (wk s) t = Some w ->
  step (rc s) (New t h) = Ok r ->
  (forall k, k <> h -> wpend w k = [] /\ wpend w' k = []) ->
  let s' := {| rc := r; mem := mem s ++ [b]; vw := upd (vw s) h None; wk := upd (wk s) t w'; log := log s ++ e |} in
  (WOK s' t w') -> value (log s ++ e) h = all_of (wpend w' h) b -> (forall k, k <> h -> value (log s ++ e) k = value (log s) k) ->
  G s'.
Proof.
  intros Gs Hi Oh Hw E WP s' W V VO.
  destruct (r_new _ _ _ _ (g_inv s Gs) Hi Oh E) as (S & LO & T & P & _).
  destruct (step_inv (rc s) (New t h) (g_inv s Gs)) as (r' & E' & I). rewrite E in E'. assert (r' = r) by congruence. subst r'. clear E'.
  assert (O := step_own _ _ _ (g_own s Gs) E).
  assert (TN : target r h = Some (length (mem s))) by (rewrite (g_mem s Gs); exact (pend_target _ _ _ _ P)).
  assert (BX : bt s' h = b). { unfold bt. cbn [rc s']. rewrite TN. cbn [text_at mem s']. rewrite app_nth2, Nat.sub_diag by lia. reflexivity. }
  assert (VX : view s' h = None) by (unfold view; cbn [vw s']; apply view_upd_eq; exact (owns_view s t h Gs Oh)).
  assert (BO : forall k, k <> h -> bt s' k = bt s k).
  { intros k N. unfold bt. cbn [rc s']. rewrite (T k N). destruct (target (rc s) k) as [o|] eqn:Ek; [|reflexivity].
    cbn [text_at mem s']. apply app_nth1. rewrite (g_mem s Gs). exact (target_lt _ _ _ (g_inv s Gs) Ek). }
  assert (VW : forall k, k <> h -> view s' k = view s k) by (intros k N; unfold view; cbn [vw s']; apply nth_upd_ne'; congruence).
  apply (preserve s s' t w' Gs); auto; cbn [rc mem vw wk log s'].
  - rewrite app_length, LO, (g_mem s Gs). simpl. lia.
  - apply upd_length.
  - apply upd_length.
  - split; [exact S|]. split; [intros u N; simpl; apply nth_upd_ne; congruence|]. split.
    + intros k Ok'. assert (k <> h) by (intros ->; congruence). auto.
    + intros u k o N. exact (frame_pend _ _ (New t h) t (g_own s Gs) E eq_refl u k o N).
  - eapply nth_upd_eq. exact Hw.
  - intros k Hk. destruct (Nat.eq_dec k h) as [->|N]; [rewrite VX; exact Logic.I|]. rewrite (BO k N), (VW k N). apply Gs.
  - intros k Hk. destruct (Nat.eq_dec k h) as [->|N]; [unfold el; rewrite BX, VX; cbn [cut]; congruence|].
    unfold el. rewrite (BO k N), (VW k N), (VO k N). destruct (WP k N) as [X B]. rewrite B.
    rewrite <- (g_val s Gs). unfold fut. rewrite (pending_owned s t k w Hk Hw), X. reflexivity.
  - intros k Hk. apply VO. intros ->. congruence.
Qed.

(** A handle whose owner is free is not being edited. *)
Lemma value_idle s t h w : G s -> owns (rc s) t h = true -> nth_error (wk s) t = Some w -> wpend w h = [] -> value (log s) h = el s h.
Proof. intros Gs Oh Hw Hp. rewrite <- (g_val s Gs). unfold fut. rewrite (pending_owned s t h w Oh Hw), Hp. reflexivity. Qed.

Ltac split_and := repeat match goal with |- _ /\ _ => split end.
Ltac ow := eapply only_work; [eassumption|eassumption|reflexivity|reflexivity|reflexivity|reflexivity| | |].

Lemma firstn_snoc {B} (l : list B) i x : nth_error l i = Some x -> firstn (S i) l = firstn i l ++ [x].
Proof.
  revert i; induction l as [|a l IH]; intros [|i] H; try discriminate; simpl in *; [congruence|]. rewrite (IH i H). reflexivity.
Qed.

(** Unshare: the handle is the only reference, or a copy is started. *)
Lemma shared_ok s t h : G s -> owns (rc s) t h = true -> idle (rc s) t = true ->
  exists sh, is_shared s h = Ok sh /\ (sh = false -> exists o, Pend (rc s) t h o).
Proof.
  intros Gs Oh Hi. assert (L := owns_lt _ _ _ (g_inv s Gs) Oh). unfold is_shared.
  destruct (nth_error (slots (rc s)) h) as [[o|]|] eqn:E; [| |apply nth_error_None in E; lia].
  - destruct (access_ok (rc s) o (g_inv s Gs) (or_introl (slot_refs _ _ _ E))) as (ob & Hob & X & _ & Co). rewrite X. cbn [obind].
    eexists; split; [reflexivity|]. intros H. apply negb_false_iff in H. apply Z.leb_le in H.
    exists o. assert (R := slot_refs _ _ _ E). split; [apply nth_error_Some; congruence|]. split; [lia|]. split; [exact Oh|].
    exists Idle. split; [exact (idle_true _ _ Hi)|]. right; right. auto.
  - eexists; split; [reflexivity|]. discriminate.
Qed.

Lemma unshare_G s1 s t w h fs : G s -> owns (rc s) t h = true -> idle (rc s) t = true -> nth_error (wk s) t = Some w ->
  rc s1 = rc s -> mem s1 = mem s -> vw s1 = vw s -> wk s1 = wk s ->
  (forall sh, is_shared s h = Ok sh -> sh = true \/ view s h = None \/ Forall samelen fs) ->
  (forall k, k <> h -> wpend w k = []) ->
  value (log s1) h = all_of fs (el s h) -> (forall k, k <> h -> value (log s1) k = value (log s) k) ->
  exists s', unshare s1 t h fs = Ok s' /\ G s'.
Proof.
  intros Gs Oh Hi Hw E1 E2 E3 E4 K WP V VO.
  destruct (shared_ok s t h Gs Oh Hi) as (sh & Es & P). unfold unshare.
  assert (Es1 : is_shared s1 h = Ok sh) by (unfold is_shared, access in *; rewrite E1; exact Es). rewrite Es1. cbn [obind].
  eexists; split; [reflexivity|].
  apply (only_work s _ t w (if sh then Copying h 0 [] fs else Writing h fs) Gs Hw); cbn [rc mem vw wk log set_wk]; auto; try congruence.
  - intros _. destruct sh; cbn [WOK].
    + split_and; auto. lia.
    + split_and; auto. destruct (K false Es) as [X|X]; [discriminate|exact X].
  - intros k Hk V0. destruct (Nat.eq_dec k h) as [->|N].
    + rewrite V. destruct sh; cbn [wpend]; rewrite Nat.eqb_refl; reflexivity.
    + rewrite (VO k N), <- V0, (WP k N). destruct sh; cbn [wpend]; destruct (Nat.eqb_spec h k); try congruence; reflexivity.
  - intros k Hk. apply VO. intros ->. congruence.
Qed.

Lemma thread_step_G s t : G s -> exists s', thread_step s t = Ok s' /\ G s'.
Proof.
  intros Gs. unfold thread_step. destruct (idle (rc s) t) eqn:Hi; cbn [negb].
  2:{ destruct (thread_rc s t Gs Hi) as (r & E & X). rewrite E. cbn [obind]. eauto. }
  destruct (nth_error (wk s) t) as [w|] eqn:Hw; [|eauto].
  assert (W := g_work s Gs t w Hw).
  destruct w as [|h i got|h f fs|h f fs|h i got fs|h fs]; cbn [WOK] in W; [eauto| | |contradiction| |].
  - destruct W as (Oh & _ & Eg & Li). rewrite (body_of_ok s t h Gs Oh Hi). cbn [obind]. fold (bt s h).
    rewrite (elem_cut _ _ i (g_fits s Gs h)). cbn [obind]. fold (el s h).
    destruct (nth_error (el s h) i) as [x|] eqn:Ex; (eexists; split; [reflexivity|]); ow; auto.
    + intros _. cbn [WOK]. split_and; auto; [rewrite (firstn_snoc _ _ _ Ex); congruence|].
      assert (i < length (el s h))%nat by (apply nth_error_Some; congruence). lia.
    + intros _. exact Logic.I.
    + intros h' _ V. cbn [log add_log set_wk]. rewrite value_snoc. exact V.
    + intros h' _. cbn [log add_log set_wk]. rewrite value_snoc. reflexivity.
  - destruct W as (Oh & _ & Vh & Ef). rewrite (body_of_ok s t h Gs Oh Hi). cbn [obind].
    assert (Eb : text_at s (target (rc s) h) = el s h) by (unfold el; rewrite Vh; reflexivity). rewrite Eb, Ef.
    apply (unshare_G s s t _ h fs Gs Oh Hi Hw); auto.
    + intros k N. cbn [wpend]. destruct (Nat.eqb_spec h k); congruence.
    + rewrite <- (g_val s Gs). unfold fut. rewrite (pending_owned s t h _ Oh Hw). cbn [wpend]. rewrite Nat.eqb_refl. reflexivity.
  - destruct W as (Oh & _ & Eg & Li). rewrite (body_of_ok s t h Gs Oh Hi). cbn [obind]. fold (bt s h).
    rewrite (elem_cut _ _ i (g_fits s Gs h)). cbn [obind]. fold (el s h).
    destruct (nth_error (el s h) i) as [x|] eqn:Ex.
    + eexists; split; [reflexivity|]. ow; auto.
      intros _. cbn [WOK]. split_and; auto; [rewrite (firstn_snoc _ _ _ Ex); congruence|].
      assert (i < length (el s h))%nat by (apply nth_error_Some; congruence). lia.
    + destruct (rc_step_ok s (New t h) Gs) as (r & E & I & O). rewrite E. cbn [obind]. eexists; split; [reflexivity|].
      assert (Hg : got = el s h). { apply nth_error_None in Ex. rewrite Eg. apply firstn_all2. exact Ex. }
      destruct (r_new _ _ _ _ (g_inv s Gs) Hi Oh E) as (S & LO & T & P & _).
      replace (set_wk (set_vw (add_body (set_rc s r) got) h None) t (Writing h fs))
        with {| rc := r; mem := mem s ++ [got]; vw := upd (vw s) h None; wk := upd (wk s) t (Writing h fs); log := log s ++ [] |}
        by (rewrite app_nil_r; reflexivity).
      eapply (new_body_G s t h _ _ got r []); eauto; rewrite ?app_nil_r; auto.
      * intros k N. cbn [wpend]. destruct (Nat.eqb_spec h k); [congruence|auto].
      * cbn [WOK rc]. split_and; [rewrite (same_owns _ _ _ S); exact Oh| |eauto].
        left. unfold view. cbn [vw]. apply view_upd_eq. exact (owns_view s t h Gs Oh).
      * cbn [wpend]. rewrite Nat.eqb_refl, Hg. rewrite <- (g_val s Gs). unfold fut. rewrite (pending_owned s t h _ Oh Hw). cbn [wpend]. rewrite Nat.eqb_refl. reflexivity.
  - destruct W as (Oh & Bf & [o P]). rewrite (body_of_ok s t h Gs Oh Hi). cbn [obind].
    assert (TH := pend_target _ _ _ _ P). rewrite TH.
    assert (LO : (o < length (mem s))%nat) by (rewrite (g_mem s Gs); apply P).
    destruct fs as [|f fs].
    + eexists; split; [reflexivity|]. ow; cbn [WOK wpend]; auto. intros h' _ V. destruct (Nat.eqb h h'); exact V.
    + eexists; split; [reflexivity|].
      assert (Bf1 : view s h = None \/ samelen f) by (destruct Bf as [B|B]; [auto|inversion B; auto]).
      assert (Bf2 : view s h = None \/ Forall samelen fs) by (destruct Bf as [B|B]; [auto|inversion B; auto]).
      assert (Eb : text_at s (Some o) = bt s h) by (unfold bt; rewrite TH; reflexivity). rewrite Eb.
      destruct (write_cut (view s h) (bt s h) f (g_fits s Gs h) Bf1) as [WC WF].
      set (s' := set_wk _ _ _).
      assert (VX : forall k, view s' k = view s k) by reflexivity.
      assert (BX : bt s' h = write_at (view s h) (bt s h) f).
      { unfold bt at 1. cbn [rc s' set_wk set_mem]. rewrite TH. cbn [text_at mem s' set_wk set_mem]. apply nth_upd_eq'. exact LO. }
      assert (TO : forall k, k <> h -> bt s' k = bt s k).
      { intros k N. unfold bt. cbn [rc s' set_wk set_mem]. destruct (target (rc s) k) as [q|] eqn:Ek; [|reflexivity].
        cbn [text_at mem s' set_wk set_mem]. apply nth_upd_ne'. intros <-. exact (N (pend_only _ _ _ _ _ P Ek)). }
      apply (preserve s s' t (Writing h fs) Gs); cbn [rc mem vw wk log s' set_wk set_mem]; try apply Gs.
      * rewrite upd_length. apply Gs.
      * reflexivity.
      * apply upd_length.
      * split; [apply same_refl|]. split; [intros u N; apply nth_upd_ne; congruence|]. split; [|auto].
        intros k Hk. split; [|apply VX]. apply TO. intros ->. congruence.
      * eapply nth_upd_eq; exact Hw.
      * cbn [WOK rc s' set_wk set_mem]. split_and; eauto.
      * intros k Hk. rewrite VX. destruct (Nat.eq_dec k h) as [->|N]; [rewrite BX; exact WF|rewrite (TO k N); apply Gs].
      * intros k Hk. rewrite <- (g_val s Gs). unfold fut. rewrite (pending_owned s t k _ Hk Hw). cbn [wpend].
        destruct (Nat.eqb_spec h k) as [<-|N].
        -- unfold el. rewrite VX, BX, WC. reflexivity.
        -- unfold el. rewrite VX, TO by congruence. reflexivity.
      * reflexivity.
Qed.

(** A request that only starts an assignment of handle [d], giving it view [v]. *)
Lemma assign_G s t d e r v en : G s -> free s t = true -> owns (rc s) t d = true -> step (rc s) e = Ok r -> by_thread e = t ->
  same_other (rc s) r t -> length (objs r) = length (objs (rc s)) -> (forall k, k <> d -> target r k = target (rc s) k) ->
  fits v (text_at s (target r d)) ->
  after (value (log s)) en = put_in (value (log s)) d (cut v (text_at s (target r d))) ->
  G (add_log (set_vw (set_rc s r) d v) en).
Proof.
  intros Gs Hf Od E Et S LO T Fv V. destruct (free_true _ _ Hf) as [Hi Hw].
  destruct (step_inv (rc s) e (g_inv s Gs)) as (r' & E' & I). rewrite E in E'. assert (r' = r) by congruence. subst r'. clear E'.
  assert (O := step_own _ _ _ (g_own s Gs) E).
  set (s' := add_log _ _).
  assert (BO : forall k, k <> d -> bt s' k = bt s k)
    by (intros k N; unfold bt; cbn [rc s' add_log set_vw set_rc]; rewrite (T k N); reflexivity).
  assert (VO : forall k, k <> d -> view s' k = view s k) by (intros k N; unfold view; cbn [vw s' add_log set_vw set_rc]; apply nth_upd_ne'; congruence).
  assert (VD : view s' d = v) by (unfold view; cbn [vw s' add_log set_vw set_rc]; apply view_upd_eq; exact (owns_view s t d Gs Od)).
  assert (BD : bt s' d = text_at s (target r d)) by reflexivity.
  apply (preserve s s' t Free Gs); cbn [rc mem vw wk log s' add_log set_vw set_rc]; auto; try (rewrite LO); try apply Gs.
  - apply upd_length.
  - split; [exact S|]. split; [reflexivity|]. split.
    + intros k Hk. assert (k <> d) by (intros ->; congruence). auto.
    + intros u k o N. exact (frame_pend _ _ e t (g_own s Gs) E Et u k o N).
  - exact Logic.I.
  - intros k Hk. destruct (Nat.eq_dec k d) as [->|N]; [rewrite VD, BD; exact Fv|rewrite (VO k N), (BO k N); apply Gs].
  - intros k Hk. rewrite value_snoc, V. cbn [wpend]. rewrite all_nil. unfold el. destruct (Nat.eq_dec k d) as [->|N].
    + rewrite put_eq, VD, BD. reflexivity.
    + rewrite put_ne by exact N. rewrite (VO k N), (BO k N), (value_idle s t k Free Gs Hk Hw eq_refl). reflexivity.
  - intros k Hk. rewrite value_snoc, V. apply put_ne. intros ->. congruence.
Qed.

(** A request that only changes the view of its own handle. *)
Lemma revise_G s t h v en : G s -> free s t = true -> owns (rc s) t h = true ->
  fits v (bt s h) -> after (value (log s)) en = put_in (value (log s)) h (cut v (bt s h)) ->
  G (add_log (set_vw s h v) en).
Proof.
  intros Gs Hf Oh Fv V. destruct (free_true _ _ Hf) as [Hi Hw]. set (s' := add_log _ _).
  assert (VO : forall k, k <> h -> view s' k = view s k) by (intros k N; unfold view; cbn [vw s' add_log set_vw]; apply nth_upd_ne'; congruence).
  assert (VD : view s' h = v) by (unfold view; cbn [vw s' add_log set_vw]; apply view_upd_eq; exact (owns_view s t h Gs Oh)).
  assert (BO : forall k, bt s' k = bt s k) by reflexivity.
  apply (preserve s s' t Free Gs); cbn [rc mem vw wk log s' add_log set_vw]; auto; try apply Gs.
  - apply upd_length.
  - split; [apply same_refl|]. split; [reflexivity|]. split; [|auto].
    intros k Hk. assert (k <> h) by (intros ->; congruence). auto.
  - exact Logic.I.
  - intros k Hk. rewrite BO. destruct (Nat.eq_dec k h) as [->|N]; [rewrite VD; exact Fv|rewrite (VO k N); apply Gs].
  - intros k Hk. rewrite value_snoc, V. cbn [wpend]. rewrite all_nil. unfold el. rewrite BO. destruct (Nat.eq_dec k h) as [->|N].
    + rewrite put_eq, VD. reflexivity.
    + rewrite put_ne by exact N. rewrite (VO k N), (value_idle s t k Free Gs Hk Hw eq_refl). reflexivity.
  - intros k Hk. rewrite value_snoc, V. apply put_ne. intros ->. congruence.
Qed.

Lemma cut_sub v (b : list A) a n : fits v b -> (a + n <= snd (bounds v b))%nat ->
  firstn n (skipn a (cut v b)) = cut (Some ((fst (bounds v b) + a)%nat, n)) b /\ fits (Some ((fst (bounds v b) + a)%nat, n)) b.
Proof.
  destruct v as [[o m]|]; cbn [bounds fst snd cut fits]; intros F L.
  - split; [|lia]. rewrite skipn_firstn_comm, firstn_firstn. rewrite Nat.min_l by lia. f_equal.
    clear. revert b. induction o as [|o IH]; intros [|x b]; simpl; auto. destruct a; reflexivity.
  - simpl. split; [reflexivity|lia].
Qed.

Lemma cut_join v v' (b : list A) : fits v b -> fits v' b -> (fst (bounds v b) + snd (bounds v b))%nat = fst (bounds v' b) ->
  cut v b ++ cut v' b = cut (Some (fst (bounds v b), (snd (bounds v b) + snd (bounds v' b))%nat)) b /\
  fits (Some (fst (bounds v b), (snd (bounds v b) + snd (bounds v' b))%nat)) b.
Proof.
  intros F F' E.
  assert (N : forall v, cut v b = firstn (snd (bounds v b)) (skipn (fst (bounds v b)) b)).
  { intros [[o n]|]; [reflexivity|]. cbn. symmetry. apply firstn_all. }
  assert (M : forall v, fits v b -> (fst (bounds v b) + snd (bounds v b) <= length b)%nat) by (intros [[o n]|]; simpl; lia).
  assert (X := M v F). assert (Y := M v' F'). rewrite !N. cbn [cut fits].
  split; [|lia]. rewrite <- E. destruct (bounds v b) as [o n], (bounds v' b) as [o' n']. cbn [fst snd] in *.
  replace (skipn (o + n) b) with (skipn n (skipn o b)).
    cbn [bounds fst snd].
  - rewrite <- firstn_skipn with (n := n) (l := firstn (n + n') (skipn o b)).
    rewrite firstn_firstn, Nat.min_l by lia. f_equal. rewrite skipn_firstn_comm. f_equal. lia.
  - clear. revert b. induction o as [|o IH]; intros [|x b]; simpl; auto. destruct n; reflexivity.
Qed.

Lemma sets_samelen (ws : list (nat * A)) : Forall samelen (map (fun w l => upd l (fst w) (snd w)) ws).
Proof. induction ws as [|w ws IH]; constructor; auto. intros l. apply upd_length. Qed.

(** The put of a key that is not there. *)
Definition put_fresh s (e : sevent A) : Prop :=
  match e with
  | EPut t h f fs => free s t = true -> owns (rc s) t h = true -> view s h = None -> f (value (log s) h) = None
  | _ => True
  end.

Lemma wk_same s t : nth_error (wk s) t = Some Free -> upd (wk s) t Free = wk s.
Proof.
  generalize (wk s). intros l. revert t. induction l as [|a l IH]; intros [|t] H; simpl in *; try discriminate; f_equal; auto. congruence.
Qed.

Lemma sstep_G s e : G s -> put_fresh s e -> exists s', sstep s e = Ok s' /\ G s'.
Proof.
  intros Gs Pe. destruct e as [t h b|t d h|t d h a n|t h a n|t h k|t h|t h t'|t h fs|t h ws|t h f fs|t h|t]; cbn [sstep put_fresh] in *.
  - destruct (free s t && owns (rc s) t h) eqn:C; [|eauto]. apply andb_true_iff in C as [Hf Oh].
    destruct (free_true _ _ Hf) as [Hi Hw]. destruct (rc_step_ok s (New t h) Gs) as (r & E & I & O). rewrite E. cbn [obind].
    eexists; split; [reflexivity|].
    assert (X := new_body_G s t h Free Free b r [LMake h b] Gs Hi Oh Hw E ltac:(intros; split; reflexivity)). cbv zeta in X.
    rewrite (wk_same s t Hw) in X. unfold add_log, set_vw, add_body, set_rc. cbn [rc mem vw wk log]. apply X; cbn [WOK wpend]; auto.
    + rewrite value_snoc. cbn [after]. rewrite put_eq. reflexivity.
    + intros k N. rewrite value_snoc. cbn [after]. apply put_ne. exact N.
  - destruct (free s t && owns (rc s) t d && owns (rc s) t h) eqn:C; [|eauto]. apply andb_true_iff in C as [C Oh]. apply andb_true_iff in C as [Hf Od].
    destruct (free_true _ _ Hf) as [Hi Hw]. unfold copy_to. destruct (rc_step_ok s (Copy t d h) Gs) as (r & E & I & O). rewrite E. cbn [obind].
    eexists; split; [reflexivity|]. destruct (r_copy _ _ _ _ _ (g_inv s Gs) Hi Od Oh E) as (S & LO & T & TD & _).
    eapply (assign_G s t d _ r _ _ Gs Hf Od E eq_refl S LO T); rewrite TD; [apply Gs|]. cbn [after]. f_equal.
    rewrite (value_idle s t h Free Gs Oh Hw eq_refl). reflexivity.
  - destruct (free s t && owns (rc s) t d && owns (rc s) t h) eqn:C; [|eauto]. apply andb_true_iff in C as [C Oh]. apply andb_true_iff in C as [Hf Od].
    destruct (free_true _ _ Hf) as [Hi Hw]. rewrite (body_of_ok s t h Gs Oh Hi). cbn [obind]. fold (bt s h).
    destruct (bounds (view s h) (bt s h)) as [o m] eqn:EB.
    destruct ((a + n <=? m)%nat && (o + a + n <? length (bt s h))%nat) eqn:C; [|eauto]. apply andb_true_iff in C as [C1 C2]. apply Nat.leb_le in C1.
    unfold copy_to. destruct (rc_step_ok s (Copy t d h) Gs) as (r & E & I & O). rewrite E. cbn [obind].
    eexists; split; [reflexivity|]. destruct (r_copy _ _ _ _ _ (g_inv s Gs) Hi Od Oh E) as (S & LO & T & TD & _).
    destruct (cut_sub (view s h) (bt s h) a n (g_fits s Gs h)) as [X Y]; [rewrite EB; exact C1|]. rewrite EB in X, Y. cbn [fst] in X, Y.
    eapply (assign_G s t d _ r _ _ Gs Hf Od E eq_refl S LO T); rewrite TD; fold (bt s h); [exact Y|]. cbn [after]. f_equal.
    rewrite (value_idle s t h Free Gs Oh Hw eq_refl). exact X.
  - destruct (free s t && owns (rc s) t h) eqn:C; [|eauto]. apply andb_true_iff in C as [Hf Oh].
    destruct (free_true _ _ Hf) as [Hi Hw]. rewrite (body_of_ok s t h Gs Oh Hi). cbn [obind]. fold (bt s h).
    destruct (bounds (view s h) (bt s h)) as [o m] eqn:EB.
    destruct (Nat.leb_spec (a + n) m) as [C|C]; [|eauto]. eexists; split; [reflexivity|].
    destruct (cut_sub (view s h) (bt s h) a n (g_fits s Gs h)) as [X Y]; [rewrite EB; exact C|]. rewrite EB in X, Y. cbn [fst] in X, Y.
    apply (revise_G s t h _ _ Gs Hf Oh Y). cbn [after]. f_equal. rewrite (value_idle s t h Free Gs Oh Hw eq_refl). exact X.
  - destruct (free s t && owns (rc s) t h && owns (rc s) t k) eqn:C; [|eauto]. apply andb_true_iff in C as [C Ok']. apply andb_true_iff in C as [Hf Oh].
    destruct (free_true _ _ Hf) as [Hi Hw]. rewrite (body_of_ok s t h Gs Oh Hi), (body_of_ok s t k Gs Ok' Hi). cbn [obind].
    destruct (target (rc s) h) as [q|] eqn:Th; [|eauto]. destruct (target (rc s) k) as [q'|] eqn:Tk; [|eauto].
    assert (B1 : text_at s (Some q) = bt s h) by (unfold bt; rewrite Th; reflexivity).
    assert (B2 : text_at s (Some q') = bt s k) by (unfold bt; rewrite Tk; reflexivity). rewrite B1, B2.
    destruct (bounds (view s h) (bt s h)) as [o m] eqn:EB. destruct (bounds (view s k) (bt s k)) as [o' m'] eqn:EB'.
    destruct (Nat.eqb q q' && Nat.eqb (o + m) o') eqn:C; [|eauto]. apply andb_true_iff in C as [C1 C2]. apply Nat.eqb_eq in C1, C2. subst q'.
    assert (BB : bt s k = bt s h) by congruence. eexists; split; [reflexivity|].
    assert (Fk := g_fits s Gs k). rewrite BB in Fk, EB'.
    destruct (cut_join (view s h) (view s k) (bt s h) (g_fits s Gs h) Fk) as [X Y]; [rewrite EB, EB'; exact C2|].
    rewrite EB, EB' in X, Y. cbn [fst snd] in X, Y.
    apply (revise_G s t h _ _ Gs Hf Oh Y). cbn [after]. f_equal.
    rewrite (value_idle s t h Free Gs Oh Hw eq_refl), (value_idle s t k Free Gs Ok' Hw eq_refl). unfold el. rewrite BB. exact X.
  - destruct (free s t && owns (rc s) t h) eqn:C; [|eauto]. apply andb_true_iff in C as [Hf Oh].
    destruct (free_true _ _ Hf) as [Hi Hw]. destruct (rc_step_ok s (Drop t h) Gs) as (r & E & I & O). rewrite E. cbn [obind].
    eexists; split; [reflexivity|]. destruct (r_drop _ _ _ _ Hi Oh E) as (S & LO & T & TD & _).
    eapply (assign_G s t h _ r _ _ Gs Hf Oh E eq_refl S LO T); rewrite TD; [exact Logic.I|reflexivity].
  - destruct (free s t && owns (rc s) t h && free s t') eqn:C; [|eauto]. apply andb_true_iff in C as [C Hf']. apply andb_true_iff in C as [Hf Oh].
    destruct (free_true _ _ Hf) as [Hi Hw]. destruct (free_true _ _ Hf') as [Hi' Hw'].
    destruct (rc_step_ok s (Give t h t') Gs) as (r & E & I & O). rewrite E. cbn [obind].
    eexists; split; [reflexivity|]. destruct (r_give _ _ _ _ _ Hi Oh Hi' E) as (E1 & E2 & E3 & E4 & T & _).
    assert (EB : forall k, bt (set_rc s r) k = bt s k) by (intros k; unfold bt; cbn [rc set_rc]; rewrite T; reflexivity).
    assert (ET : forall k, el (set_rc s r) k = el s k) by (intros k; unfold el; rewrite EB; reflexivity).
    assert (OW : forall u k, u <> t -> owns (rc s) u k = true -> owns r u k = true).
    { intros u k N H. unfold owns in *. rewrite E4. rewrite nth_upd_ne; [exact H|]. intros ->.
      destruct (nth_error (owner (rc s)) k); [|discriminate]. apply Nat.eqb_eq in H, Oh. congruence. }
    destruct Gs as [GI GO G1 G2 G3 GF GW GV]. constructor; cbn [rc mem vw wk log set_rc]; auto; try congruence.
    + rewrite E4, upd_length. exact G2.
    + intros k. rewrite EB. apply GF.
    + intros u w Hu. specialize (GW u w Hu). destruct (Nat.eq_dec u t) as [->|N].
      { rewrite Hw in Hu. injection Hu as <-. exact Logic.I. }
      assert (II : idle r u = idle (rc s) u) by (unfold idle; rewrite E3; reflexivity).
      assert (PP : forall k o, Pend (rc s) u k o -> Pend r u k o)
        by (intros k o; exact (frame_pend _ _ (Give t h t') t GO E eq_refl u k o N)).
      destruct w as [|k i got|k f fs|k f fs|k i got fs|k fs]; cbn [WOK] in *; rewrite ?ET; cbn [rc set_rc]; rewrite ?II; auto.
      * destruct GW as (X & B & C' & D). split_and; auto.
      * destruct GW as (X & B & C' & D). split_and; auto.
      * destruct GW as (X & B & C' & D). split_and; auto.
      * destruct GW as (X & B & [o C']). split_and; eauto.
    + intros k. rewrite <- GV. unfold fut. rewrite ET. f_equal. unfold pending. cbn [rc wk set_rc]. rewrite E4.
      destruct (Nat.eq_dec h k) as [->|N]; [|rewrite nth_upd_ne by exact N; reflexivity].
      unfold owns in Oh. destruct (nth_error (owner (rc s)) k) as [u|] eqn:Eo; [|discriminate]. apply Nat.eqb_eq in Oh. subst u.
      rewrite (nth_upd_eq _ _ _ _ Eo), Hw, Hw'. reflexivity.
  - destruct (free s t && owns (rc s) t h) eqn:C; [|eauto]. apply andb_true_iff in C as [Hf Oh].
    destruct (free_true _ _ Hf) as [Hi Hw]. destruct (shared_ok s t h Gs Oh Hi) as (sh & Es & _). rewrite Es. cbn [obind].
    assert (K : (sh = true \/ view s h = None) -> exists s', unshare (add_log s (LEdit h fs)) t h fs = Ok s' /\ G s').
    { intros K. apply (unshare_G _ s t _ h fs Gs Oh Hi Hw); auto; cbn [log add_log].
      - intros sh' Es'. assert (sh' = sh) by congruence. subst sh'. tauto.
      - rewrite value_snoc. cbn [after]. rewrite put_eq, (value_idle s t h Free Gs Oh Hw eq_refl). reflexivity.
      - intros k N. rewrite value_snoc. cbn [after]. apply put_ne. exact N. }
    destruct sh; [apply K; auto|]. destruct (view s h) eqn:Ev; [eauto|]. apply K. auto.
  - destruct (free s t && owns (rc s) t h) eqn:C; [|eauto]. apply andb_true_iff in C as [Hf Oh].
    destruct (free_true _ _ Hf) as [Hi Hw]. rewrite (body_of_ok s t h Gs Oh Hi). cbn [obind].
    destruct (target (rc s) h) as [q|] eqn:Th; [|eauto]. destruct (bounds _ _) as [o m]. destruct (forallb _ ws); [|eauto].
    cbv zeta. apply (unshare_G _ s t _ h _ Gs Oh Hi Hw); auto; cbn [log add_log].
    + intros sh0 _. right. right. apply sets_samelen.
    + rewrite value_snoc. cbn [after]. rewrite put_eq, (value_idle s t h Free Gs Oh Hw eq_refl). reflexivity.
    + intros k N. rewrite value_snoc. cbn [after]. apply put_ne. exact N.
  - destruct (free s t && owns (rc s) t h) eqn:C; [|eauto]. apply andb_true_iff in C as [Hf Oh].
    destruct (free_true _ _ Hf) as [Hi Hw]. destruct (view s h) eqn:Ev; [eauto|]. eexists; split; [reflexivity|].
    assert (Ef := Pe Hf Oh eq_refl). assert (Vh := value_idle s t h Free Gs Oh Hw eq_refl).
    ow; cbn [log add_log set_wk].
    + intros _. cbn [WOK]. rewrite <- Vh. auto.
    + intros k Ok' V. rewrite value_snoc. cbn [after wpend]. destruct (Nat.eqb_spec h k) as [<-|N].
      * rewrite put_eq, Ef. cbn [wpend] in V. rewrite Vh. reflexivity.
      * rewrite put_ne by congruence. exact V.
    + intros k Ok'. rewrite value_snoc. cbn [after]. apply put_ne. intros ->. congruence.
  - destruct (free s t && owns (rc s) t h) eqn:C; [|eauto]. apply andb_true_iff in C as [Hf Oh].
    destruct (free_true _ _ Hf) as [Hi Hw]. eexists; split; [reflexivity|]. ow; auto.
    intros _. cbn [WOK]. split_and; auto. lia.
  - apply thread_step_G. exact Gs.
Qed.

(** ** Whole runs *)
Lemma init_G nt owners : Z.of_nat (length owners + nt) < 2^31 -> G (sinit (A := A) nt owners).
Proof.
  intros B. constructor; cbn [sinit rc mem vw wk log]; auto.
  - apply init_inv. exact B.
  - apply init_own.
  - rewrite repeat_length. reflexivity.
  - simpl. rewrite !repeat_length. reflexivity.
  - intros h. unfold view. cbn [sinit vw]. destruct (nth_in_or_default h (repeat (None : option (nat * nat)) (length owners)) None) as [X|X].
    + apply repeat_spec in X. rewrite X. exact Logic.I.
    + rewrite X. exact Logic.I.
  - intros t w H. apply nth_repeat in H. subst. exact Logic.I.
  - intros h. assert (EB : bt (sinit (A := A) nt owners) h = []).
    { unfold bt. destruct (target (rc (sinit nt owners)) h) as [o|]; [|reflexivity]. cbn [text_at sinit mem]. destruct o; reflexivity. }
    assert (EL : el (sinit (A := A) nt owners) h = []).
    { unfold el. rewrite EB. destruct (view _ h) as [[o n]|]; [|reflexivity]. cbn [cut]. rewrite skipn_nil, firstn_nil. reflexivity. }
    assert (EP : pending (sinit (A := A) nt owners) h = []).
    { unfold pending. cbn [rc wk sinit init owner]. destruct (nth_error owners h) as [u|]; [|reflexivity].
      destruct (nth_error (repeat Free nt) u) as [w|] eqn:Ew; [apply nth_repeat in Ew; subst w|]; reflexivity. }
    unfold fut. rewrite EL, EP. reflexivity.
Qed.

(** What one event adds to the log. *)
Lemma sstep_log s e s' : sstep s e = Ok s' ->
  log s' = log s \/ exists en, log s' = log s ++ [en] /\
    match en with
    | LRead t h res => exists i, nth_error (wk s) t = Some (Reading h i res) /\ idle (rc s) t = true /\
        (exists b, body_of s h = Ok b /\ elem_at (view s h) (text_at s b) i = Ok None)
    | LPut h f fs => exists t, e = EPut t h f fs
    | _ => True
    end.
Proof.
  assert (UN : forall s0 t h fs, unshare s0 t h fs = Ok s' -> log s' = log s0).
  { intros s0 t h fs H. unfold unshare in H. apply obind_ok in H as (sh & _ & H). injection H as <-. reflexivity. }
  assert (CP : forall t d h v en, copy_to s t d h v en = Ok s' -> log s' = log s ++ [en]).
  { intros t d h v en H. unfold copy_to in H. apply obind_ok in H as (r & _ & H). injection H as <-. reflexivity. }
  intros H. destruct e as [t h b|t d h|t d h a n|t h a n|t h k|t h|t h t'|t h fs|t h ws|t h f fs|t h|t]; cbn [sstep] in H.
  - destruct (free s t && owns (rc s) t h); [|left; congruence]. apply obind_ok in H as (r & _ & H). right. exists (LMake h b). split; [|exact Logic.I]. injection H as <-. reflexivity.
  - destruct (free s t && owns (rc s) t d && owns (rc s) t h); [|left; congruence]. right. eexists. split; [exact (CP _ _ _ _ _ H)|exact Logic.I].
  - destruct (free s t && owns (rc s) t d && owns (rc s) t h); [|left; congruence]. apply obind_ok in H as (b & _ & H).
    destruct (bounds _ _) as [o m]. destruct (_ && _); [|left; congruence]. right. eexists. split; [exact (CP _ _ _ _ _ H)|exact Logic.I].
  - destruct (free s t && owns (rc s) t h); [|left; congruence]. apply obind_ok in H as (b & _ & H).
    destruct (bounds _ _) as [o m]. destruct (_ <=? _)%nat; [|left; congruence]. right. exists (LTrim h a n). split; [|exact Logic.I]. injection H as <-. reflexivity.
  - destruct (free s t && owns (rc s) t h && owns (rc s) t k); [|left; congruence]. apply obind_ok in H as (b & _ & H). apply obind_ok in H as (b' & _ & H).
    destruct b; [|left; congruence]. destruct b'; [|left; congruence]. destruct (bounds _ _) as [o m]. destruct (bounds _ _) as [o' m'].
    destruct (_ && _); [|left; congruence]. right. exists (LJoin h k). split; [|exact Logic.I]. injection H as <-. reflexivity.
  - destruct (free s t && owns (rc s) t h); [|left; congruence]. apply obind_ok in H as (r & _ & H). right. exists (LDrop h). split; [|exact Logic.I]. injection H as <-. reflexivity.
  - destruct (free s t && owns (rc s) t h && free s t'); [|left; congruence]. apply obind_ok in H as (r & _ & H). left. injection H as <-. reflexivity.
  - destruct (free s t && owns (rc s) t h); [|left; congruence]. apply obind_ok in H as (sh & _ & H).
    assert (K : s' = s \/ unshare (add_log s (LEdit h fs)) t h fs = Ok s') by (destruct sh; [auto|]; destruct (view s h); [left; congruence|auto]).
    destruct K as [->|K]; [auto|]. right. exists (LEdit h fs). split; [exact (UN _ _ _ _ K)|exact Logic.I].
  - destruct (free s t && owns (rc s) t h); [|left; congruence]. apply obind_ok in H as (b & _ & H).
    destruct b; [|left; congruence]. destruct (bounds _ _) as [o m]. destruct (forallb _ ws); [|left; congruence].
    right. eexists. split; [exact (UN _ _ _ _ H)|exact Logic.I].
  - destruct (free s t && owns (rc s) t h); [|left; congruence]. destruct (view s h); [left; congruence|]. right. exists (LPut h f fs). split; [|eauto]. injection H as <-. reflexivity.
  - left. destruct (free s t && owns (rc s) t h); injection H as <-; reflexivity.
  - unfold thread_step in H. destruct (idle (rc s) t) eqn:Hi; cbn [negb] in H.
    2:{ left. apply obind_ok in H as (r & _ & H). injection H as <-. reflexivity. }
    destruct (nth_error (wk s) t) as [w|] eqn:Hw; [|left; congruence].
    destruct w as [|h i got|h f fs|h f fs|h i got fs|h fs]; [left; congruence| | | | |].
    + apply obind_ok in H as (b & Eb & H). apply obind_ok in H as (x & Ex & H).
      destruct x; [left; injection H as <-; reflexivity|]. right. exists (LRead t h got). split; [injection H as <-; reflexivity|]. eauto 8.
    + left. apply obind_ok in H as (b & Eb & H). destruct (f _); [injection H as <-; reflexivity|exact (UN _ _ _ _ H)].
    + left. apply obind_ok in H as (b & Eb & H). destruct b; [|discriminate]. exact (UN _ _ _ _ H).
    + left. apply obind_ok in H as (b & Eb & H). apply obind_ok in H as (x & Ex & H).
      destruct x; [injection H as <-; reflexivity|]. apply obind_ok in H as (r & _ & H). injection H as <-. reflexivity.
    + left. apply obind_ok in H as (b & Eb & H). destruct b; [|discriminate]. destruct fs; injection H as <-; reflexivity.
Qed.

Lemma put_fresh_of s e : (forall s', sstep s e = Ok s' -> fresh_puts (log s')) -> put_fresh s e.
Proof.
  intros H. destruct e; cbn [put_fresh]; auto. intros Hf Oh Hv. specialize (H (set_wk (add_log s (LPut h f fs)) t (Finding h f fs))).
  cbn [sstep] in H. rewrite Hf, Oh, Hv in H. exact (H eq_refl (log s) h f fs [] eq_refl).
Qed.

Definition reads_ok (l : list (entry A)) : Prop :=
  forall l1 t h res l2, l = l1 ++ LRead t h res :: l2 -> res = value l1 h.

Lemma srun_G es : forall s, G s -> reads_ok (log s) -> puts_are_fresh s es -> exists s', srun s es = Ok s' /\ G s' /\ reads_ok (log s').
Proof.
  induction es as [|e es IH]; intros s Gs R F; [exists s; auto|].
  destruct (sstep_G s e Gs) as (s1 & E & G1).
  { apply put_fresh_of. intros s' H. apply (F [e] es s' eq_refl). cbn [srun]. rewrite H. reflexivity. }
  destruct (IH s1 G1) as (s' & E' & G').
  - destruct (sstep_log s e s1 E) as [EL|(en & EL & K)]; rewrite EL; [exact R|].
    intros l1 t h res l2 X. apply snoc_split in X as [(_ & <- & ->)|(l2' & X)]; [|exact (R _ _ _ _ _ X)].
    destruct K as (i & Hw & Hi & b & Eb & Ex). assert (W := g_work s Gs t _ Hw). cbn [WOK] in W. destruct W as (Oh & _ & Eg & _).
    rewrite (body_of_ok s t h Gs Oh Hi) in Eb. injection Eb as <-. fold (bt s h) in Ex. rewrite (elem_cut _ _ i (g_fits s Gs h)) in Ex.
    injection Ex as Ex. apply nth_error_None in Ex. rewrite Eg, (value_idle s t h _ Gs Oh Hw eq_refl). apply firstn_all2. exact Ex.
  - intros es1 es2 s2 X H. apply (F (e :: es1) es2 s2); [simpl; congruence|]. cbn [srun]. rewrite E. exact H.
  - exists s'. split; [|exact G']. cbn [srun]. rewrite E. exact E'.
Qed.

(** ** No conflicting accesses *)
Lemma about_uses s u a o : G s -> about_to s u a o ->
  (a = Destroy /\ nth_error (pcs (rc s)) u = Some (Del o)) \/
  (a <> Destroy /\ exists h, owns (rc s) u h = true /\ target (rc s) h = Some o /\ (refs (rc s) o > 0)%nat /\
     (a = ElemWrite -> Pend (rc s) u h o)).
Proof.
  intros Gs H. unfold about_to in H. destruct (nth_error (pcs (rc s)) u) as [p|] eqn:Hp; [|contradiction].
  destruct p; try contradiction.
  - right. destruct H as (h & Hs & H). destruct (nth_error (wk s) u) as [w|] eqn:Hw; [|contradiction].
    assert (Hi : idle (rc s) u = true) by (unfold idle; rewrite Hp; reflexivity).
    assert (W := g_work s Gs u w Hw). assert (R := slot_refs _ _ _ Hs).
    assert (TG : owns (rc s) u h = true -> target (rc s) h = Some o) by (intros Oh; rewrite (target_idle _ _ _ Oh Hi); unfold slot_of; rewrite Hs; reflexivity).
    destruct w as [|h' i got|h' f fs|h' f fs|h' i got fs|h' fs]; cbn [WOK] in W; [contradiction| | |contradiction| |].
    + destruct H as [-> ->]. destruct W as (Oh & _). split; [discriminate|]. exists h. split_and; auto. discriminate.
    + destruct H as [-> ->]. destruct W as (Oh & _). split; [discriminate|]. exists h. split_and; auto. discriminate.
    + destruct H as [-> ->]. destruct W as (Oh & _). split; [discriminate|]. exists h. split_and; auto. discriminate.
    + destruct W as (Oh & _ & [q P]). destruct fs as [|f fs]; [contradiction|].
      destruct H as [-> H]. split; [destruct H; subst a; discriminate|]. exists h. split_and; auto.
      intros _. assert (E := pend_target _ _ _ _ P). rewrite (TG Oh) in E. injection E as <-. exact P.
  - left. destruct H as [-> ->]. auto.
Qed.

Lemma no_race s t u a b o : G s -> t <> u -> about_to s t a o -> about_to s u b o -> ~ conflict a b.
Proof.
  intros Gs N H B C. assert (I := g_inv s Gs).
  destruct (about_uses _ _ _ _ Gs H) as [(Ea & PA)|(Na & h & Oh & Th & Rh & Ph)];
  destruct (about_uses _ _ _ _ Gs B) as [(Eb & PB)|(Nb & k & Ok' & Tk & Rk & Pk)].
  - destruct (del_refs _ _ _ I PA) as [_ D]. assert (X := sum_two (deleting o) (pcs (rc s)) t u _ _ N PA PB). simpl in X. rewrite Nat.eqb_refl in X. unfold ndel in D. lia.
  - destruct (del_refs _ _ _ I PA) as [D _]. lia.
  - destruct (del_refs _ _ _ I PB) as [D _]. lia.
  - assert (X : a = ElemWrite \/ b = ElemWrite) by (destruct a, b; simpl in C; try contradiction; try congruence; auto).
    destruct X as [X|X].
    + assert (k = h) by (exact (pend_only _ _ _ _ _ (Ph X) Tk)). subst k. exact (N (owns_uniq _ _ _ _ Oh Ok')).
    + assert (h = k) by (exact (pend_only _ _ _ _ _ (Pk X) Th)). subst k. exact (N (owns_uniq _ _ _ _ Oh Ok')).
Qed.

(** At rest every handle holds its value. *)
Lemma rest_value s h : G s -> at_rest s -> elements s h = value (log s) h.
Proof.
  intros Gs [R1 R2]. rewrite <- (g_val s Gs). unfold fut, pending, el, bt, target, elements, slot_of.
  assert (I := g_inv s Gs). destruct (nth_error (owner (rc s)) h) as [u|] eqn:E.
  - assert (EW : match nth_error (wk s) u with Some w => wpend w h | None => [] end = []).
    { destruct (nth_error (wk s) u) as [w|] eqn:Ew; [|reflexivity]. apply nth_error_In in Ew. rewrite Forall_forall in R2. rewrite (R2 w Ew). reflexivity. }
    rewrite EW, all_nil. assert (EP : forall v, pc_target (nth_error (pcs (rc s)) u) h v = v).
    { intros v. destruct (nth_error (pcs (rc s)) u) as [p|] eqn:Ep; [|reflexivity]. apply nth_error_In in Ep. rewrite Forall_forall in R1. rewrite (R1 p Ep). reflexivity. }
    rewrite EP. destruct (nth_error (slots (rc s)) h) as [[o|]|]; [reflexivity| |];
      unfold view; destruct (nth h (vw s) None) as [[i n]|]; cbn [cut text_at]; rewrite ?skipn_nil, ?firstn_nil; reflexivity.
  - rewrite all_nil. assert (E0 := E). destruct I as (L & _). apply nth_error_None in E. rewrite L in E. apply nth_error_None in E. rewrite E.
    unfold view. rewrite nth_overflow by (rewrite (g_vw s Gs); apply nth_error_None; exact E0). reflexivity.
Qed.

End Proofs.
