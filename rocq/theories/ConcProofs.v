(** Proofs for C54: strings shared by several threads. *)
From Verif Require Import Base UTF8Model UTF8Proofs RefModel RefSpec RefProofs ConcModel ConcSpec.
From Verif Require StrModel.

(** ** Where a handle will point when its owner has finished *)
Definition slot_of (r : state) (h : nat) : option nat :=
  match nth_error (slots r) h with Some v => v | None => None end.

Definition pc_target (p : option pc) (h : nat) (v : option nat) : option nat :=
  match p with
  | Some (AddChk d o) => if Nat.eqb d h then Some o else v
  | Some (Swap d w) => if Nat.eqb d h then w else v
  | _ => v
  end.

Definition target (r : state) (h : nat) : option nat :=
  match nth_error (owner r) h with
  | Some t => pc_target (nth_error (pcs r) t) h (slot_of r h)
  | None => None
  end.

Lemma target_owned r t h : owns r t h = true -> target r h = pc_target (nth_error (pcs r) t) h (slot_of r h).
Proof.
  unfold owns, target. destruct (nth_error (owner r) h) as [u|]; [|discriminate].
  intros E. apply Nat.eqb_eq in E. subst. reflexivity.
Qed.

Lemma target_idle r t h : owns r t h = true -> idle r t = true -> target r h = slot_of r h.
Proof. intros O I. rewrite (target_owned r t h O), (idle_true _ _ I). reflexivity. Qed.

Lemma nth_app_old {A} (l : list A) i x : (i < length l)%nat -> nth_error (l ++ [x]) i = nth_error l i.
Proof. intros. apply nth_error_app1. assumption. Qed.

(** A handle's target is referred to. *)
Lemma target_refs r h o : Inv r -> target r h = Some o -> (refs r o > 0)%nat.
Proof.
  intros I H. unfold target in H. destruct (nth_error (owner r) h) as [t|] eqn:E; [|discriminate].
  assert (SL : slot_of r h = Some o -> (refs r o > 0)%nat).
  { unfold slot_of. intros X. destruct (nth_error (slots r) h) as [v|] eqn:Es; [|discriminate]. subst v. eapply slot_refs; exact Es. }
  unfold pc_target in H. destruct (nth_error (pcs r) t) as [p|] eqn:Ep; [|auto].
  destruct p as [|d q|d w|q|q|q]; auto; destruct (Nat.eqb_spec d h); auto.
  - injection H as ->. eapply token_refs; [exact Ep|]. simpl. rewrite Nat.eqb_refl. reflexivity.
  - subst w. eapply token_refs; [exact Ep|]. simpl. rewrite Nat.eqb_refl. reflexivity.
Qed.

Lemma target_lt r h o : Inv r -> target r h = Some o -> (o < length (objs r))%nat.
Proof.
  intros I H. assert (R := target_refs r h o I H).
  destruct (access_ok r o I (or_introl R)) as (ob & N & _). apply nth_error_Some. congruence.
Qed.

(** If one handle is the only reference, no other handle has that target. *)
Lemma pend_target r t h o : Pend r t h o -> target r h = Some o.
Proof.
  intros (_ & _ & W & p & Hp & C). rewrite (target_owned r t h W), Hp.
  destruct C as [->|[-> |[Hs D]]]; simpl.
  - rewrite Nat.eqb_refl. reflexivity.
  - rewrite Nat.eqb_refl. reflexivity.
  - unfold slot_of. rewrite Hs. destruct p; simpl in *; try discriminate; reflexivity.
Qed.

Lemma pend_only r t h o h2 : Pend r t h o -> target r h2 = Some o -> h2 = h.
Proof.
  intros P H. assert (F := pend_foreign _ _ _ _ P). destruct F as [F1 F2].
  destruct P as (_ & R & W & p & Hp & C). unfold refs, handles, tokens in R.
  destruct (Nat.eq_dec h2 h) as [|N]; [assumption|exfalso].
  assert (SL : slot_of r h2 = Some o -> False).
  { unfold slot_of. intros X. destruct (nth_error (slots r) h2) as [v|] eqn:Es; [|discriminate]. subst v.
    assert (A := sum_pos (in_slot o) (slots r) h2 _ Es). simpl in A. rewrite Nat.eqb_refl in A.
    destruct C as [->|[-> |[Hs D]]].
    - assert (B := sum_pos (token o) (pcs r) t _ Hp). simpl in B. rewrite Nat.eqb_refl in B. lia.
    - assert (B := sum_pos (token o) (pcs r) t _ Hp). simpl in B. rewrite Nat.eqb_refl in B. lia.
    - assert (B := sum_two (in_slot o) (slots r) h2 h _ _ N Es Hs). simpl in B. rewrite Nat.eqb_refl in B. lia. }
  unfold target in H. destruct (nth_error (owner r) h2) as [u|] eqn:E; [|discriminate].
  destruct (nth_error (pcs r) u) as [q|] eqn:Eq; [|apply SL; exact H].
  assert (TK : token o q = 1%nat \/ slot_of r h2 = Some o).
  { unfold pc_target in H. destruct q as [|d x|d w|x|x|x]; auto; destruct (Nat.eqb_spec d h2); auto.
    - injection H as ->. left. simpl. rewrite Nat.eqb_refl. reflexivity.
    - subst w. left. simpl. rewrite Nat.eqb_refl. reflexivity. }
  destruct TK as [TK|TK]; [|exact (SL TK)].
  destruct (Nat.eq_dec u t) as [->|Nu].
  - rewrite Hp in Eq. injection Eq as <-. destruct C as [->|[-> |[Hs D]]].
    + simpl in H. destruct (Nat.eqb_spec h h2); [congruence|]. exact (SL H).
    + simpl in H. destruct (Nat.eqb_spec h h2); [congruence|]. exact (SL H).
    + assert (A := sum_pos (in_slot o) (slots r) h _ Hs). simpl in A. rewrite Nat.eqb_refl in A.
      assert (B := sum_pos (token o) (pcs r) t _ Hp). lia.
  - rewrite (F2 u q Nu Eq) in TK. discriminate.
Qed.

(** ** What the events of RefModel do to targets *)
Definition same_other (r r' : state) (t : nat) : Prop :=
  owner r' = owner r /\ length (slots r') = length (slots r) /\ length (pcs r') = length (pcs r) /\
  (forall u, u <> t -> nth_error (pcs r') u = nth_error (pcs r) u) /\
  (forall h, owns r t h = false -> nth_error (slots r') h = nth_error (slots r) h).

Lemma so_target r r' t h : same_other r r' t -> owns r t h = false -> target r' h = target r h.
Proof.
  intros (EO & _ & _ & EP & ES) H. unfold target, owns, slot_of in *. rewrite EO. rewrite (ES h H).
  destruct (nth_error (owner r) h) as [u|]; [|reflexivity]. apply Nat.eqb_neq in H. rewrite (EP u H). reflexivity.
Qed.

Lemma so_pc r t p : same_other r (set_pc r t p) t.
Proof.
  split; [reflexivity|]. split; [reflexivity|]. split; [apply upd_length|].
  split; [intros u N; simpl; apply nth_upd_ne; congruence|reflexivity].
Qed.

Lemma so_of r r1 r2 t : same_other r r2 t -> objs r1 = objs r1 -> owner r1 = owner r2 -> slots r1 = slots r2 -> pcs r1 = pcs r2 ->
  same_other r r1 t.
Proof. intros S _ A B C. unfold same_other in *. rewrite A, B, C. exact S. Qed.

Lemma r_step r t r' : Inv r -> Own r -> step r (Step t) = Ok r' ->
  same_other r r' t /\ length (objs r') = length (objs r) /\ (forall h, target r' h = target r h) /\
  (forall o, (refs r' o <= refs r o)%nat).
Proof.
  intros I O H. cbn [step] in H.
  assert (ID : same_other r r t) by (repeat split; auto).
  destruct (nth_error (pcs r) t) as [p|] eqn:Hp; [|injection H as <-; repeat split; auto].
  assert (TG : forall r1 q, owner r1 = owner r -> pcs r1 = pcs r ->
     (forall h, owns r t h = true -> pc_target (Some q) h (slot_of r1 h) = pc_target (Some p) h (slot_of r h)) ->
     (forall h, owns r t h = false -> slot_of r1 h = slot_of r h) ->
     forall h, target (set_pc r1 t q) h = target r h).
  { intros r1 q E1 E2 K1 K2 h. unfold target. cbn [owner pcs set_pc]. rewrite E1, E2.
    destruct (nth_error (owner r) h) as [u|] eqn:Eo; [|reflexivity]. destruct (Nat.eq_dec u t) as [->|N].
    - rewrite (nth_upd_eq _ _ _ _ Hp), Hp. change (slot_of (set_pc r1 t q) h) with (slot_of r1 h). apply K1.
      unfold owns. rewrite Eo. apply Nat.eqb_refl.
    - rewrite nth_upd_ne by congruence. change (slot_of (set_pc r1 t q) h) with (slot_of r1 h). rewrite K2; [reflexivity|].
      unfold owns. rewrite Eo. apply Nat.eqb_neq. exact N. }
  destruct p as [|d q|d v|q|q|q].
  - injection H as <-. repeat split; auto.
  - apply obind_ok in H as (ob & _ & H). unfold cassert in H. destruct (negb (o_count ob =? 0)); [|discriminate]. injection H as <-.
    split; [apply so_pc|]. split; [reflexivity|]. split.
    + apply TG; auto.
    + intros o. assert (T := tokens_pc r t (Swap d (Some q)) _ o Hp). unfold refs, handles in *. simpl in *. lia.
  - assert (Od := O t _ d Hp eq_refl).
    destruct (nth_error (slots r) d) as [old|] eqn:E; [|discriminate].
    set (q := match old with Some o => RelChk o | None => Idle end).
    assert (H' : r' = set_pc (set_slot r d v) t q) by (unfold q; destruct old; congruence). subst r'. clear H.
    split; [|split; [reflexivity|split]].
    + split; [reflexivity|]. split; [apply upd_length|]. split; [apply upd_length|].
      split; [intros u N; simpl; apply nth_upd_ne; congruence|]. intros h Nh. simpl. apply nth_upd_ne. intros ->. congruence.
    + apply TG; [reflexivity|reflexivity| |].
      * intros h Oh. transitivity (slot_of (set_slot r d v) h); [unfold q; destruct old; reflexivity|].
        unfold slot_of. cbn [slots set_slot pc_target].
        destruct (Nat.eqb_spec d h) as [->|N]; [rewrite (nth_upd_eq _ _ _ _ E); reflexivity|rewrite nth_upd_ne by exact N; reflexivity].
      * intros h Oh. unfold slot_of. simpl. rewrite nth_upd_ne; [reflexivity|]. intros ->. congruence.
    + intros o. assert (T := tokens_pc (set_slot r d v) t q _ o Hp). assert (Su := sum_upd (in_slot o) (slots r) d v old E).
      assert (token o (Swap d v) = in_slot o v) by (destruct v; reflexivity).
      assert (token o q = in_slot o old) by (unfold q; destruct old; reflexivity).
      unfold refs, handles, tokens in *. simpl in *. lia.
  - apply obind_ok in H as (ob & _ & H). unfold cassert in H. destruct (o_count ob >? 0); [|discriminate]. injection H as <-.
    split; [apply so_pc|]. split; [reflexivity|]. split; [apply TG; auto|].
    intros o. assert (T := tokens_pc r t (RelDec q) _ o Hp). unfold refs, handles in *. simpl in *. lia.
  - apply obind_ok in H as (ob & A & H).
    set (c := if s32 (o_count ob - 1) =? 0 then Del q else Idle) in *.
    set (r1 := set_obj r q {| o_count := s32 (o_count ob - 1); o_dels := o_dels ob |}) in *. injection H as <-.
    split; [apply (so_of _ _ (set_pc r t c)); auto; apply so_pc|].
    split; [simpl; apply upd_length|]. split.
    + apply TG; auto. intros h _. unfold c, slot_of. destruct (_ =? 0); reflexivity.
    + intros o. assert (T := tokens_pc r1 t c _ o Hp). assert (token o c = 0%nat) by (unfold c; destruct (_ =? 0); reflexivity).
      unfold refs, handles, tokens, r1 in *. simpl in *. lia.
  - apply obind_ok in H as (ob & A & H). injection H as <-.
    set (r1 := set_obj r q {| o_count := o_count ob; o_dels := S (o_dels ob) |}) in *.
    split; [apply (so_of _ _ (set_pc r t Idle)); auto; apply so_pc|].
    split; [simpl; apply upd_length|]. split.
    + apply TG; auto.
    + intros o. assert (T := tokens_pc r1 t Idle _ o Hp). unfold refs, handles, tokens, r1 in *. simpl in *. lia.
Qed.

Lemma r_begin r t d q r1 : nth_error (pcs r) t = Some Idle -> owner r1 = owner r -> pcs r1 = pcs r -> slots r1 = slots r ->
  owns r t d = true -> pc_dst q = Some d ->
  same_other r (set_pc r1 t q) t /\
  (forall h, h <> d -> target (set_pc r1 t q) h = target r h) /\
  target (set_pc r1 t q) d = match q with AddChk _ o => Some o | Swap _ v => v | _ => None end.
Proof.
  intros Hp E1 E2 E3 Od Hq.
  assert (S : same_other r (set_pc r1 t q) t).
  { apply (so_of _ _ (set_pc r t q)); auto; simpl; try congruence. apply so_pc. }
  split; [exact S|]. split.
  - intros h N. destruct (owns r t h) eqn:W; [|exact (so_target _ _ _ _ S W)].
    assert (W' : owns (set_pc r1 t q) t h = true) by (unfold owns in *; simpl; rewrite E1; exact W).
    rewrite (target_owned _ _ _ W'), (target_owned _ _ _ W), Hp. cbn [pcs set_pc]. rewrite E2, (nth_upd_eq _ _ _ _ Hp).
    unfold slot_of. cbn [slots set_pc]. rewrite E3.
    destruct q; simpl in *; try discriminate; injection Hq as ->; destruct (Nat.eqb_spec d h); congruence.
  - assert (W' : owns (set_pc r1 t q) t d = true) by (unfold owns in *; simpl; rewrite E1; exact Od).
    rewrite (target_owned _ _ _ W'). cbn [pcs set_pc]. rewrite E2, (nth_upd_eq _ _ _ _ Hp).
    destruct q; simpl in *; try discriminate; injection Hq as ->; rewrite Nat.eqb_refl; reflexivity.
Qed.

Lemma r_new r t d r' : Inv r -> idle r t = true -> owns r t d = true -> step r (New t d) = Ok r' ->
  same_other r r' t /\ length (objs r') = S (length (objs r)) /\
  (forall h, h <> d -> target r' h = target r h) /\ Pend r' t d (length (objs r)) /\
  (forall o, o <> length (objs r) -> refs r' o = refs r o).
Proof.
  intros I Hi Hw H. cbn [step] in H. rewrite Hi, Hw in H. cbn [andb] in H. apply idle_true in Hi.
  set (n := length (objs r)) in *. set (r1 := add_obj r {| o_count := s32 (0 + 1); o_dels := 0 |}) in *.
  assert (E : r' = set_pc r1 t (AddChk d n)) by congruence. subst r'. clear H.
  destruct (r_begin r t d (AddChk d n) r1 Hi eq_refl eq_refl eq_refl Hw eq_refl) as (S & T & _).
  split; [exact S|]. split; [simpl; rewrite app_length; simpl; unfold n; lia|]. split; [exact T|].
  assert (TK : forall o, tokens (set_pc r1 t (AddChk d n)) o = (tokens r o + (if Nat.eqb n o then 1 else 0))%nat).
  { intros o. assert (X := tokens_pc r1 t (AddChk d n) _ o Hi). cbn [token] in X. unfold tokens in *. simpl in *. lia. }
  split.
  - destruct I as (_ & _ & NN & _). destruct (NN n (le_n _)) as [NR _].
    split; [simpl; rewrite app_length; simpl; unfold n; lia|]. split; [|split; [exact Hw|]].
    + unfold refs. rewrite TK, Nat.eqb_refl. unfold refs, handles in *. simpl. lia.
    + eexists. split; [simpl; eapply nth_upd_eq; exact Hi|]. auto.
  - intros o No. unfold refs. rewrite TK. destruct (Nat.eqb_spec n o); [congruence|]. unfold handles. simpl. lia.
Qed.

Lemma r_drop r t d r' : idle r t = true -> owns r t d = true -> step r (Drop t d) = Ok r' ->
  same_other r r' t /\ length (objs r') = length (objs r) /\
  (forall h, h <> d -> target r' h = target r h) /\ target r' d = None /\ (forall o, refs r' o = refs r o).
Proof.
  intros Hi Hw H. cbn [step] in H. rewrite Hi, Hw in H. cbn [andb] in H. apply idle_true in Hi.
  assert (E : r' = set_pc r t (Swap d None)) by congruence. subst r'. clear H.
  destruct (r_begin r t d (Swap d None) r Hi eq_refl eq_refl eq_refl Hw eq_refl) as (S & T & T2).
  split; [exact S|]. split; [reflexivity|]. split; [exact T|]. split; [exact T2|].
  intros o. assert (X := tokens_pc r t (Swap d None) _ o Hi). simpl in X. unfold refs, handles, tokens in *. simpl in *. lia.
Qed.

Lemma r_copy r t d h r' : Inv r -> idle r t = true -> owns r t d = true -> owns r t h = true -> step r (Copy t d h) = Ok r' ->
  same_other r r' t /\ length (objs r') = length (objs r) /\
  (forall k, k <> d -> target r' k = target r k) /\ target r' d = target r h /\
  (forall o, target r h <> Some o -> refs r' o = refs r o).
Proof.
  intros I Hi Hw Hh H. cbn [step] in H. rewrite Hi, Hw, Hh in H. cbn [andb] in H.
  assert (TH := target_idle r t h Hh Hi). apply idle_true in Hi. unfold slot_of in TH.
  assert (L := owns_lt _ _ _ I Hh).
  destruct (nth_error (slots r) h) as [[o|]|] eqn:E; [| |apply nth_error_None in E; lia].
  - apply obind_ok in H as (r1 & A & H). unfold addref in A. apply obind_ok in A as (ob & A & A2).
    assert (E1 : r1 = set_obj r o {| o_count := s32 (o_count ob + 1); o_dels := o_dels ob |}) by congruence.
    assert (E2 : r' = set_pc r1 t (AddChk d o)) by congruence. clear A2 H.
    assert (OS : owner r1 = owner r /\ pcs r1 = pcs r /\ slots r1 = slots r) by (subst r1; auto). destruct OS as (Q1 & Q2 & Q3).
    destruct (r_begin r t d (AddChk d o) r1 Hi Q1 Q2 Q3 Hw eq_refl) as (S & T & T2). subst r'.
    split; [exact S|]. split; [subst r1; simpl; apply upd_length|]. split; [exact T|]. split; [rewrite T2, TH; reflexivity|].
    intros x Nx. assert (Hi1 : nth_error (pcs r1) t = Some Idle) by congruence.
    assert (X := tokens_pc r1 t (AddChk d o) _ x Hi1). cbn [token] in X. destruct (Nat.eqb_spec o x); [congruence|].
    unfold refs, handles, tokens in *. simpl in *. rewrite Q2, Q3 in *. lia.
  - assert (E2 : r' = set_pc r t (Swap d None)) by congruence. clear H. subst r'.
    destruct (r_begin r t d (Swap d None) r Hi eq_refl eq_refl eq_refl Hw eq_refl) as (S & T & T2).
    split; [exact S|]. split; [reflexivity|]. split; [exact T|]. split; [rewrite T2, TH; reflexivity|].
    intros x _. assert (X := tokens_pc r t (Swap d None) _ x Hi). simpl in X. unfold refs, handles, tokens in *. simpl in *. lia.
Qed.

Lemma r_give r t h t' r' : idle r t = true -> owns r t h = true -> idle r t' = true -> step r (Give t h t') = Ok r' ->
  objs r' = objs r /\ slots r' = slots r /\ pcs r' = pcs r /\ owner r' = upd (owner r) h t' /\
  (forall k, target r' k = target r k) /\ (forall o, refs r' o = refs r o).
Proof.
  intros Hi Hw Hi' H. cbn [step] in H. rewrite Hi, Hw, Hi' in H. cbn [andb] in H.
  assert (E : r' = {| objs := objs r; slots := slots r; owner := upd (owner r) h t'; pcs := pcs r |}) by congruence. subst r'.
  repeat split; auto. intros k. apply idle_true in Hi, Hi'. unfold target, slot_of. cbn [owner pcs slots].
  destruct (Nat.eq_dec h k) as [->|N]; [|rewrite nth_upd_ne by exact N; reflexivity].
  unfold owns in Hw. destruct (nth_error (owner r) k) as [u|] eqn:E; [|discriminate]. apply Nat.eqb_eq in Hw. subst u.
  rewrite (nth_upd_eq _ _ _ _ E), Hi, Hi'. reflexivity.
Qed.

(** ** The invariant *)
Definition tx (s : cstate) (h : nat) : list Z := text_at s (target (rc s) h).

Definition bp (f : list Z -> list Z) : Prop := forall b, bytes b -> bytes (f b).

Definition kfs (k : kont) : list (list Z -> list Z) :=
  match k with KCopy fs | KWrite fs => fs | _ => [] end.

Definition WOK (s : cstate) (t : nat) (w : work) : Prop :=
  match w with
  | Free => True
  | Counting h c k =>
      owns (rc s) t h = true /\ Forall bp (kfs k) /\
      match k with KWrite _ => exists o, Pend (rc s) t h o | _ => idle (rc s) t = true end /\
      match c with CInc _ | CWr _ _ => target (rc s) h <> None | _ => True end
  | Reading h i got =>
      owns (rc s) t h = true /\ idle (rc s) t = true /\ got = firstn i (tx s h) /\ (i <= length (tx s h))%nat
  | Copying h i got fs =>
      owns (rc s) t h = true /\ idle (rc s) t = true /\ got = firstn i (tx s h) /\ (i <= length (tx s h))%nat /\ Forall bp fs
  | Writing h fs => owns (rc s) t h = true /\ Forall bp fs /\ exists o, Pend (rc s) t h o
  end.

(** The part of an edit that is still to be done to handle [h]. *)
Definition wpend (w : work) (h : nat) : list (list Z -> list Z) :=
  match w with
  | Counting h' _ k => if Nat.eqb h' h then kfs k else []
  | Copying h' _ _ fs | Writing h' fs => if Nat.eqb h' h then fs else []
  | _ => []
  end.

Definition pending (s : cstate) (h : nat) : list (list Z -> list Z) :=
  match nth_error (owner (rc s)) h with
  | Some u => match nth_error (wk s) u with Some w => wpend w h | None => [] end
  | None => []
  end.

Definition fut (s : cstate) (h : nat) : list Z := apply_all (pending s h) (tx s h).

Record G (s : cstate) : Prop := {
  g_inv : Inv (rc s);
  g_own : Own (rc s);
  g_txt : length (txt s) = length (objs (rc s));
  g_cnt : length (cnt s) = length (objs (rc s));
  g_wk : length (wk s) = length (pcs (rc s));
  g_bytes : Forall bytes (txt s);
  g_work : forall t w, nth_error (wk s) t = Some w -> WOK s t w;
  g_val : forall h, fut s h = value (log s) h }.

Lemma bytes_nil : bytes []. Proof. constructor. Qed.

Lemma text_bytes s b : Forall bytes (txt s) -> bytes (text_at s b).
Proof.
  intros F. destruct b as [o|]; [|exact bytes_nil]. simpl.
  destruct (nth_in_or_default o (txt s) []) as [X|E]; [|rewrite E; exact bytes_nil].
  rewrite Forall_forall in F. exact (F _ X).
Qed.

Lemma pending_owned s t h w : owns (rc s) t h = true -> nth_error (wk s) t = Some w -> pending s h = wpend w h.
Proof.
  unfold owns, pending. destruct (nth_error (owner (rc s)) h) as [u|]; [|discriminate]. intros E. apply Nat.eqb_eq in E. subst u.
  intros ->. reflexivity.
Qed.

(** What thread [t]'s action leaves alone. *)
Definition Frame (s s' : cstate) (t : nat) : Prop :=
  same_other (rc s) (rc s') t /\
  (forall u, u <> t -> nth_error (wk s') u = nth_error (wk s) u) /\
  (forall h, owns (rc s) t h = false -> tx s' h = tx s h) /\
  (forall u h o, u <> t -> Pend (rc s) u h o -> Pend (rc s') u h o).

Lemma owns_other r u t h : owns r u h = true -> u <> t -> owns r t h = false.
Proof.
  intros A N. destruct (owns r t h) eqn:B; [|reflexivity]. exfalso. exact (N (owns_uniq _ _ _ _ A B)).
Qed.

Lemma same_owns r r' t : same_other r r' t -> forall u h, owns r' u h = owns r u h.
Proof. intros (E & _) u h. unfold owns. rewrite E. reflexivity. Qed.

Lemma frame_wok s s' t u w : Frame s s' t -> u <> t -> WOK s u w -> WOK s' u w.
Proof.
  intros (S & FW & FT & FP) N.
  assert (FO : forall h, owns (rc s) u h = true -> owns (rc s') u h = true) by (intros h H; rewrite (same_owns _ _ _ S); exact H).
  assert (FI : idle (rc s) u = true -> idle (rc s') u = true).
  { intros H. unfold idle in *. destruct S as (_ & _ & _ & EP & _). rewrite (EP u N). exact H. }
  assert (FX : forall h, owns (rc s) u h = true -> tx s' h = tx s h) by (intros h H; apply FT; exact (owns_other _ _ _ _ H N)).
  assert (FG : forall h, owns (rc s) u h = true -> target (rc s') h = target (rc s) h)
    by (intros h H; apply (so_target _ _ t); [exact S|exact (owns_other _ _ _ _ H N)]).
  destruct w as [|h c k|h i got|h i got fs|h fs]; simpl; [auto| | | |].
  - intros (A & B & C & D). split; [auto|]. split; [exact B|]. split.
    + destruct k; auto. destruct C as [o C]. exists o. apply FP; assumption.
    + rewrite (FG h A). exact D.
  - intros (A & B & C & D). rewrite (FX h A). auto.
  - intros (A & B & C & D & E). rewrite (FX h A). auto.
  - intros (A & B & [o C]). split; [auto|]. split; [exact B|]. exists o. apply FP; assumption.
Qed.

Lemma preserve s s' t w' : G s -> Inv (rc s') -> Own (rc s') ->
  length (txt s') = length (objs (rc s')) -> length (cnt s') = length (objs (rc s')) -> length (wk s') = length (wk s) ->
  Forall bytes (txt s') -> Frame s s' t -> nth_error (wk s') t = Some w' -> WOK s' t w' ->
  (forall h, owns (rc s) t h = true -> apply_all (wpend w' h) (tx s' h) = value (log s') h) ->
  (forall h, owns (rc s) t h = false -> value (log s') h = value (log s) h) -> G s'.
Proof.
  intros Gs I O L1 L2 L3 FB F Hw W V1 V2. destruct F as (S & FW & FT & FP). destruct Gs as [GI GO G1 G2 G3 GB GW GV].
  constructor; auto.
  - rewrite L3, G3. destruct S as (_ & _ & E & _). congruence.
  - intros u w Hu. destruct (Nat.eq_dec u t) as [->|N]; [rewrite Hw in Hu; injection Hu as <-; exact W|].
    rewrite (FW u N) in Hu. apply (frame_wok s s' t); [exact (conj S (conj FW (conj FT FP)))|exact N|exact (GW u w Hu)].
  - intros h. destruct (owns (rc s) t h) eqn:E.
    + unfold fut. rewrite (pending_owned s' t h w'); [|rewrite (same_owns _ _ _ S); exact E|exact Hw]. apply V1. exact E.
    + rewrite (V2 h E), <- GV. unfold fut. rewrite (FT h E). f_equal. unfold pending.
      destruct S as (EO & _). rewrite EO. unfold owns in E. destruct (nth_error (owner (rc s)) h) as [u|]; [|reflexivity].
      apply Nat.eqb_neq in E. rewrite (FW u E). reflexivity.
Qed.

Lemma frame_pend r r' e t : Own r -> step r e = Ok r' -> by_thread e = t ->
  forall u h o, u <> t -> Pend r u h o -> Pend r' u h o.
Proof. intros O H E u h o N P. apply (pend_other r e r' u h o O P); [congruence|exact H]. Qed.

Lemma same_refl r t : same_other r r t.
Proof. repeat split; auto. Qed.

Lemma wk_lt s t w : nth_error (wk s) t = Some w -> (t < length (wk s))%nat.
Proof. intros H. apply nth_error_Some. congruence. Qed.

Lemma free_true s t : free s t = true -> idle (rc s) t = true /\ nth_error (wk s) t = Some Free.
Proof.
  unfold free. intros H. apply andb_true_iff in H as [A B]. split; [exact A|].
  destruct (nth_error (wk s) t) as [w|]; [|discriminate]. destruct w; try discriminate. reflexivity.
Qed.

Lemma set_wk_nth s t w w0 : nth_error (wk s) t = Some w0 -> nth_error (wk (set_wk s t w)) t = Some w.
Proof. intros H. simpl. eapply nth_upd_eq. exact H. Qed.

(** A thread changes only what it is doing (and perhaps the log). *)
Lemma only_work s s' t w w' : G s -> nth_error (wk s) t = Some w ->
  rc s' = rc s -> txt s' = txt s -> length (cnt s') = length (cnt s) -> wk s' = upd (wk s) t w' ->
  (WOK s t w -> WOK s t w') ->
  (forall h, owns (rc s) t h = true -> apply_all (wpend w h) (tx s h) = value (log s) h ->
     apply_all (wpend w' h) (tx s h) = value (log s') h) ->
  (forall h, owns (rc s) t h = false -> value (log s') h = value (log s) h) -> G s'.
Proof.
  intros Gs Hw E1 E2 E3 E4 W V1 V2.
  assert (ET : forall h, tx s' h = tx s h) by (intros h; unfold tx, text_at; rewrite E1, E2; reflexivity).
  apply (preserve s s' t w' Gs); rewrite ?E1, ?E2; try apply Gs.
  - rewrite E3. apply Gs.
  - rewrite E4. apply upd_length.
  - split; [rewrite E1; apply same_refl|]. split; [intros u N; rewrite E4; apply nth_upd_ne; congruence|].
    split; [intros; apply ET|]. rewrite E1. auto.
  - rewrite E4. eapply nth_upd_eq. exact Hw.
  - assert (X := W (g_work s Gs t w Hw)). destruct w' as [|h c k|h i got|h i got fs|h fs]; simpl in *; rewrite ?E1, ?ET; exact X.
  - intros h Oh. rewrite ET. apply V1; [exact Oh|]. rewrite <- (g_val s Gs). unfold fut. rewrite (pending_owned s t h w Oh Hw). reflexivity.
  - exact V2.
Qed.

Lemma value_snoc l e : value (l ++ [e]) = after (value l) e.
Proof. unfold value. rewrite fold_left_app. reflexivity. Qed.

Lemma set_eq {A} (v : nat -> A) h x : set v h x h = x.
Proof. unfold set. rewrite Nat.eqb_refl. reflexivity. Qed.
Lemma set_ne {A} (v : nat -> A) h x k : k <> h -> set v h x k = v k.
Proof. unfold set. intros N. destruct (Nat.eqb_spec k h); congruence. Qed.

Lemma firstn_snoc {A} (l : list A) i x : nth_error l i = Some x -> firstn (S i) l = firstn i l ++ [x].
Proof.
  revert i; induction l as [|a l IH]; intros [|i] H; try discriminate; simpl in *; [congruence|]. rewrite (IH i H). reflexivity.
Qed.

(** The slot of a handle whose owner is idle holds its target, alive. *)
Lemma body_of_ok s t h : G s -> owns (rc s) t h = true -> idle (rc s) t = true -> body_of s h = Ok (target (rc s) h).
Proof.
  intros Gs Oh Hi. assert (I := g_inv s Gs). unfold body_of. rewrite (target_idle _ _ _ Oh Hi). unfold slot_of.
  destruct (nth_error (slots (rc s)) h) as [[o|]|] eqn:E; [|reflexivity|].
  - destruct (access_ok (rc s) o I (or_introl (slot_refs _ _ _ E))) as (ob & _ & A & _). rewrite A. reflexivity.
  - apply nth_error_None in E. assert (L := owns_lt _ _ _ I Oh). lia.
Qed.

Lemma Forall_app_r_bytes m : bytes m -> bytes (m ++ [0]).
Proof. intros B. apply Forall_app. split; [exact B|]. repeat constructor; unfold is_byte; lia. Qed.

Lemma get_text m i : bytes m -> (i < length m)%nat -> exists r, UTF8Get (skipn i (m ++ [0])) = Ok r /\ (1 <= snd r)%nat.
Proof.
  intros B L.
  assert (BB : bytes (skipn i (m ++ [0]))).
  { apply Forall_forall. intros x Hx. apply (proj1 (Forall_forall _ _) (Forall_app_r_bytes m B)).
    rewrite <- (firstn_skipn i (m ++ [0])). apply in_or_app. right. exact Hx. }
  destruct (get_nul (skipn i (m ++ [0])) (length m - i) BB) as [[ch k] Hr].
  { rewrite skipn_app. replace (i - length m)%nat with 0%nat by lia. rewrite skipn_O, nth_error_app2 by (rewrite skipn_length; lia).
    rewrite skipn_length, Nat.sub_diag. reflexivity. }
  exists (ch, k). split; [exact Hr|]. apply get_advance in Hr; [simpl; lia|exact BB].
Qed.

Lemma rc_step_ok s e : G s -> exists r, step (rc s) e = Ok r /\ Inv r /\ Own r.
Proof.
  intros Gs. destruct (step_inv (rc s) e (g_inv s Gs)) as (r & E & I). exists r. split; [exact E|]. split; [exact I|].
  exact (step_own _ _ _ (g_own s Gs) E).
Qed.

Lemma thread_rc s t : G s -> idle (rc s) t = false ->
  exists r, step (rc s) (Step t) = Ok r /\ G (set_rc s r).
Proof.
  intros Gs Hi. destruct (rc_step_ok s (Step t) Gs) as (r & E & I & O). exists r. split; [exact E|].
  destruct (nth_error (wk s) t) as [w|] eqn:Hw.
  - destruct (r_step _ _ _ (g_inv s Gs) (g_own s Gs) E) as (S & LO & T & _).
    assert (ET : forall h, tx (set_rc s r) h = tx s h) by (intros h; unfold tx; cbn [rc set_rc]; rewrite T; reflexivity).
    apply (preserve s (set_rc s r) t w Gs I O); cbn [txt cnt wk log rc set_rc]; auto.
    + rewrite LO. apply Gs.
    + rewrite LO. apply Gs.
    + apply Gs.
    + split; [exact S|]. split; [reflexivity|]. split; [intros; apply ET|]. cbn [rc set_rc].
      intros u h o N. exact (frame_pend _ _ (Step t) t (g_own s Gs) E eq_refl u h o N).
    + assert (W := g_work s Gs t w Hw). assert (SO := same_owns _ _ _ S).
      destruct w as [|h c k|h i got|h i got fs|h fs]; simpl in *; auto.
      * destruct W as (A & B & C & D). rewrite SO, T. split; [exact A|]. split; [exact B|]. split; [|exact D].
        destruct k; try congruence. destruct C as [o C]. exists o. exact (pend_self _ _ _ _ _ (g_inv s Gs) C E).
      * destruct W as (A & B & _). congruence.
      * destruct W as (A & B & _). congruence.
      * destruct W as (A & B & [o C]). rewrite SO. split; [exact A|]. split; [exact B|]. exists o. exact (pend_self _ _ _ _ _ (g_inv s Gs) C E).
    + intros h Oh. rewrite ET, <- (g_val s Gs). unfold fut. rewrite (pending_owned s t h w Oh Hw). reflexivity.
  - apply nth_error_None in Hw. rewrite (g_wk s Gs) in Hw. apply nth_error_None in Hw. cbn [step] in E. rewrite Hw in E.
    assert (r = rc s) by congruence. subst r. destruct s; exact Gs.
Qed.

Lemma nth_upd_eq' {A} (l : list A) o x d : (o < length l)%nat -> nth o (upd l o x) d = x.
Proof. revert o; induction l as [|a l IH]; intros [|o] H; simpl in *; try lia; auto. apply IH. lia. Qed.
Lemma nth_upd_ne' {A} (l : list A) o x q d : o <> q -> nth q (upd l o x) d = nth q l d.
Proof. revert o q; induction l as [|a l IH]; intros [|o] [|q] H; simpl in *; try congruence; auto. Qed.

Lemma Forall_upd {A} (P : A -> Prop) l o x : Forall P l -> P x -> Forall P (upd l o x).
Proof. intros F Hx. revert o; induction F as [|a l Ha F IH]; intros [|o]; simpl; constructor; auto. Qed.

Lemma apply_nil b : apply_all [] b = b. Proof. reflexivity. Qed.
Lemma apply_cons f fs b : apply_all (f :: fs) b = apply_all fs (f b). Proof. reflexivity. Qed.

Ltac split_and := repeat match goal with |- _ /\ _ => split end.
Ltac ow := eapply only_work; [eassumption|eassumption|reflexivity|reflexivity|cbn [cnt set_wk set_cnt add_log]; rewrite ?upd_length; reflexivity|reflexivity| | |].

Lemma count_step_G s t h c k : G s -> idle (rc s) t = true -> nth_error (wk s) t = Some (Counting h c k) ->
  exists s', count_step s t h (target (rc s) h) c k = Ok s' /\ G s'.
Proof.
  intros Gs Hi Hw. assert (W := g_work s Gs t _ Hw). cbn [WOK] in W. destruct W as (Oh & Bk & Ck & Dc).
  destruct c as [|i|i|i v|]; cbn [count_step].
  - eexists. split; [reflexivity|]. ow; [|auto|auto].
    intros (A & B & C & D). cbn [WOK]. split_and; auto. destruct (count_at s _ =? 0); exact Logic.I.
  - destruct (Nat.ltb_spec i (length (text_at s (target (rc s) h)))) as [L|L].
    + destruct (get_text _ _ (text_bytes s (target (rc s) h) (g_bytes s Gs)) L) as (r & E & _). rewrite E. cbn [obind].
      destruct (_ || _); (eexists; split; [reflexivity|]); (ow; [|auto|auto]); intros (A & B & C & D); cbn [WOK]; split_and; auto.
      intros N. rewrite N in L. simpl in L. lia.
    + eexists; split; [reflexivity|]. ow; [|auto|auto]. intros (A & B & C & D); cbn [WOK]; split_and; auto.
  - eexists; split; [reflexivity|]. ow; [|auto|auto]. intros (A & B & C & D); cbn [WOK]; split_and; auto.
  - destruct (target (rc s) h) as [o|] eqn:E; [|congruence]. eexists; split; [reflexivity|].
    ow; [|auto|auto]. intros (A & B & C & D); cbn [WOK]; split_and; auto.
  - destruct k as [| |fs|fs]; cbn [counted]; (eexists; split; [reflexivity|]); ow; cbn [log add_log set_wk]; auto.
    + intros h' _ V. rewrite value_snoc. cbn [after wpend apply_all fold_left] in *. rewrite <- V. cbn [wpend kfs]. destruct (Nat.eqb h h'); reflexivity.
    + intros h' _. rewrite value_snoc. reflexivity.
    + intros _. cbn [WOK]. split_and; auto. lia.
    + intros h' _ V. cbn [wpend kfs] in *. destruct (Nat.eqb h h'); exact V.
    + intros _. cbn [WOK]. split_and; auto. lia.
    + intros _. cbn [WOK]. split_and; auto.
Qed.

Lemma new_body_G s t h w w' b n r e : G s -> idle (rc s) t = true -> owns (rc s) t h = true -> nth_error (wk s) t = Some w ->
  step (rc s) (New t h) = Ok r -> bytes b ->
  (forall k, k <> h -> wpend w k = [] /\ wpend w' k = []) ->
  let s' := {| rc := r; txt := txt s ++ [b]; cnt := cnt s ++ [n]; wk := upd (wk s) t w'; log := log s ++ e |} in
  (WOK s' t w') -> value (log s ++ e) h = apply_all (wpend w' h) b -> (forall k, k <> h -> value (log s ++ e) k = value (log s) k) ->
  G s'.
Proof.
  intros Gs Hi Oh Hw E Bb WP s' W V VO.
  destruct (r_new _ _ _ _ (g_inv s Gs) Hi Oh E) as (S & LO & T & P & _).
  destruct (step_inv (rc s) (New t h) (g_inv s Gs)) as (r' & E' & I). rewrite E in E'. assert (r' = r) by congruence. subst r'. clear E'.
  assert (O := step_own _ _ _ (g_own s Gs) E).
  assert (TN : target r h = Some (length (txt s))) by (rewrite (g_txt s Gs); exact (pend_target _ _ _ _ P)).
  assert (TX : tx s' h = b). { unfold tx. cbn [rc s']. rewrite TN. cbn [text_at txt s']. rewrite app_nth2, Nat.sub_diag by lia. reflexivity. }
  assert (TO : forall k, k <> h -> tx s' k = tx s k).
  { intros k N. unfold tx. cbn [rc s']. rewrite (T k N). destruct (target (rc s) k) as [o|] eqn:Ek; [|reflexivity].
    cbn [text_at txt s']. apply app_nth1. rewrite (g_txt s Gs). exact (target_lt _ _ _ (g_inv s Gs) Ek). }
  apply (preserve s s' t w' Gs); auto; cbn [rc txt cnt wk log s'].
  - rewrite app_length, LO, (g_txt s Gs). simpl. lia.
  - rewrite app_length, LO, (g_cnt s Gs). simpl. lia.
  - apply upd_length.
  - apply Forall_app. split; [apply Gs|]. constructor; auto.
  - split; [exact S|]. split; [intros u N; simpl; apply nth_upd_ne; congruence|]. split.
    + intros k Ok'. apply TO. intros ->. congruence.
    + intros u k o N. exact (frame_pend _ _ (New t h) t (g_own s Gs) E eq_refl u k o N).
  - eapply nth_upd_eq. exact Hw.
  - intros k Hk. destruct (Nat.eq_dec k h) as [->|N]; [rewrite TX; congruence|]. rewrite (TO k N), (VO k N). destruct (WP k N) as [A B]. rewrite B.
    rewrite <- (g_val s Gs). unfold fut. rewrite (pending_owned s t k w Hk Hw), A. reflexivity.
  - intros k Hk. apply VO. intros ->. congruence.
Qed.

(** A handle whose owner is free is not being edited. *)
Lemma value_idle s t h w : G s -> owns (rc s) t h = true -> nth_error (wk s) t = Some w -> wpend w h = [] -> value (log s) h = tx s h.
Proof. intros Gs Oh Hw Hp. rewrite <- (g_val s Gs). unfold fut. rewrite (pending_owned s t h w Oh Hw), Hp. reflexivity. Qed.

Lemma thread_step_G s t : G s -> exists s', thread_step s t = Ok s' /\ G s'.
Proof.
  intros Gs. unfold thread_step. destruct (idle (rc s) t) eqn:Hi; cbn [negb].
  2:{ destruct (thread_rc s t Gs Hi) as (r & E & X). rewrite E. cbn [obind]. eauto. }
  destruct (nth_error (wk s) t) as [w|] eqn:Hw; [|eauto].
  assert (W := g_work s Gs t w Hw).
  destruct w as [|h c k|h i got|h i got fs|h fs]; cbn [WOK] in W; [eauto| | | |].
  - rewrite (body_of_ok s t h Gs (proj1 W) Hi). cbn [obind]. exact (count_step_G s t h c k Gs Hi Hw).
  - destruct W as (Oh & _ & Eg & Li). rewrite (body_of_ok s t h Gs Oh Hi). cbn [obind]. fold (tx s h).
    destruct (nth_error (tx s h) i) as [x|] eqn:Ex; (eexists; split; [reflexivity|]); ow; auto.
    + intros _. cbn [WOK]. split_and; auto; [rewrite (firstn_snoc _ _ _ Ex); congruence|].
      assert (i < length (tx s h))%nat by (apply nth_error_Some; congruence). lia.
    + intros _. exact Logic.I.
    + intros h' _ V. cbn [log add_log set_wk]. rewrite value_snoc. exact V.
    + intros h' _. cbn [log add_log set_wk]. rewrite value_snoc. reflexivity.
  - destruct W as (Oh & _ & Eg & Li & Bf). rewrite (body_of_ok s t h Gs Oh Hi). cbn [obind]. fold (tx s h).
    destruct (nth_error (tx s h) i) as [x|] eqn:Ex.
    + eexists; split; [reflexivity|]. ow; auto.
      intros _. cbn [WOK]. split_and; auto; [rewrite (firstn_snoc _ _ _ Ex); congruence|].
      assert (i < length (tx s h))%nat by (apply nth_error_Some; congruence). lia.
    + destruct (rc_step_ok s (New t h) Gs) as (r & E & I & O). rewrite E. cbn [obind]. eexists; split; [reflexivity|].
      assert (Hg : got = tx s h). { apply nth_error_None in Ex. rewrite Eg. apply firstn_all2. exact Ex. }
      destruct (r_new _ _ _ _ (g_inv s Gs) Hi Oh E) as (S & LO & T & P & _).
      replace (set_wk (add_body (set_rc s r) got 0) t (Counting h CTest (KWrite fs)))
        with {| rc := r; txt := txt s ++ [got]; cnt := cnt s ++ [0]; wk := upd (wk s) t (Counting h CTest (KWrite fs)); log := log s ++ [] |}
        by (rewrite app_nil_r; reflexivity).
      eapply (new_body_G s t h _ _ got 0 r []); eauto; rewrite ?app_nil_r; auto.
      * rewrite Hg. apply text_bytes, Gs.
      * intros k N. simpl. destruct (Nat.eqb_spec h k); [congruence|auto].
      * cbn [WOK rc kfs]. split_and; auto; [rewrite (same_owns _ _ _ S); exact Oh|]. eauto.
      * simpl. rewrite Nat.eqb_refl, Hg. rewrite <- (g_val s Gs). unfold fut. rewrite (pending_owned s t h _ Oh Hw). simpl. rewrite Nat.eqb_refl. reflexivity.
  - destruct W as (Oh & Bf & [o P]). rewrite (body_of_ok s t h Gs Oh Hi). cbn [obind].
    assert (TH := pend_target _ _ _ _ P). rewrite TH.
    assert (LO : (o < length (txt s))%nat) by (rewrite (g_txt s Gs); apply P).
    destruct fs as [|f fs].
    + eexists; split; [reflexivity|]. ow; cbn [WOK wpend]; auto. intros h' _ V. destruct (Nat.eqb h h'); exact V.
    + eexists; split; [reflexivity|]. inversion Bf as [|? ? Bf1 Bf2]; subst.
      set (s' := set_wk _ _ _).
      assert (TX : tx s' h = f (tx s h)). { unfold tx. cbn [rc s' set_wk set_txt]. rewrite TH. cbn [text_at txt s' set_wk set_txt]. apply nth_upd_eq'. exact LO. }
      assert (TO : forall k, k <> h -> tx s' k = tx s k).
      { intros k N. unfold tx. cbn [rc s' set_wk set_txt]. destruct (target (rc s) k) as [q|] eqn:Ek; [|reflexivity].
        cbn [text_at txt s' set_wk set_txt]. apply nth_upd_ne'. intros <-. exact (N (pend_only _ _ _ _ _ P Ek)). }
      apply (preserve s s' t (Writing h fs) Gs); cbn [rc txt cnt wk log s' set_wk set_txt]; try apply Gs.
      * rewrite upd_length. apply Gs.
      * apply upd_length.
      * apply Forall_upd; [apply Gs|]. apply Bf1. apply text_bytes, Gs.
      * split; [apply same_refl|]. split; [intros u N; apply nth_upd_ne; congruence|]. split; [|auto].
        intros k Hk. apply TO. intros ->. congruence.
      * eapply nth_upd_eq; exact Hw.
      * cbn [WOK rc s' set_wk set_txt]. split_and; eauto.
      * intros k Hk. rewrite <- (g_val s Gs). unfold fut. rewrite (pending_owned s t k _ Hk Hw). cbn [wpend].
        destruct (Nat.eqb_spec h k) as [<-|N]; [rewrite TX; reflexivity|]. rewrite TO by congruence. reflexivity.
      * reflexivity.
Qed.

(** A request that only starts an assignment of handle [d]. *)
Lemma assign_G s t d e r en : G s -> free s t = true -> owns (rc s) t d = true -> step (rc s) e = Ok r -> by_thread e = t ->
  same_other (rc s) r t -> length (objs r) = length (objs (rc s)) -> (forall k, k <> d -> target r k = target (rc s) k) ->
  after (value (log s)) en = set (value (log s)) d (text_at s (target r d)) ->
  G (add_log (set_rc s r) en).
Proof.
  intros Gs Hf Od E Et S LO T V. destruct (free_true _ _ Hf) as [Hi Hw].
  destruct (step_inv (rc s) e (g_inv s Gs)) as (r' & E' & I). rewrite E in E'. assert (r' = r) by congruence. subst r'. clear E'.
  assert (O := step_own _ _ _ (g_own s Gs) E).
  assert (TO : forall k, k <> d -> tx (add_log (set_rc s r) en) k = tx s k)
    by (intros k N; unfold tx; cbn [rc add_log set_rc]; rewrite (T k N); reflexivity).
  apply (preserve s _ t Free Gs); cbn [rc txt cnt wk log add_log set_rc]; auto; try (rewrite LO); try apply Gs.
  - split; [exact S|]. split; [reflexivity|]. split.
    + intros k Hk. apply TO. intros ->. congruence.
    + intros u k o N. exact (frame_pend _ _ e t (g_own s Gs) E Et u k o N).
  - exact Logic.I.
  - intros k Hk. rewrite value_snoc, V. cbn [wpend]. rewrite apply_nil. destruct (Nat.eq_dec k d) as [->|N].
    + rewrite set_eq. reflexivity.
    + rewrite set_ne by exact N. rewrite (TO k N), (value_idle s t k Free Gs Hk Hw eq_refl). reflexivity.
  - intros k Hk. rewrite value_snoc, V. apply set_ne. intros ->. congruence.
Qed.

Lemma cstep_G s e : G s -> byte_event e -> exists s', cstep s e = Ok s' /\ G s'.
Proof.
  intros Gs Be. destruct e as [t h b|t d h|t h|t h t'|t h fs|t h|t h|t]; cbn [cstep byte_event] in *.
  - destruct (free s t && owns (rc s) t h) eqn:C; [|eauto]. apply andb_true_iff in C as [Hf Oh].
    destruct (free_true _ _ Hf) as [Hi Hw]. destruct (rc_step_ok s (New t h) Gs) as (r & E & I & O). rewrite E. cbn [obind].
    eexists; split; [reflexivity|].
    assert (X := new_body_G s t h Free Free b (Z.of_nat (chars_from (length b) b 0)) r [LMake h b] Gs Hi Oh Hw E Be
      ltac:(intros; split; reflexivity)). cbv zeta in X.
    assert (upd (wk s) t Free = wk s) as EW.
    { revert Hw. generalize (wk s). clear. intros l. revert t. induction l as [|a l IH]; intros [|t] H; simpl in *; try discriminate; f_equal; auto. congruence. }
    rewrite EW in X. unfold add_log, add_body, set_rc. cbn [rc txt cnt wk log]. apply X; cbn [WOK wpend]; auto.
    + rewrite value_snoc. cbn [after]. rewrite set_eq. reflexivity.
    + intros k N. rewrite value_snoc. cbn [after]. apply set_ne. exact N.
  - destruct (free s t && owns (rc s) t d && owns (rc s) t h) eqn:C; [|eauto]. apply andb_true_iff in C as [C Oh]. apply andb_true_iff in C as [Hf Od].
    destruct (free_true _ _ Hf) as [Hi Hw]. destruct (rc_step_ok s (Copy t d h) Gs) as (r & E & I & O). rewrite E. cbn [obind].
    eexists; split; [reflexivity|]. destruct (r_copy _ _ _ _ _ (g_inv s Gs) Hi Od Oh E) as (S & LO & T & TD & _).
    eapply (assign_G s t d _ r _ Gs Hf Od E eq_refl S LO T). cbn [after]. f_equal. rewrite TD.
    rewrite (value_idle s t h Free Gs Oh Hw eq_refl). reflexivity.
  - destruct (free s t && owns (rc s) t h) eqn:C; [|eauto]. apply andb_true_iff in C as [Hf Oh].
    destruct (free_true _ _ Hf) as [Hi Hw]. destruct (rc_step_ok s (Drop t h) Gs) as (r & E & I & O). rewrite E. cbn [obind].
    eexists; split; [reflexivity|]. destruct (r_drop _ _ _ _ Hi Oh E) as (S & LO & T & TD & _).
    eapply (assign_G s t h _ r _ Gs Hf Oh E eq_refl S LO T). cbn [after]. rewrite TD. reflexivity.
  - destruct (free s t && owns (rc s) t h && free s t') eqn:C; [|eauto]. apply andb_true_iff in C as [C Hf']. apply andb_true_iff in C as [Hf Oh].
    destruct (free_true _ _ Hf) as [Hi Hw]. destruct (free_true _ _ Hf') as [Hi' Hw'].
    destruct (rc_step_ok s (Give t h t') Gs) as (r & E & I & O). rewrite E. cbn [obind].
    eexists; split; [reflexivity|]. destruct (r_give _ _ _ _ _ Hi Oh Hi' E) as (E1 & E2 & E3 & E4 & T & _).
    assert (ET : forall k, tx (set_rc s r) k = tx s k) by (intros k; unfold tx; cbn [rc set_rc]; rewrite T; reflexivity).
    assert (OW : forall u k, u <> t -> owns (rc s) u k = true -> owns r u k = true).
    { intros u k N H. unfold owns in *. rewrite E4. rewrite nth_upd_ne; [exact H|]. intros ->. 
      destruct (nth_error (owner (rc s)) k); [|discriminate]. apply Nat.eqb_eq in H, Oh. congruence. }
    destruct Gs as [GI GO G1 G2 G3 GB GW GV]. constructor; cbn [rc txt cnt wk log set_rc]; auto; try congruence.
    + intros u w Hu. specialize (GW u w Hu). destruct (Nat.eq_dec u t) as [->|N].
      { rewrite Hw in Hu. injection Hu as <-. exact Logic.I. }
      assert (II : idle r u = idle (rc s) u) by (unfold idle; rewrite E3; reflexivity).
      assert (PP : forall k o, Pend (rc s) u k o -> Pend r u k o)
        by (intros k o; exact (frame_pend _ _ (Give t h t') t GO E eq_refl u k o N)).
      destruct w as [|k c kk|k i got|k i got fs|k fs]; cbn [WOK rc set_rc] in *; rewrite ?II, ?ET, ?T; auto.
      * destruct GW as (A & B & C' & D). split_and; auto. destruct kk; auto. destruct C' as [o C']. eauto.
      * destruct GW as (A & B & C' & D). split_and; auto.
      * destruct GW as (A & B & C' & D & F). split_and; auto.
      * destruct GW as (A & B & [o C']). split_and; eauto.
    + intros k. rewrite <- GV. unfold fut. rewrite ET. f_equal. unfold pending. cbn [rc wk set_rc]. rewrite E4.
      destruct (Nat.eq_dec h k) as [->|N]; [|rewrite nth_upd_ne by exact N; reflexivity].
      unfold owns in Oh. destruct (nth_error (owner (rc s)) k) as [u|] eqn:Eo; [|discriminate]. apply Nat.eqb_eq in Oh. subst u.
      rewrite (nth_upd_eq _ _ _ _ Eo), Hw, Hw'. reflexivity.
  - destruct (free s t && owns (rc s) t h) eqn:C; [|eauto]. apply andb_true_iff in C as [Hf Oh].
    destruct (free_true _ _ Hf) as [Hi Hw]. assert (TH := target_idle _ _ _ Oh Hi). unfold slot_of in TH.
    assert (L := owns_lt _ _ _ (g_inv s Gs) Oh).
    assert (GO : forall k, kfs k = fs -> match k with KCopy _ => True | KWrite _ => exists o, Pend (rc s) t h o | _ => False end ->
      G (set_wk (add_log s (LEdit h fs)) t (Counting h CTest k))).
    { intros k Ek Hk. ow; cbn [log add_log set_wk].
      - intros _. cbn [WOK]. rewrite Ek. split_and; auto. destruct k; auto; contradiction.
      - intros k' Ok' V. rewrite value_snoc. cbn [after wpend]. rewrite Ek. destruct (Nat.eqb_spec h k') as [<-|N].
        + rewrite set_eq. cbn [wpend] in V. rewrite apply_nil in V. rewrite V. reflexivity.
        + rewrite set_ne by congruence. exact V.
      - intros k' Ok'. rewrite value_snoc. cbn [after]. apply set_ne. intros ->. congruence. }
    destruct (nth_error (slots (rc s)) h) as [[o|]|] eqn:E; [| |apply nth_error_None in E; lia].
    + destruct (access_ok (rc s) o (g_inv s Gs) (or_introl (slot_refs _ _ _ E))) as (ob & Hob & A & _ & Co). rewrite A. cbn [obind].
      eexists; split; [reflexivity|]. destruct (Z.gtb_spec (o_count ob) 1).
      * apply GO; auto.
      * apply GO; auto. exists o. assert (R := slot_refs _ _ _ E). split; [apply nth_error_Some; congruence|]. split; [lia|]. split; [exact Oh|].
        exists Idle. split; [exact (idle_true _ _ Hi)|]. right; right. auto.
    + eexists; split; [reflexivity|]. apply GO; auto.
  - destruct (free s t && owns (rc s) t h) eqn:C; [|eauto]. apply andb_true_iff in C as [Hf Oh].
    destruct (free_true _ _ Hf) as [Hi Hw]. eexists; split; [reflexivity|]. ow; auto.
    + intros _. cbn [WOK]. split_and; auto. constructor.
    + intros h' _ V. cbn [wpend kfs] in *. destruct (Nat.eqb h h'); exact V.
  - destruct (free s t && owns (rc s) t h) eqn:C; [|eauto]. apply andb_true_iff in C as [Hf Oh].
    destruct (free_true _ _ Hf) as [Hi Hw]. eexists; split; [reflexivity|]. ow; auto.
    + intros _. cbn [WOK]. split_and; auto. constructor.
    + intros h' _ V. cbn [wpend kfs] in *. destruct (Nat.eqb h h'); exact V.
  - apply thread_step_G. exact Gs.
Qed.

(** ** Whole runs *)
Lemma nth_repeat {A} (x : A) n i y : nth_error (repeat x n) i = Some y -> y = x.
Proof. intros H. apply nth_error_In in H. exact (repeat_spec _ _ _ H). Qed.

Lemma init_G nt owners : Z.of_nat (length owners + nt) < 2^31 -> G (cinit nt owners).
Proof.
  intros B. constructor; cbn [cinit rc txt cnt wk log]; auto.
  - apply init_inv. exact B.
  - apply init_own.
  - simpl. rewrite !repeat_length. reflexivity.
  - intros t w H. apply nth_repeat in H. subst. exact Logic.I.
  - intros h. unfold fut, pending, tx, target. cbn [rc wk cinit init owner pcs].
    destruct (nth_error owners h) as [u|] eqn:E; [|reflexivity].
    assert (SL : slot_of (init nt owners) h = None).
    { unfold slot_of. simpl. destruct (nth_error (repeat None (length owners)) h) as [v|] eqn:Es; [|reflexivity]. apply nth_repeat in Es. exact Es. }
    rewrite SL. destruct (nth_error (repeat Free nt) u) as [w|] eqn:Ew; [apply nth_repeat in Ew; subst w|].
    + destruct (nth_error (repeat Idle nt) u) as [p|] eqn:Ep; [apply nth_repeat in Ep; subst p|]; reflexivity.
    + destruct (nth_error (repeat Idle nt) u) as [p|] eqn:Ep; [apply nth_repeat in Ep; subst p|]; reflexivity.
Qed.

Lemma crun_G es : forall s, G s -> Forall byte_event es -> exists s', crun s es = Ok s' /\ G s'.
Proof.
  induction es as [|e es IH]; intros s Gs F; [exists s; split; [reflexivity|exact Gs]|].
  inversion F as [|? ? F1 F2]; subst. destruct (cstep_G s e Gs F1) as (s1 & E & G1). destruct (IH s1 G1 F2) as (s' & E' & G').
  exists s'. split; [|exact G']. cbn [crun]. rewrite E. exact E'.
Qed.

(** What one event adds to the log. *)
Lemma cstep_log s e s' : G s -> cstep s e = Ok s' ->
  log s' = log s \/ exists en, log s' = log s ++ [en] /\
    match en with
    | LRead t h res => res = value (log s) h /\ exists i, nth_error (wk s) t = Some (Reading h i res)
    | LCount t h n => value (log s) h = tx s h /\ n = count_at s (target (rc s) h) /\ nth_error (wk s) t = Some (Counting h CRet KCount)
    | _ => True
    end.
Proof.
  intros Gs H. destruct e as [t h b|t d h|t h|t h t'|t h fs|t h|t h|t]; cbn [cstep] in H.
  - destruct (free s t && owns (rc s) t h); [|left; congruence]. apply obind_ok in H as (r & _ & H). right. exists (LMake h b). split; [|exact Logic.I].
    assert (E : s' = add_log (add_body (set_rc s r) b (Z.of_nat (chars_from (length b) b 0))) (LMake h b)) by congruence. rewrite E. reflexivity.
  - destruct (free s t && owns (rc s) t d && owns (rc s) t h); [|left; congruence]. apply obind_ok in H as (r & _ & H). right. exists (LCopy d h). split; [|exact Logic.I].
    injection H as <-. reflexivity.
  - destruct (free s t && owns (rc s) t h); [|left; congruence]. apply obind_ok in H as (r & _ & H). right. exists (LDrop h). split; [|exact Logic.I].
    injection H as <-. reflexivity.
  - destruct (free s t && owns (rc s) t h && free s t'); [|left; congruence]. apply obind_ok in H as (r & _ & H). left. injection H as <-. reflexivity.
  - destruct (free s t && owns (rc s) t h); [|left; congruence]. right. exists (LEdit h fs). split; [|exact Logic.I].
    destruct (nth_error (slots (rc s)) h) as [[o|]|]; [| |discriminate].
    + apply obind_ok in H as (ob & _ & H). injection H as <-. reflexivity.
    + injection H as <-. reflexivity.
  - left. destruct (free s t && owns (rc s) t h); injection H as <-; reflexivity.
  - left. destruct (free s t && owns (rc s) t h); injection H as <-; reflexivity.
  - unfold thread_step in H. destruct (idle (rc s) t) eqn:Hi; cbn [negb] in H.
    2:{ left. apply obind_ok in H as (r & _ & H). injection H as <-. reflexivity. }
    destruct (nth_error (wk s) t) as [w|] eqn:Hw; [|left; congruence]. assert (W := g_work s Gs t w Hw).
    destruct w as [|h c k|h i got|h i got fs|h fs]; cbn [WOK] in W; [left; congruence| | | |].
    + destruct W as (Oh & Bk & Ck & Dc). rewrite (body_of_ok s t h Gs Oh Hi) in H. cbn [obind] in H.
      destruct c as [|i|i|i v|]; cbn [count_step] in H.
      * left. injection H as <-. reflexivity.
      * left. destruct (i <? _)%nat; [apply obind_ok in H as (r & _ & H); destruct (_ || _)|]; injection H as <-; reflexivity.
      * left. injection H as <-. reflexivity.
      * left. destruct (target (rc s) h); [|discriminate]. injection H as <-. reflexivity.
      * destruct k; cbn [counted] in H; try (left; injection H as <-; reflexivity). right. eexists. split; [injection H as <-; reflexivity|].
        split; [|auto]. eapply value_idle; eauto. cbn [wpend kfs]. destruct (Nat.eqb h h); reflexivity.
    + destruct W as (Oh & _ & Eg & Li). rewrite (body_of_ok s t h Gs Oh Hi) in H. cbn [obind] in H. fold (tx s h) in H.
      destruct (nth_error (tx s h) i) eqn:Ex; [left; injection H as <-; reflexivity|]. right. exists (LRead t h got). split; [injection H as <-; reflexivity|].
      split; [|eauto]. rewrite (value_idle s t h _ Gs Oh Hw eq_refl). apply nth_error_None in Ex. rewrite Eg. apply firstn_all2. exact Ex.
    + destruct W as (Oh & _ & Eg & Li & Bf). rewrite (body_of_ok s t h Gs Oh Hi) in H. cbn [obind] in H. left.
      destruct (nth_error (text_at s (target (rc s) h)) i) eqn:Ex; [injection H as <-; reflexivity|]. apply obind_ok in H as (r & _ & H). injection H as <-. reflexivity.
    + destruct W as (Oh & Bf & [o P]). rewrite (body_of_ok s t h Gs Oh Hi) in H. cbn [obind] in H. left.
      destruct (target (rc s) h); [|discriminate]. destruct fs; injection H as <-; reflexivity.
Qed.

Lemma snoc_split {A} (l : list A) x l1 y l2 : l ++ [x] = l1 ++ y :: l2 ->
  (l2 = [] /\ l = l1 /\ x = y) \/ (exists l2', l = l1 ++ y :: l2').
Proof.
  intros E. destruct (@exists_last _ (y :: l2)) as (p & z & Ez); [discriminate|].
  destruct l2 as [|a l2].
  - left. apply app_inj_tail in E as [-> ->]. auto.
  - right. destruct p as [|b p]; [destruct l2; discriminate|]. injection Ez as <- Ez. rewrite Ez in E.
    replace (l1 ++ y :: p ++ [z]) with ((l1 ++ y :: p) ++ [z]) in E by (rewrite <- app_assoc; reflexivity).
    apply app_inj_tail in E as [-> _]. eauto.
Qed.

Definition reads_ok (l : list entry) : Prop :=
  forall l1 t h res l2, l = l1 ++ LRead t h res :: l2 -> res = value l1 h.

Lemma crun_reads es : forall s s', G s -> Forall byte_event es -> reads_ok (log s) -> crun s es = Ok s' -> reads_ok (log s').
Proof.
  induction es as [|e es IH]; intros s s' Gs F R H; [injection H as <-; exact R|].
  inversion F as [|? ? F1 F2]; subst. cbn [crun] in H. apply obind_ok in H as (s1 & E & H).
  destruct (cstep_G s e Gs F1) as (s1' & E1 & G1). assert (s1' = s1) by congruence. subst s1'.
  apply (IH s1 s' G1 F2); [|exact H].
  destruct (cstep_log s e s1 Gs E) as [EL|(en & EL & K)]; rewrite EL; [exact R|].
  intros l1 t h res l2 X. apply snoc_split in X as [(_ & <- & ->)|(l2' & X)]; [apply K|exact (R _ _ _ _ _ X)].
Qed.

(** ** No conflicting accesses to characters *)
Lemma about_uses s u a o : G s -> about_to s u a o ->
  (a = Destroy /\ nth_error (pcs (rc s)) u = Some (Del o)) \/
  (a <> Destroy /\ exists h, owns (rc s) u h = true /\ target (rc s) h = Some o /\ (refs (rc s) o > 0)%nat /\
     (a = TextWrite -> Pend (rc s) u h o)).
Proof.
  intros Gs H. unfold about_to in H. destruct (nth_error (pcs (rc s)) u) as [p|] eqn:Hp; [|contradiction].
  destruct p; try contradiction.
  - right. destruct H as (h & Hs & H). destruct (nth_error (wk s) u) as [w|] eqn:Hw; [|contradiction].
    assert (Hi : idle (rc s) u = true) by (unfold idle; rewrite Hp; reflexivity).
    assert (W := g_work s Gs u w Hw). assert (R := slot_refs _ _ _ Hs).
    assert (TG : owns (rc s) u h = true -> target (rc s) h = Some o) by (intros Oh; rewrite (target_idle _ _ _ Oh Hi); unfold slot_of; rewrite Hs; reflexivity).
    destruct w as [|h' c k|h' i got|h' i got fs|h' fs]; cbn [WOK] in W; [contradiction| | | |].
    + destruct H as [-> H]. destruct W as (Oh & _). split; [destruct c; subst a; discriminate|]. exists h. split_and; auto. destruct c; subst a; discriminate.
    + destruct H as [-> ->]. destruct W as (Oh & _). split; [discriminate|]. exists h. split_and; auto. discriminate.
    + destruct H as [-> ->]. destruct W as (Oh & _). split; [discriminate|]. exists h. split_and; auto. discriminate.
    + destruct W as (Oh & _ & [q P]). destruct fs as [|f fs].
      * destruct H as [-> ->]. split; [discriminate|]. exists h. split_and; auto. discriminate.
      * destruct H as [-> H]. split; [destruct H; subst a; discriminate|]. exists h. split_and; auto.
        intros _. assert (E := pend_target _ _ _ _ P). rewrite (TG Oh) in E. injection E as <-. exact P.
  - left. destruct H as [-> ->]. auto.
Qed.

Lemma del_refs r u o : Inv r -> nth_error (pcs r) u = Some (Del o) -> refs r o = 0%nat /\ ndel r o = 1%nat.
Proof.
  intros I H. assert (D := sum_pos (deleting o) (pcs r) u _ H). simpl in D. rewrite Nat.eqb_refl in D.
  destruct (access_ok r o I) as (ob & Hob & _).
  { right. unfold ndel. lia. }
  destruct I as (_ & HO & _). destruct (HO o ob Hob) as [(_ & _ & [(_ & X)|X])|(_ & _ & X)]; unfold ndel in *; try lia.
Qed.

Lemma no_text_race s t u a b o : G s -> t <> u -> about_to s t a o -> about_to s u b o -> ~ text_conflict a b.
Proof.
  intros Gs N A B C. assert (I := g_inv s Gs).
  destruct (about_uses _ _ _ _ Gs A) as [(Ea & PA)|(Na & h & Oh & Th & Rh & Ph)];
  destruct (about_uses _ _ _ _ Gs B) as [(Eb & PB)|(Nb & k & Ok' & Tk & Rk & Pk)].
  - destruct (del_refs _ _ _ I PA) as [_ D]. assert (X := sum_two (deleting o) (pcs (rc s)) t u _ _ N PA PB). simpl in X. rewrite Nat.eqb_refl in X. unfold ndel in D. lia.
  - destruct (del_refs _ _ _ I PA) as [D _]. lia.
  - destruct (del_refs _ _ _ I PB) as [D _]. lia.
  - assert (X : a = TextWrite \/ b = TextWrite) by (destruct a, b; simpl in C; try contradiction; try congruence; auto).
    destruct X as [X|X].
    + assert (k = h) by (exact (pend_only _ _ _ _ _ (Ph X) Tk)). subst k. exact (N (owns_uniq _ _ _ _ Oh Ok')).
    + assert (h = k) by (exact (pend_only _ _ _ _ _ (Pk X) Th)). subst k. exact (N (owns_uniq _ _ _ _ Oh Ok')).
Qed.

(** At rest every handle holds its value. *)
Lemma rest_value s h : G s -> at_rest s -> bytes_of s h = value (log s) h.
Proof.
  intros Gs [R1 R2]. rewrite <- (g_val s Gs). unfold fut, pending, tx, target, bytes_of, slot_of.
  assert (I := g_inv s Gs). destruct (nth_error (owner (rc s)) h) as [u|] eqn:E.
  - assert (EW : match nth_error (wk s) u with Some w => wpend w h | None => [] end = []).
    { destruct (nth_error (wk s) u) as [w|] eqn:Ew; [|reflexivity]. apply nth_error_In in Ew. rewrite Forall_forall in R2. rewrite (R2 w Ew). reflexivity. }
    rewrite EW, apply_nil. assert (EP : forall v, pc_target (nth_error (pcs (rc s)) u) h v = v).
    { intros v. destruct (nth_error (pcs (rc s)) u) as [p|] eqn:Ep; [|reflexivity]. apply nth_error_In in Ep. rewrite Forall_forall in R1. rewrite (R1 p Ep). reflexivity. }
    rewrite EP. destruct (nth_error (slots (rc s)) h) as [[o|]|]; reflexivity.
  - rewrite apply_nil. destruct I as (L & _). apply nth_error_None in E. rewrite L in E. apply nth_error_None in E. rewrite E. reflexivity.
Qed.
