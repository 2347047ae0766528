(** Heap invariants of the array model: reference counts are exact, slices lie
    inside their bodies; every operation preserves them and leaves all other
    slices' contents alone. *)
From Verif Require Import Base RefModel RefProofs ArrayModel ArraySpec ArrayProofs.
From Coq Require Import Permutation.
Ltac Zify.zify_post_hook ::= Z.div_mod_to_equations.

Section Heap.
Context {A : Type}.
Implicit Types (x : body A) (h : heap A) (hs : list slice) (L M : list A).

Definition refers (b : nat) (s : slice) : bool := match s_body s with Some c => Nat.eqb c b | None => false end.
Definition cnt (b : nat) hs : nat := length (filter (refers b) hs).
Definition stat x : Z := if b_static x then 1 else 0.

Definition slice_ok h (s : slice) : Prop :=
  match s_body s with
  | None => s_off s = 0 /\ s_num s = 0
  | Some b => exists x L, nth_error h b = Some (Some x) /\ valid x L /\
      0 <= s_off s /\ 0 <= s_num s /\ s_off s + s_num s <= Z.of_nat (length L)
  end.

Definition WF h hs : Prop :=
  (forall b x, nth_error h b = Some (Some x) ->
     (exists L, valid x L) /\ b_refs x = Z.of_nat (cnt b hs) + stat x /\ 0 < b_refs x) /\
  Forall (slice_ok h) hs.

Lemma cnt_cons b s hs : cnt b (s :: hs) = ((if refers b s then 1 else 0) + cnt b hs)%nat.
Proof. unfold cnt. simpl. destruct (refers b s); reflexivity. Qed.
Lemma cnt_perm b hs hs' : Permutation hs hs' -> cnt b hs = cnt b hs'.
Proof. intros P. induction P; rewrite ?cnt_cons in *; lia. Qed.
Lemma WF_perm h hs hs' : Permutation hs hs' -> WF h hs -> WF h hs'.
Proof.
  intros P [B S]. split.
  - intros b x Hb. rewrite <- (cnt_perm b _ _ P). auto.
  - eapply Permutation_Forall; eassumption.
Qed.

(** ** Views *)
Lemma all_some_map L : all_some (map Some L) = Some L.
Proof. induction L as [|a L IH]; simpl; [reflexivity|]. rewrite IH. reflexivity. Qed.

Lemma valid_cells x L off n : valid x L -> (off + n <= length L)%nat ->
  firstn n (skipn off (b_data x)) = map Some (firstn n (skipn off L)).
Proof.
  intros (V & _) H. apply nth_ext_list. intros j. rewrite nth_error_map, !nth_firstn, !nth_skipn.
  destruct (Nat.ltb_spec j n); [|reflexivity].
  destruct (nth_some_lt L (off + j) ltac:(lia)) as [a Ha]. rewrite (V _ _ Ha), Ha. reflexivity.
Qed.

Lemma view_body h s b x L : s_body s = Some b -> nth_error h b = Some (Some x) -> valid x L ->
  0 <= s_off s -> 0 <= s_num s -> s_off s + s_num s <= Z.of_nat (length L) ->
  view h s = Some (l_slice L (Z.to_nat (s_off s)) (Z.to_nat (s_num s))).
Proof.
  intros E Hb V O N B. unfold view. rewrite E, Hb. rewrite (valid_cells x L) by (try exact V; lia).
  rewrite map_length, firstn_length, skipn_length.
  destruct (Z.eqb_spec (Z.of_nat (Nat.min (Z.to_nat (s_num s)) (length L - Z.to_nat (s_off s)))) (s_num s)); [|lia].
  apply all_some_map.
Qed.
Lemma view_null h s : s_body s = None -> s_num s = 0 -> view h s = Some [].
Proof. intros E N. unfold view. rewrite E, N. reflexivity. Qed.

Lemma slice_length L o n : (o + n <= length L)%nat -> length (l_slice L o n) = n.
Proof. intros H. unfold l_slice. rewrite firstn_length, skipn_length. lia. Qed.

Lemma view_ok h s : slice_ok h s -> exists L, view h s = Some L /\ Z.of_nat (length L) = s_num s.
Proof.
  unfold slice_ok. destruct (s_body s) as [b|] eqn:E.
  - intros (x & L & Hb & V & O & N & B). rewrite (view_body h s b x L) by assumption.
    eexists. split; [reflexivity|]. rewrite slice_length by lia. lia.
  - intros [O N]. rewrite (view_null h s E N). exists []. split; [reflexivity|]. simpl. lia.
Qed.

Lemma view_elem h s L i : view h s = Some L -> slice_ok h s -> 0 <= i < Z.of_nat (length L) ->
  exists a, elem_at h s i = Ok a /\ nth_error L (Z.to_nat i) = Some a.
Proof.
  intros V K Hi. assert (K0 := K). unfold slice_ok in K. destruct (s_body s) as [b|] eqn:E.
  - destruct K as (x & M & Hb & VM & O & N & B). rewrite (view_body h s b x M) in V by assumption. injection V as <-.
    rewrite slice_length in Hi by lia.
    unfold elem_at. rewrite E. unfold hget. rewrite Hb. cbn [obind].
    destruct (nth_some_lt M (Z.to_nat (s_off s + i)) ltac:(lia)) as [a Ha].
    exists a. split.
    + eapply agree_rd; [apply VM|lia|exact Ha].
    + unfold l_slice. rewrite nth_firstn, nth_skipn. destruct (Nat.ltb_spec (Z.to_nat i) (Z.to_nat (s_num s))); [|lia].
      rewrite <- Ha. f_equal. lia.
  - destruct K as [_ N]. rewrite (view_null h s E N) in V. injection V as <-. simpl in Hi. lia.
Qed.

Lemma view_src h s L : view h s = Some L -> slice_ok h s -> src_is (elem_at h s) L.
Proof. intros V K i Hi. apply view_elem; assumption. Qed.

(** A heap that extends or modifies bodies not referred to keeps views. *)
Definition same_on h h' (s : slice) : Prop :=
  match s_body s with
  | None => True
  | Some b => exists x x', nth_error h b = Some (Some x) /\ nth_error h' b = Some (Some x') /\ b_data x' = b_data x /\
                b_num x' = b_num x /\ b_alloc x' = b_alloc x /\ b_static x' = b_static x
  end.
Lemma same_view h h' s : same_on h h' s -> view h' s = view h s.
Proof.
  unfold same_on, view. destruct (s_body s) as [b|]; [|reflexivity].
  intros (x & x' & -> & -> & -> & _). reflexivity.
Qed.
Lemma valid_same x x' L : b_data x' = b_data x -> b_num x' = b_num x -> b_alloc x' = b_alloc x -> b_static x' = b_static x ->
  valid x L -> valid x' L.
Proof. intros E1 E2 E3 E4 (V1 & V2 & V3 & V4 & V5). unfold valid. rewrite E1, E2, E3, E4. auto. Qed.
Lemma same_slice_ok h h' s : same_on h h' s -> slice_ok h s -> slice_ok h' s.
Proof.
  unfold same_on, slice_ok. destruct (s_body s) as [b|]; [|auto].
  intros (x & x' & E & E' & D1 & D2 & D3 & D4) (y & L & Hy & V & B). rewrite E in Hy. injection Hy as <-.
  exists x', L. split; [exact E'|]. split; [eapply valid_same; eassumption|exact B].
Qed.
Lemma slice_same h s : slice_ok h s -> same_on h h s.
Proof. unfold slice_ok, same_on. destruct (s_body s); [|auto]. intros (x & L & E & _). exists x, x. auto 10. Qed.
Lemma same_trans h1 h2 h3 s : same_on h1 h2 s -> same_on h2 h3 s -> same_on h1 h3 s.
Proof.
  unfold same_on. destruct (s_body s) as [b|]; [|auto].
  intros (x & y & E1 & E2 & A1 & A2 & A3 & A4) (y' & z & E3 & E4 & B1 & B2 & B3 & B4).
  rewrite E2 in E3. injection E3 as <-. exists x, z. repeat split; congruence.
Qed.
Definition same_all h h' hs := Forall (same_on h h') hs.
Lemma same_all_trans h1 h2 h3 hs : same_all h1 h2 hs -> same_all h2 h3 hs -> same_all h1 h3 hs.
Proof. unfold same_all. rewrite !Forall_forall. intros P Q s Hs. eapply same_trans; [apply P|apply Q]; exact Hs. Qed.
Lemma same_all_refl h hs : Forall (slice_ok h) hs -> same_all h h hs.
Proof. apply Forall_impl. intros s. apply slice_same. Qed.

(** ** addref / release *)
Lemma nth_hput h b x y c : nth_error h b = Some y -> nth_error (hput h b x) c = if Nat.eqb c b then Some (Some x) else nth_error h c.
Proof.
  intros E. unfold hput. rewrite nth_upd. assert (b < length h)%nat by (eapply nth_lt; exact E).
  destruct (Nat.eqb_spec c b); destruct (Nat.ltb_spec b (length h)); try lia; reflexivity.
Qed.

Lemma hget_ok h b x : hget h b = Ok x <-> nth_error h b = Some (Some x).
Proof. unfold hget. destruct (nth_error h b) as [[y|]|]; split; intros H; congruence. Qed.

Lemma addref_spec h s hs : WF h hs -> slice_ok h s ->
  exists h', addref h (s_body s) = Ok h' /\ WF h' (s :: hs) /\ same_all h h' hs /\ same_on h h' s.
Proof.
  intros [WB WS] K. unfold addref. destruct (s_body s) as [b|] eqn:E.
  - assert (K0 := K). unfold slice_ok in K. rewrite E in K. destruct K as (x & L & Hb & V & BB).
    unfold hget. rewrite Hb. cbn [obind]. eexists. split; [reflexivity|].
    set (x' := set_refs x (b_refs x + 1)).
    assert (SM : forall t, slice_ok h t -> same_on h (hput h b x') t).
    { intros t Kt. unfold same_on, slice_ok in *. destruct (s_body t) as [c|]; [|exact I].
      destruct Kt as (y & M & Hy & _). exists y. rewrite (nth_hput h b x' _ c Hb). destruct (Nat.eqb_spec c b).
      - subst c. rewrite Hb in Hy. injection Hy as <-. exists x'. repeat split; auto.
      - exists y. repeat split; auto. }
    split; [|split; [|apply SM; exact K0]].
    + split.
      * intros c y Hc. rewrite (nth_hput h b x' _ c Hb) in Hc. rewrite cnt_cons.
        unfold refers at 1. rewrite E. rewrite Nat.eqb_sym in Hc. destruct (Nat.eqb_spec b c).
        -- subst c. injection Hc as <-. destruct (WB b x Hb) as ((M & VM) & R & P). split; [|split].
           ++ exists M. eapply valid_same; [..|exact VM]; reflexivity.
           ++ unfold x', stat in *; cbn [set_refs b_refs b_static] in *; destruct (b_static x); lia.
           ++ unfold x'; cbn [set_refs b_refs]; lia.
        -- destruct (WB c y Hc) as (VM & R & P). split; [exact VM|]. split; [lia|exact P].
      * constructor; [eapply same_slice_ok; [apply SM|]; exact K0|].
        rewrite Forall_forall in *. intros t Ht. eapply same_slice_ok; [apply SM|]; apply WS; exact Ht.
    + unfold same_all. rewrite Forall_forall in *. intros t Ht. apply SM. apply WS. exact Ht.
  - exists h. split; [reflexivity|]. split; [|split; [apply same_all_refl; exact WS|unfold same_on; rewrite E; exact I]].
    split; [|constructor; assumption].
    intros c y Hc. rewrite cnt_cons. unfold refers at 1. rewrite E. apply WB. exact Hc.
Qed.

Lemma release_spec h s hs : WF h (s :: hs) ->
  exists h', release h (s_body s) = Ok h' /\ WF h' hs /\ same_all h h' hs.
Proof.
  intros [WB WS]. inversion WS as [|? ? K WS']; subst. unfold release. destruct (s_body s) as [b|] eqn:E.
  - unfold slice_ok in K. rewrite E in K. destruct K as (x & L & Hb & V & BB).
    destruct (WB b x Hb) as (_ & R & P). rewrite cnt_cons in R. unfold refers in R at 1. rewrite E, Nat.eqb_refl in R.
    unfold hget. rewrite Hb. cbn [obind]. unfold cassert. destruct (Z.gtb_spec (b_refs x) 0); [|lia].
    destruct (Z.eqb_spec (b_refs x - 1) 0).
    + eexists. split; [reflexivity|].
      assert (C0 : cnt b hs = 0%nat) by (unfold stat in R; destruct (b_static x); lia).
      assert (NR : forall t, In t hs -> s_body t <> Some b).
      { intros t Ht Et. unfold cnt in C0. assert (X : In t (filter (refers b) hs)) by (apply filter_In; split; [exact Ht|unfold refers; rewrite Et; apply Nat.eqb_refl]).
        destruct (filter (refers b) hs); [destruct X|discriminate]. }
      assert (SM : forall t, In t hs -> same_on h (upd h b None) t).
      { intros t Ht. unfold same_on. destruct (s_body t) as [c|] eqn:Et; [|exact I].
        rewrite Forall_forall in WS'. assert (Kt := WS' t Ht). unfold slice_ok in Kt. rewrite Et in Kt.
        destruct Kt as (y & M & Hy & _). exists y, y. rewrite nth_upd_ne by (intros ->; exact (NR t Ht Et)). auto 10. }
      split; [|unfold same_all; rewrite Forall_forall; exact SM].
      split.
      * intros c y Hc. rewrite nth_upd in Hc. destruct (Nat.eqb_spec c b).
        -- subst. assert (b < length h)%nat by (eapply nth_lt; exact Hb). destruct (Nat.ltb_spec b (length h)); [discriminate|lia].
        -- simpl in Hc. destruct (WB c y Hc) as (VM & R' & P'). rewrite cnt_cons in R'. unfold refers in R' at 1. rewrite E in R'.
           destruct (Nat.eqb_spec b c); [congruence|]. auto.
      * rewrite Forall_forall in *. intros t Ht. eapply same_slice_ok; [apply SM; exact Ht|apply WS'; exact Ht].
    + eexists. split; [reflexivity|]. set (x' := set_refs x (b_refs x - 1)).
      assert (SM : forall t, slice_ok h t -> same_on h (hput h b x') t).
      { intros t Kt. unfold same_on, slice_ok in *. destruct (s_body t) as [c|]; [|exact I].
        destruct Kt as (y & M & Hy & _). exists y. rewrite (nth_hput h b x' _ c Hb). destruct (Nat.eqb_spec c b).
        - subst c. rewrite Hb in Hy. injection Hy as <-. exists x'. repeat split; auto.
        - exists y. repeat split; auto. }
      split; [|unfold same_all; rewrite Forall_forall in *; intros t Ht; apply SM; apply WS'; exact Ht].
      split.
      * intros c y Hc. rewrite (nth_hput h b x' _ c Hb) in Hc. destruct (Nat.eqb_spec c b).
        -- subst c. injection Hc as <-. destruct (WB b x Hb) as ((M & VM) & _ & _). split; [|split].
           ++ exists M. eapply valid_same; [..|exact VM]; reflexivity.
           ++ unfold x', stat in *; cbn [set_refs b_refs b_static] in *; destruct (b_static x); lia.
           ++ unfold x'; cbn [set_refs b_refs]; lia.
        -- destruct (WB c y Hc) as (VM & R' & P'). rewrite cnt_cons in R'. unfold refers in R' at 1. rewrite E in R'.
           destruct (Nat.eqb_spec b c); [congruence|]. auto.
      * rewrite Forall_forall in *. intros t Ht. eapply same_slice_ok; [apply SM|]; apply WS'; exact Ht.
  - exists h. split; [reflexivity|]. split; [|apply same_all_refl; exact WS'].
    split; [|exact WS']. intros c y Hc. destruct (WB c y Hc) as (VM & R & P). rewrite cnt_cons in R.
    unfold refers in R at 1. rewrite E in R. auto.
Qed.

(** A new body with one reference. *)
Lemma fresh_spec h hs x L : WF h hs -> valid x L -> b_refs x = stat x ->
  exists h', addref (h ++ [Some x]) (Some (length h)) = Ok h' /\
    (let s := {| s_body := Some (length h); s_off := 0; s_num := Z.of_nat (length L) |} in
     WF h' (s :: hs) /\ same_all h h' hs /\ view h' s = Some L) /\
     (exists x', nth_error h' (length h) = Some (Some x') /\ valid x' L /\ b_refs x' = 1 + stat x /\ b_static x' = b_static x) /\
     (forall b, (b < length h)%nat -> nth_error h' b = nth_error h b).
Proof.
  intros [WB WS] V R. unfold addref, hget. rewrite nth_error_app2 by lia. rewrite Nat.sub_diag. cbn [nth_error obind].
  eexists. split; [reflexivity|]. set (x' := set_refs x (b_refs x + 1)).
  assert (NE : nth_error (h ++ [Some x]) (length h) = Some (Some x)) by (rewrite nth_error_app2 by lia; rewrite Nat.sub_diag; reflexivity).
  assert (NH : forall c, nth_error (hput (h ++ [Some x]) (length h) x') c = if Nat.eqb c (length h) then Some (Some x') else nth_error h c).
  { intros c. rewrite (nth_hput _ _ x' _ c NE). destruct (Nat.eqb_spec c (length h)); [reflexivity|].
    destruct (Nat.lt_ge_cases c (length h)); [apply nth_error_app1; assumption|].
    rewrite nth_error_app2 by lia. assert (nth_error h c = None) by (apply nth_error_None; lia). rewrite H0.
    destruct (c - length h)%nat as [|k] eqn:K; [lia|]. destruct k; reflexivity. }
  set (h' := hput (h ++ [Some x]) (length h) x') in *.
  assert (V' : valid x' L) by (eapply valid_same; [..|exact V]; reflexivity).
  assert (SM : forall t, slice_ok h t -> same_on h h' t).
  { intros t Kt. unfold same_on, slice_ok in *. destruct (s_body t) as [c|]; [|exact I].
    destruct Kt as (y & M & Hy & _). exists y, y. rewrite NH. assert (c < length h)%nat by (eapply nth_lt; exact Hy).
    destruct (Nat.eqb_spec c (length h)); [lia|]. auto 10. }
  split; [|split].
  - cbv zeta. split; [split|split].
    + intros c y Hc. rewrite NH in Hc. rewrite cnt_cons. unfold refers at 1. cbn [s_body].
      rewrite Nat.eqb_sym in Hc. destruct (Nat.eqb_spec (length h) c).
      * injection Hc as <-. split; [exists L; exact V'|].
        assert (C0 : cnt c hs = 0%nat).
        { unfold cnt. destruct (filter (refers c) hs) as [|t r] eqn:F; [reflexivity|exfalso].
          assert (X : In t (filter (refers c) hs)) by (rewrite F; left; reflexivity).
          apply filter_In in X as [X1 X2]. unfold refers in X2. rewrite Forall_forall in WS. assert (Kt := WS t X1).
          unfold slice_ok in Kt. destruct (s_body t) as [bt|]; [|discriminate]. apply Nat.eqb_eq in X2. subst bt.
          destruct Kt as (y & M & Hy & _). apply nth_lt in Hy. lia. }
        rewrite C0. unfold x', stat in *. simpl. destruct (b_static x); lia.
      * destruct (WB c y Hc) as (VM & R' & P'). auto.
    + constructor.
      * unfold slice_ok. cbn [s_body s_off s_num]. exists x', L. rewrite NH, Nat.eqb_refl. split; [reflexivity|]. split; [exact V'|]. lia.
      * rewrite Forall_forall in *. intros t Ht. eapply same_slice_ok; [apply SM|]; apply WS; exact Ht.
    + unfold same_all. rewrite Forall_forall in *. intros t Ht. apply SM, WS, Ht.
    + rewrite (view_body h' _ (length h) x' L); cbn [s_body s_off s_num]; try lia; try assumption; try reflexivity.
      * f_equal. unfold l_slice. simpl. rewrite Nat2Z.id. apply firstn_all.
      * rewrite NH, Nat.eqb_refl. reflexivity.
  - exists x'. rewrite NH, Nat.eqb_refl. split; [reflexivity|]. split; [exact V'|]. unfold x'; cbn [set_refs b_refs b_static]. split; [rewrite R; ring|reflexivity].
  - intros b Hb. rewrite NH. destruct (Nat.eqb_spec b (length h)); [lia|reflexivity].
Qed.

(** ** unshare *)
Definition exclusive h (s : slice) : Prop :=
  exists b x, s_body s = Some b /\ nth_error h b = Some (Some x) /\ b_refs x = 1 /\ b_static x = false.

Lemma unshare_copy_spec h s hs ex h' s' L : WF h (s :: hs) -> view h s = Some L ->
  (do x <- new_body (elem_at h s) (s_num s) (u32 (s_num s + ex));
   let b := length h in
   do h1 <- addref (h ++ [Some x]) (Some b);
   do h2 <- release h1 (s_body s);
   Ok (h2, {| s_body := Some b; s_off := 0; s_num := s_num s |})) = Ok (h', s') ->
  WF h' (s' :: hs) /\ same_all h h' hs /\ view h' s' = Some L /\ exclusive h' s' /\ s_num s' = s_num s /\ s_off s' = 0.
Proof.
  intros W V H. assert (W0 := W). destruct W as [WB WS]. inversion WS as [|? ? K WS']; subst.
  destruct (view_ok h s K) as (L' & V' & LN). rewrite V in V'. injection V' as <-.
  apply obind_ok in H as (x & NB & H). cbv zeta in H.
  apply obind_ok in H as (h1 & AR & H). apply obind_ok in H as (h2 & RL & H). injection H as <- <-.
  rewrite <- LN in NB.
  assert (B32 : Z.of_nat (length L) < 2^32).
  { rewrite LN. unfold slice_ok in K. destruct (s_body s); [|lia]. destruct K as (y & M & _ & (_ & VN & VB & _) & ? & ? & ?). lia. }
  destruct (new_body_spec _ L _ _ (view_src h s L V K) B32 NB) as (VX & R0 & S0).
  destruct (fresh_spec h (s :: hs) x L W0 VX ltac:(unfold stat; rewrite S0; exact R0)) as (h1' & E1 & F1 & (x' & NX & VX' & RX & SX) & NO).
  rewrite AR in E1. injection E1 as <-. cbv zeta in F1. destruct F1 as (W1 & SA & VW). rewrite LN in *.
  set (s1 := {| s_body := Some (length h); s_off := 0; s_num := s_num s |}) in *.
  assert (W2 : WF h1 (s :: s1 :: hs)) by (eapply WF_perm; [apply perm_swap|exact W1]).
  destruct (release_spec h1 s (s1 :: hs) W2) as (h2' & E2 & W3 & SA2). rewrite RL in E2. injection E2 as <-.
  inversion SA2 as [|? ? S1 S2]; subst. inversion SA as [|? ? S3 S4]; subst.
  split; [exact W3|]. split; [eapply same_all_trans; eassumption|].
  split; [rewrite (same_view _ _ _ S1); exact VW|]. split; [|split; reflexivity].
  (* exclusive *)
  unfold same_on in S1. cbn [s1 s_body] in S1. destruct S1 as (y & y' & Y1 & Y2 & D & _ & _ & ST).
  rewrite NX in Y1. injection Y1 as <-.
  exists (length h), y'. split; [reflexivity|]. split; [exact Y2|].
  destruct W3 as [WB3 WS3]. destruct (WB3 _ _ Y2) as (_ & R3 & _). rewrite cnt_cons in R3. unfold refers in R3 at 1. cbn [s1 s_body] in R3.
  rewrite Nat.eqb_refl in R3.
  assert (C0 : cnt (length h) hs = 0%nat).
  { unfold cnt. destruct (filter (refers (length h)) hs) as [|t r] eqn:F; [reflexivity|exfalso].
    assert (X : In t (filter (refers (length h)) hs)) by (rewrite F; left; reflexivity).
    apply filter_In in X as [X1 X2]. unfold refers in X2. rewrite Forall_forall in WS'. assert (Kt := WS' t X1).
    unfold slice_ok in Kt. destruct (s_body t) as [bt|]; [|discriminate]. apply Nat.eqb_eq in X2. subst bt.
    destruct Kt as (z & M & Hz & _). apply nth_lt in Hz. lia. }
  unfold stat in R3. rewrite ST, SX, S0 in *. split; [lia|reflexivity].
Qed.

Lemma unshare_spec h s hs ex h' s' L : WF h (s :: hs) -> view h s = Some L ->
  unshare h s ex = Ok (h', s') ->
  WF h' (s' :: hs) /\ same_all h h' hs /\ view h' s' = Some L /\ exclusive h' s' /\ s_num s' = s_num s /\
  ((h' = h /\ s' = s /\ exists b x, s_body s = Some b /\ nth_error h b = Some (Some x) /\ b_refs x <= 1) \/ s_off s' = 0).
Proof.
  intros W V H. unfold unshare in H. destruct (s_body s) as [b|] eqn:E.
  - apply obind_ok in H as (x & G & H). apply hget_ok in G. destruct (Z.leb_spec (b_refs x) 1).
    + injection H as <- <-. assert (W0 := W). destruct W as [WB WS]. inversion WS as [|? ? K WS']; subst.
      split; [exact W0|]. split; [apply same_all_refl; exact WS'|]. split; [exact V|]. split; [|split; [reflexivity|left; eauto 10]].
      exists b, x. split; [exact E|]. split; [exact G|].
      destruct (WB b x G) as (_ & R & P). rewrite cnt_cons in R. unfold refers in R at 1. rewrite E, Nat.eqb_refl in R.
      unfold stat in R. destruct (b_static x); [lia|]. split; [lia|reflexivity].
    + rewrite <- E in H. destruct (unshare_copy_spec h s hs ex h' s' L W V H) as (X1 & X2 & X3 & X4 & X5 & X6).
      split; [exact X1|]. split; [exact X2|]. split; [exact X3|]. split; [exact X4|]. auto.
  - rewrite <- E in H. destruct (unshare_copy_spec h s hs ex h' s' L W V H) as (X1 & X2 & X3 & X4 & X5 & X6).
    split; [exact X1|]. split; [exact X2|]. split; [exact X3|]. split; [exact X4|]. auto.
Qed.

Lemma unshare_ok h s hs ex L : WF h (s :: hs) -> view h s = Some L -> 0 <= ex -> s_num s + ex <= 2^32 - 8 ->
  exists h' s', unshare h s ex = Ok (h', s').
Proof.
  intros W V Hex Hb. unfold unshare. assert (W0 := W). destruct W as [WB WS]. inversion WS as [|? ? K WS']; subst.
  destruct (view_ok h s K) as (L' & V' & LN). rewrite V in V'. injection V' as <-.
  assert (U : u32 (s_num s + ex) = s_num s + ex) by (unfold u32; apply Z.mod_small; lia).
  destruct (new_body_ok (elem_at h s) L (u32 (s_num s + ex)) (view_src h s L V K) ltac:(lia) ltac:(lia)) as [x NB].
  rewrite LN in NB.
  destruct (new_body_spec _ L _ _ (view_src h s L V K) ltac:(lia) ltac:(rewrite LN; exact NB)) as (VX & R0 & S0).
  destruct (fresh_spec h (s :: hs) x L W0 VX ltac:(unfold stat; rewrite S0; exact R0)) as (h1 & E1 & (W1 & _) & _).
  destruct (release_spec h1 s ({| s_body := Some (length h); s_off := 0; s_num := Z.of_nat (length L) |} :: hs)) as (h2 & E2 & _).
  { eapply WF_perm; [apply perm_swap|exact W1]. }
  assert (CP : exists h' s', (do x <- new_body (elem_at h s) (s_num s) (u32 (s_num s + ex));
   do h1 <- addref (h ++ [Some x]) (Some (length h));
   do h2 <- release h1 (s_body s);
   Ok (h2, {| s_body := Some (length h); s_off := 0; s_num := s_num s |})) = Ok (h', s')).
  { rewrite NB. cbn [obind]. rewrite E1. cbn [obind]. rewrite E2. cbn [obind]. eauto. }
  destruct (s_body s) as [b|] eqn:E; [|exact CP].
  unfold slice_ok in K. rewrite E in K. destruct K as (y & M & Hy & _).
  unfold hget. rewrite Hy. cbn [obind]. destruct (b_refs y <=? 1); [eauto|exact CP].
Qed.

(** Writing to an exclusively held body. *)
Lemma write_spec h s hs b x x' L' s' : WF h (s :: hs) -> s_body s = Some b -> nth_error h b = Some (Some x) ->
  b_refs x = 1 -> b_static x = false -> valid x' L' -> b_refs x' = b_refs x -> b_static x' = false ->
  s_body s' = Some b -> 0 <= s_off s' -> 0 <= s_num s' -> s_off s' + s_num s' <= Z.of_nat (length L') ->
  WF (hput h b x') (s' :: hs) /\ same_all h (hput h b x') hs /\
  view (hput h b x') s' = Some (l_slice L' (Z.to_nat (s_off s')) (Z.to_nat (s_num s'))).
Proof.
  intros [WB WS] E Hb R1 ST V' R' ST' E' O N B. inversion WS as [|? ? K WS']; subst.
  destruct (WB b x Hb) as (_ & R & _). rewrite cnt_cons in R. unfold refers in R at 1. rewrite E, Nat.eqb_refl in R.
  unfold stat in R. rewrite ST in R. assert (C0 : cnt b hs = 0%nat) by lia.
  assert (NR : forall t, In t hs -> s_body t <> Some b).
  { intros t Ht Et. unfold cnt in C0. assert (X : In t (filter (refers b) hs)) by (apply filter_In; split; [exact Ht|unfold refers; rewrite Et; apply Nat.eqb_refl]).
    destruct (filter (refers b) hs); [destruct X|discriminate]. }
  assert (SM : forall t, In t hs -> same_on h (hput h b x') t).
  { intros t Ht. unfold same_on. destruct (s_body t) as [c|] eqn:Et; [|exact I].
    rewrite Forall_forall in WS'. assert (Kt := WS' t Ht). unfold slice_ok in Kt. rewrite Et in Kt.
    destruct Kt as (y & M & Hy & _). exists y, y. rewrite (nth_hput h b x' _ c Hb).
    destruct (Nat.eqb_spec c b); [subst; destruct (NR t Ht Et)|]. auto 10. }
  assert (NB : nth_error (hput h b x') b = Some (Some x')) by (rewrite (nth_hput h b x' _ b Hb), Nat.eqb_refl; reflexivity).
  split; [split|split].
  - intros c y Hc. rewrite (nth_hput h b x' _ c Hb) in Hc. rewrite cnt_cons. unfold refers at 1. rewrite E'.
    rewrite Nat.eqb_sym in Hc. destruct (Nat.eqb_spec b c).
    + injection Hc as <-. subst c. split; [exists L'; exact V'|]. unfold stat. rewrite ST', R', R1, C0. lia.
    + destruct (WB c y Hc) as (VM & Rc & P). rewrite cnt_cons in Rc. unfold refers in Rc at 1. rewrite E in Rc.
      destruct (Nat.eqb_spec b c); [congruence|]. auto.
  - constructor.
    + unfold slice_ok. rewrite E'. exists x', L'. auto 10.
    + rewrite Forall_forall in *. intros t Ht. eapply same_slice_ok; [apply SM; exact Ht|apply WS'; exact Ht].
  - unfold same_all. rewrite Forall_forall. exact SM.
  - eapply view_body; eassumption.
Qed.

(** Changing only the window of a slice. *)
Lemma window_spec h s hs b x L s' : WF h (s :: hs) -> s_body s = Some b -> nth_error h b = Some (Some x) -> valid x L ->
  s_body s' = Some b -> 0 <= s_off s' -> 0 <= s_num s' -> s_off s' + s_num s' <= Z.of_nat (length L) ->
  WF h (s' :: hs) /\ same_all h h hs /\ view h s' = Some (l_slice L (Z.to_nat (s_off s')) (Z.to_nat (s_num s'))).
Proof.
  intros [WB WS] E Hb V E' O N B. inversion WS as [|? ? K WS']; subst. split; [split|split].
  - intros c y Hc. destruct (WB c y Hc) as (VM & R & P). rewrite cnt_cons in *. unfold refers in *. rewrite E, E' in *. auto.
  - constructor; [|exact WS']. unfold slice_ok. rewrite E'. exists x, L. auto 10.
  - apply same_all_refl; exact WS'.
  - eapply view_body; eassumption.
Qed.
End Heap.
