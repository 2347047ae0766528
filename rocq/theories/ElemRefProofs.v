(** Proofs for references to array elements (C58). *)
From Verif Require Import Base RefModel RefProofs LatchProofs ArrayModel ArraySpec ArrayProofs ArrayHeap ArrayOps ArrayState ElemRefModel ElemRefSpec.
Ltac Zify.zify_post_hook ::= Z.div_mod_to_equations.

Section P.
Context {A : Type}.
Implicit Types (h : heap A) (s : slice) (st : state A).

(** Storage is replaced exactly when num_alloc changes, so (body, num_alloc) names it. *)
Lemma resize_moves (x : body A) m x' mv : 0 <= m <= 2^32 - 8 -> resize x m = Ok (x', mv) -> (mv = true <-> b_alloc x' <> b_alloc x).
Proof.
  intros Hm H. unfold resize in H. destruct (Z.leb_spec m (b_alloc x)).
  - injection H as <- <-. split; congruence.
  - apply obind_ok in H as (d & _ & H). injection H as <- <-. cbn [b_alloc]. split; [intros _|reflexivity].
    destruct (Z.eq_dec m 0) as [->|].
    + set (a1 := if b_alloc x =? 0 then b_alloc x else _). assert (0 <= a1 \/ a1 = b_alloc x) by (unfold a1; destruct (b_alloc x =? 0); [right; reflexivity|left; apply u32_range]).
      destruct (Z.ltb_spec a1 (u64 (Z.lor (u64 (0 - 1)) 7 + 1))); [pose proof (u32_range (u64 (Z.lor (u64 (0 - 1)) 7 + 1))); lia|].
      assert (E0 : u64 (Z.lor (u64 (0 - 1)) 7 + 1) = 0) by reflexivity. rewrite E0 in *. lia.
    + assert (U1 : u64 (m - 1) = m - 1) by (unfold u64; apply Z.mod_small; lia). rewrite U1.
      assert (LU := lor_up (m - 1) 7 ltac:(lia) ltac:(lia)).
      assert (U2 : u64 (Z.lor (m - 1) 7 + 1) = Z.lor (m - 1) 7 + 1) by (unfold u64; apply Z.mod_small; lia). rewrite U2.
      assert (L8 : Z.lor (m - 1) 7 + 1 < 2^32).
      { assert (M8 : (Z.lor (m - 1) 7) <= 2^32 - 9 + 7) by lia. lia. }
      assert (U3 : u32 (Z.lor (m - 1) 7 + 1) = Z.lor (m - 1) 7 + 1) by (unfold u32; apply Z.mod_small; lia). rewrite U3.
      match goal with |- (if ?c <? ?b then _ else _) <> _ => destruct (Z.ltb_spec c b) end; lia.
Qed.

(** ** Which body the result of an operation uses *)
Lemma addref_len h o h' : addref h o = Ok h' -> length h' = length h.
Proof.
  unfold addref. destruct o as [b|]; [|congruence]. intros H. apply obind_ok in H as (x & _ & H). injection H as <-. unfold hput. apply upd_length.
Qed.
Lemma release_len h o h' : release h o = Ok h' -> length h' = length h.
Proof.
  unfold release, cassert. destruct o as [b|]; [|congruence]. intros H. apply obind_ok in H as (x & _ & H).
  destruct (_ >? _) in H; [|discriminate]. destruct (_ =? _) in H; injection H as <-; unfold hput; apply upd_length.
Qed.
Definition from h s s' : Prop := s_body s' = s_body s \/ exists b, s_body s' = Some b /\ (length h <= b)%nat.

Lemma unshare_from h s ex h' s' : unshare h s ex = Ok (h', s') -> from h s s' /\ (length h <= length h')%nat.
Proof.
  unfold unshare. intros H.
  assert (C : (do x <- new_body (elem_at h s) (s_num s) (u32 (s_num s + ex));
    let b := length h in
    do h1 <- addref (h ++ [Some x]) (Some b);
    do h2 <- release h1 (s_body s);
    Ok (h2, {| s_body := Some b; s_off := 0; s_num := s_num s |})) = Ok (h', s') -> from h s s' /\ (length h <= length h')%nat).
  { intros E. apply obind_ok in E as (x & _ & E). cbv zeta in E. apply obind_ok in E as (h1 & E1 & E). apply obind_ok in E as (h2 & E2 & E).
    injection E as <- <-. apply addref_len in E1. apply release_len in E2. rewrite app_length in E1. cbn [length] in E1. split; [|lia]. right. eexists. split; [reflexivity|]. lia. }
  destruct (s_body s) as [b|] eqn:E; [|exact (C H)].
  apply obind_ok in H as (x & _ & H). destruct (_ <=? _) in H; [|exact (C H)]. injection H as <- <-. split; [left; reflexivity|lia].
Qed.
Lemma push_from h s a h' s' : push h s a = Ok (h', s') -> from h s s'.
Proof.
  unfold push. intros H. apply obind_ok in H as ([h1 s1] & U & H). cbn beta iota in H. destruct (unshare_from _ _ _ _ _ U) as [F _].
  destruct (s_body s1) eqn:E; [|discriminate]. apply obind_ok in H as (x & _ & H). apply obind_ok in H as (x' & _ & H). injection H as <- <-.
  unfold from in *. cbn [s_body]. rewrite E in F. exact F.
Qed.
Lemma set_from h s i a h' s' : set h s i a = Ok (h', s') -> from h s s'.
Proof.
  unfold set, cassert. destruct (_ && _); [|discriminate]. intros H. apply obind_ok in H as ([h1 s1] & U & H). cbn beta iota in H. destruct (unshare_from _ _ _ _ _ U) as [F _].
  destruct (s_body s1) eqn:E; [|discriminate]. apply obind_ok in H as (x & _ & H). apply obind_ok in H as (x' & _ & H). injection H as <- <-.
  exact F.
Qed.
Lemma insert_from h s pos w self h' s' : insert h s pos w self = Ok (h', s') -> from h s s'.
Proof.
  unfold insert. destruct (_ && _ && _); [intros H; injection H as <- <-; left; reflexivity|].
  destruct (_ && _ && _); [intros H; injection H as <- <-; left; reflexivity|].
  intros H. apply obind_ok in H as ([h1 s1] & U & H). cbn beta iota in H. destruct (unshare_from _ _ _ _ _ U) as [F _].
  destruct (s_body s1) eqn:E; [|discriminate]. apply obind_ok in H as (x & _ & H). apply obind_ok in H as (x' & _ & H). injection H as <- <-.
  unfold from in *. cbn [s_body]. rewrite E in F. exact F.
Qed.
Lemma remove_from h s at_ len h' s' : remove h s at_ len = Ok (h', s') -> from h s s'.
Proof.
  unfold remove, cassert. cbv zeta. destruct (_ >=? _); [|discriminate]. destruct (_ || _); [intros H; injection H as <- <-; left; reflexivity|].
  destruct (_ =? _); [intros H; injection H as <- <-; left; reflexivity|].
  destruct (_ =? 0); [intros H; injection H as <- <-; left; reflexivity|].
  intros H. apply obind_ok in H as ([h1 s1] & U & H). cbn beta iota in H. destruct (unshare_from _ _ _ _ _ U) as [F _].
  destruct (s_body s1) eqn:E; [|discriminate]. apply obind_ok in H as (x & _ & H). apply obind_ok in H as (x' & _ & H). injection H as <- <-.
  unfold from in *. cbn [s_body]. rewrite E in F. exact F.
Qed.
Lemma delete_from h s at_ h' s' e : delete_at h s at_ = Ok (h', s', e) -> from h s s'.
Proof.
  unfold delete_at. intros H. apply obind_ok in H as (a & _ & H). apply obind_ok in H as ([h1 s1] & R & H). injection H as <- <- <-. exact (remove_from _ _ _ _ _ _ R).
Qed.
Lemma slice_from h s at_ len h' s' : slice_op h s at_ len = Ok (h', s') -> s_body s' = None \/ s_body s' = s_body s.
Proof.
  unfold slice_op, cassert. destruct (_ >=? -1); [|discriminate]. destruct (_ || _); [intros H; injection H as <- <-; left; reflexivity|].
  unfold mk_slice, cassert. intros H. apply obind_ok in H as (h1 & _ & H). destruct (s_body s) as [b|] eqn:E; [|discriminate].
  apply obind_ok in H as (x & _ & H). destruct (_ <? _) in H; [|discriminate]. destruct (_ <? _) in H; [|discriminate]. injection H as <- <-. right. reflexivity.
Qed.
Lemma drop_from h s n h' s' : drop h s n = Ok (h', s') -> s_body s' = s_body s.
Proof.
  unfold drop, cassert. destruct (_ >=? _); [|discriminate]. intros H. apply obind_ok in H as ([h1 s1] & C & H). cbn beta iota in H.
  unfold copy in C. apply obind_ok in C as (h0 & _ & C). injection C as <- <-.
  apply obind_ok in H as ([h2 s2] & R & H). cbn beta iota in H. apply obind_ok in H as ([h3 s3] & C & H). cbn beta iota in H. apply obind_ok in H as (h4 & _ & H). injection H as <- <-.
  unfold copy in C. apply obind_ok in C as (h5 & _ & C). injection C as <- <-.
  unfold remove, cassert in R. cbv zeta in R. destruct (_ >=? _) in R; [|discriminate]. destruct (_ || _) in R; [injection R as <- <-; reflexivity|].
  destruct (_ =? _) in R; [injection R as <- <-; reflexivity|]. rewrite Z.eqb_refl in R. injection R as <- <-; reflexivity.
Qed.

Definition origin st (o : op A) (s' : slice) : Prop :=
  s_body s' = None \/ (exists s, nth_error (vars st) (target o) = Some s /\ s_body s' = s_body s) \/
  (exists b, s_body s' = Some b /\ (length (hp st) <= b)%nat) \/
  (exists v s, shares o v = true /\ nth_error (vars st) v = Some s /\ s_body s' = s_body s).

Lemma assign_origin st o d r st' : assign st d r = Ok st' -> d = target o ->
  (forall h t, r = Ok (h, t) -> origin st o t) -> forall s', nth_error (vars st') d = Some s' -> origin st o s'.
Proof.
  intros H -> P s' E. unfold assign in H. destruct (nth_error (vars st) (target o)) as [old|] eqn:EO.
  - apply obind_ok in H as ([h t] & R & H). cbn beta iota in H. apply obind_ok in H as (h1 & _ & H). apply obind_ok in H as (h2 & _ & H). apply obind_ok in H as (h3 & _ & H).
    injection H as <-. cbn [vars] in E. rewrite nth_upd in E. rewrite Nat.eqb_refl in E. destruct (Nat.ltb_spec (target o) (length (vars st))); [|apply nth_lt in EO; lia].
    injection E as <-. exact (P h t R).
  - injection H as <-. congruence.
Qed.
Lemma store_origin st o v s r st' : store st v r = Ok st' -> v = target o -> nth_error (vars st) v = Some s ->
  (forall h t, r = Ok (h, t) -> from (hp st) s t) -> forall s', nth_error (vars st') v = Some s' -> origin st o s'.
Proof.
  intros H EV ES P s' E. unfold store in H. apply obind_ok in H as ([h t] & R & H). injection H as <-. cbn [vars] in E. rewrite nth_upd in E. rewrite Nat.eqb_refl in E.
  destruct (Nat.ltb_spec v (length (vars st))); [|apply nth_lt in ES; lia]. injection E as <-. destruct (P h t R) as [F|F]; [right; left; exists s; subst v; auto|right; right; left; exact F].
Qed.

Lemma step_origin st o st' s' : step st o = Ok st' -> nth_error (vars st') (target o) = Some s' -> origin st o s'.
Proof.
  intros H E.
  assert (NOP : st' = st -> origin st o s') by (intros ->; right; left; exists s'; auto).
  assert (FROM : forall s t v, nth_error (vars st) v = Some s -> shares o v = true -> s_body t = s_body s -> origin st o t) by (intros s t v E1 E2 E3; right; right; right; exists v, s; auto).
  destruct o as [d l al|d l|d|d v|d v a0 len|d v n|d v n|d v n|d v a|d v n|v i a|v a|v pos w|v a0 len|v a0|v|v|v]; cbn [step target] in H, E.
  - refine (assign_origin st (OMake d l al) d _ st' H eq_refl _ s' E). intros h t R. unfold make in R. apply obind_ok in R as (x & _ & R). apply obind_ok in R as (h1 & _ & R). injection R as <- <-. right. right. left. eexists. split; [reflexivity|lia].
  - refine (assign_origin st (OStatic d l) d _ st' H eq_refl _ s' E). intros h t R. unfold make_static in R. cbv zeta in R. apply obind_ok in R as (h1 & _ & R). injection R as <- <-. right. right. left. eexists. split; [reflexivity|lia].
  - refine (assign_origin st (OEmpty d) d _ st' H eq_refl _ s' E). intros h t R. injection R as <- <-. left. reflexivity.
  - destruct (nth_error (vars st) v) as [s|] eqn:Ev; [|injection H as <-; apply NOP; reflexivity].
    refine (assign_origin st (OCopy d v) d _ st' H eq_refl _ s' E). intros h t R. unfold copy in R. apply obind_ok in R as (h1 & _ & R). injection R as <- <-. apply (FROM s s v Ev); [apply Nat.eqb_refl|reflexivity].
  - destruct (nth_error (vars st) v) as [s|] eqn:Ev; [|injection H as <-; apply NOP; reflexivity].
    refine (assign_origin st (OSlice d v a0 len) d _ st' H eq_refl _ s' E). intros h t R. destruct (slice_from _ _ _ _ _ _ R) as [F|F]; [left; exact F|]. exact (FROM s t v Ev (Nat.eqb_refl _) F).
  - destruct (nth_error (vars st) v) as [s|] eqn:Ev; [|injection H as <-; apply NOP; reflexivity].
    refine (assign_origin st (OHead d v n) d _ st' H eq_refl _ s' E). intros h t R. destruct (slice_from _ _ _ _ _ _ R) as [F|F]; [left; exact F|]. exact (FROM s t v Ev (Nat.eqb_refl _) F).
  - destruct (nth_error (vars st) v) as [s|] eqn:Ev; [|injection H as <-; apply NOP; reflexivity].
    refine (assign_origin st (OTail d v n) d _ st' H eq_refl _ s' E). intros h t R. destruct (slice_from _ _ _ _ _ _ R) as [F|F]; [left; exact F|]. exact (FROM s t v Ev (Nat.eqb_refl _) F).
  - destruct (nth_error (vars st) v) as [s|] eqn:Ev; [|injection H as <-; apply NOP; reflexivity].
    refine (assign_origin st (OShorter d v n) d _ st' H eq_refl _ s' E). intros h t R. destruct (slice_from _ _ _ _ _ _ R) as [F|F]; [left; exact F|]. exact (FROM s t v Ev (Nat.eqb_refl _) F).
  - destruct (nth_error (vars st) v) as [s|] eqn:Ev; [|injection H as <-; apply NOP; reflexivity].
    refine (assign_origin st (OPlus d v a) d _ st' H eq_refl _ s' E). intros h t R. unfold plus in R. apply obind_ok in R as (x & _ & R). apply obind_ok in R as (h1 & AR & R).
    apply addref_len in AR. rewrite app_length in AR. cbn [length] in AR. right. right. left. destruct (push_from _ _ _ _ _ R) as [F|(b & F & B)]; [rewrite F; eexists; split; [reflexivity|lia]|exists b; split; [exact F|lia]].
  - destruct (nth_error (vars st) v) as [s|] eqn:Ev; [|injection H as <-; apply NOP; reflexivity].
    refine (assign_origin st (ODrop d v n) d _ st' H eq_refl _ s' E). intros h t R. exact (FROM s t v Ev (Nat.eqb_refl _) (drop_from _ _ _ _ _ R)).
  - destruct (nth_error (vars st) v) as [s|] eqn:Ev; [|injection H as <-; apply NOP; reflexivity].
    refine (store_origin st (OSet v i a) v s _ st' H eq_refl Ev _ s' E). intros h t R. exact (set_from _ _ _ _ _ _ R).
  - destruct (nth_error (vars st) v) as [s|] eqn:Ev; [|injection H as <-; apply NOP; reflexivity].
    refine (store_origin st (OPush v a) v s _ st' H eq_refl Ev _ s' E). intros h t R. exact (push_from _ _ _ _ _ R).
  - destruct (nth_error (vars st) v) as [s|] eqn:Ev; [|injection H as <-; apply NOP; reflexivity].
    destruct (nth_error (vars st) w) as [sw|] eqn:Ew; [|injection H as <-; apply NOP; reflexivity].
    refine (store_origin st (OInsert v pos w) v s _ st' H eq_refl Ev _ s' E). intros h t R. exact (insert_from _ _ _ _ _ _ _ R).
  - destruct (nth_error (vars st) v) as [s|] eqn:Ev; [|injection H as <-; apply NOP; reflexivity].
    refine (store_origin st (ORemove v a0 len) v s _ st' H eq_refl Ev _ s' E). intros h t R. exact (remove_from _ _ _ _ _ _ R).
  - destruct (nth_error (vars st) v) as [s|] eqn:Ev; [|injection H as <-; apply NOP; reflexivity].
    apply obind_ok in H as ([[h1 s1] e] & R & H). refine (store_origin st (ODeleteAt v a0) v s _ st' H eq_refl Ev _ s' E). intros h t R'. injection R' as <- <-. exact (delete_from _ _ _ _ _ _ R).
  - destruct (nth_error (vars st) v) as [s|] eqn:Ev; [|injection H as <-; apply NOP; reflexivity].
    apply obind_ok in H as ([[h1 s1] e] & R & H). refine (store_origin st (OShift v) v s _ st' H eq_refl Ev _ s' E). intros h t R'. injection R' as <- <-.
    unfold shift, cassert in R. destruct (_ >? _) in R; [|discriminate]. exact (delete_from _ _ _ _ _ _ R).
  - destruct (nth_error (vars st) v) as [s|] eqn:Ev; [|injection H as <-; apply NOP; reflexivity].
    apply obind_ok in H as ([[h1 s1] e] & R & H). refine (store_origin st (OPull v) v s _ st' H eq_refl Ev _ s' E). intros h t R'. injection R' as <- <-.
    unfold pull, cassert in R. destruct (_ >? _) in R; [|discriminate]. apply obind_ok in R as (a & _ & R). injection R as _ <- _. left. reflexivity.
  - destruct (nth_error (vars st) v) as [s|] eqn:Ev; [|injection H as <-; apply NOP; reflexivity].
    refine (store_origin st (OClear v) v s _ st' H eq_refl Ev _ s' E). intros h t R. injection R as _ <-. left. reflexivity.
Qed.

(** ** Counting the variables on one body *)
Lemma cnt_app b (l1 l2 : list slice) : cnt b (l1 ++ l2) = (cnt b l1 + cnt b l2)%nat.
Proof. unfold cnt. rewrite filter_app, app_length. reflexivity. Qed.
Lemma cnt_zero b (l : list slice) : (forall t, In t l -> s_body t <> Some b) -> cnt b l = 0%nat.
Proof.
  induction l as [|t l IH]; intros H; [reflexivity|]. rewrite cnt_cons, IH by (intros u Hu; apply H; right; exact Hu). unfold refers.
  specialize (H t (or_introl eq_refl)). destruct (s_body t) as [c|]; [|reflexivity]. destruct (Nat.eqb_spec c b); [congruence|reflexivity].
Qed.
Lemma cnt_one b (l : list slice) v s : nth_error l v = Some s -> s_body s = Some b ->
  (forall w t, nth_error l w = Some t -> w <> v -> s_body t <> Some b) -> cnt b l = 1%nat.
Proof.
  intros E EB O. destruct (split_at _ _ _ E) as (l1 & l2 & EL & EV). subst l v. rewrite cnt_app, cnt_cons.
  rewrite (cnt_zero b l1), (cnt_zero b l2).
  - unfold refers. rewrite EB, Nat.eqb_refl. reflexivity.
  - intros t Ht. apply In_nth_error in Ht as (k & Hk). apply (O (length l1 + S k)%nat); [|lia]. rewrite nth_error_app2 by lia. replace (length l1 + S k - length l1)%nat with (S k) by lia. exact Hk.
  - intros t Ht. apply In_nth_error in Ht as (k & Hk). assert (K := nth_lt _ _ _ Hk). apply (O k); [|lia]. rewrite nth_error_app1 by exact K. exact Hk.
Qed.
Lemma cnt_only b (l : list slice) v s w t : cnt b l = 1%nat -> nth_error l v = Some s -> s_body s = Some b -> nth_error l w = Some t -> s_body t = Some b -> w = v.
Proof.
  intros C E EB Ew Et. destruct (Nat.eq_dec w v) as [|N]; [assumption|]. exfalso.
  destruct (split_at _ _ _ E) as (l1 & l2 & EL & EV). subst l v. rewrite cnt_app, cnt_cons in C. unfold refers in C at 1. rewrite EB, Nat.eqb_refl in C.
  assert (IN : In t l1 \/ In t l2).
  { destruct (Nat.lt_ge_cases w (length l1)); [left; rewrite nth_error_app1 in Ew by assumption; eapply nth_error_In; exact Ew|].
    right. rewrite nth_error_app2 in Ew by assumption. destruct (w - length l1)%nat eqn:K; [lia|]. eapply nth_error_In; exact Ew. }
  destruct IN as [IN|IN]; apply (fun H => in_cnt _ _ _ H Et) in IN; lia.
Qed.

(** ** What a usable reference is *)
Definition good st (m : bool) (v : nat) (i : Z) (p : ptr) : Prop :=
  exists s x, nth_error (vars st) v = Some s /\ s_body s = Some (p_body p) /\ nth_error (hp st) (p_body p) = Some (Some x) /\
    b_alloc x = p_alloc p /\ p_cell p = s_off s + i /\ 0 <= i < s_num s /\ (m = true -> b_refs x = 1 /\ b_static x = false).

Lemma good_deref st m v i p : Inv st -> good st m v i p -> exists l a, contents st v = Some l /\ nth_error l (Z.to_nat i) = Some a /\ 0 <= i < Z.of_nat (length l) /\ deref (hp st) p = Ok a.
Proof.
  intros I (s & x & Ev & Eb & Ex & Al & Ce & Bi & _). destruct (Inv_view st v s I Ev) as (KS & L & V & C). destruct (view_len _ s L KS V) as (LN & _).
  destruct (view_elem (hp st) s L i V KS ltac:(lia)) as (a & EA & NA). exists L, a. split; [exact C|]. split; [exact NA|]. split; [lia|].
  unfold elem_at in EA. rewrite Eb in EA. unfold deref. rewrite Ce, <- Al.
  destruct (proj2 (hget_ok (hp st) (p_body p) x) Ex). apply obind_ok in EA as (x' & EX & EA). apply hget_ok in EX. rewrite Ex in EX. injection EX as <-.
  unfold hget. rewrite Ex. cbn [obind]. rewrite Z.eqb_refl. exact EA.
Qed.

Lemma good_excl st v i p s x : Inv st -> good st true v i p -> nth_error (vars st) v = Some s -> nth_error (hp st) (p_body p) = Some (Some x) ->
  cnt (p_body p) (vars st) = 1%nat.
Proof.
  intros [WB _] (s0 & x0 & Ev & Eb & Ex & _ & _ & _ & M) _ _. destruct (M eq_refl) as [R S]. destruct (WB _ _ Ex) as (_ & RC & _). unfold stat in RC. rewrite S in RC. lia.
Qed.

(** A reference to an element of a variable not changed stays good; a writable
    one if the changed variable does not share its body. *)
Lemma good_frame st st' d m v i p : Inv st -> Inv st' -> v <> d -> good st m v i p ->
  (forall w t, w <> d -> nth_error (vars st) w = Some t -> nth_error (vars st') w = Some t /\ same_on (hp st) (hp st') t) ->
  length (vars st') = length (vars st) ->
  (m = true -> forall s', nth_error (vars st') d = Some s' -> s_body s' <> Some (p_body p)) ->
  good st' m v i p.
Proof.
  intros I I' N G F LV O. assert (G0 := G). destruct G as (s & x & Ev & Eb & Ex & Al & Ce & Bi & M).
  destruct (F v s N Ev) as [Ev' SO]. unfold same_on in SO. rewrite Eb in SO. destruct SO as (y & x' & Ey & Ex' & _ & _ & A' & S'). rewrite Ex in Ey. injection Ey as <-.
  exists s, x'. repeat (split; [first [assumption|congruence]|]). intros ->. destruct (M eq_refl) as [R S]. split; [|congruence].
  destruct I' as [WB' _]. destruct (WB' _ _ Ex') as (_ & RC & _). rewrite RC. unfold stat. rewrite S', S.
  assert (C1 := good_excl st v i p s x I G0 Ev Ex).
  rewrite (cnt_one (p_body p) (vars st') v s Ev' Eb); [lia|].
  intros w t Ew NW. destruct (Nat.eq_dec w d) as [->|ND]; [exact (O eq_refl t Ew)|].
  destruct (nth_error (vars st) w) as [t0|] eqn:Et0; [|apply nth_error_None in Et0; apply nth_lt in Ew; lia].
  destruct (F w t0 ND Et0) as [Ew' _]. rewrite Ew' in Ew. injection Ew as <-. intros BT. apply NW. exact (cnt_only _ _ v s w t0 C1 Ev Eb Et0 BT).
Qed.

(** An ordinary operation. *)
Lemma good_step st o st' m v i p : Inv st -> op_ok st o -> step st o = Ok st' -> good st m v i p -> v <> target o ->
  (m = true -> shares o v = false) -> good st' m v i p.
Proof.
  intros I K H G N SH. assert (OR := step_origin st o st').
  destruct (step_spec st o st' I K H) as [[-> _]|(L & (I' & LV & _ & _ & F) & _)]; [exact G|].
  refine (good_frame st st' (target o) m v i p I I' N G F LV _). intros -> s' Es BS.
  assert (G0 := G). destruct G as (s & x & Ev & Eb & Ex & Al & Ce & Bi & M). assert (C1 := good_excl st v i p s x I G0 Ev Ex).
  destruct (OR s' H Es) as [Q|[(t & Et & Q)|[(b & Q & B)|(w & t & SW & Et & Q)]]].
  - congruence.
  - rewrite BS in Q. symmetry in Q. exact (N (eq_sym (cnt_only _ _ v s _ t C1 Ev Eb Et Q))).
  - assert (b = p_body p) by congruence. subst b. apply nth_lt in Ex. lia.
  - rewrite BS in Q. symmetry in Q. assert (w = v) by exact (cnt_only _ _ v s w t C1 Ev Eb Et Q). subst w. rewrite (SH eq_refl) in SW. discriminate.
Qed.

(** Unshare leaves every live body's storage alone. *)
Lemma unshare_keeps h s ex h1 s1 b x : unshare h s ex = Ok (h1, s1) -> nth_error h b = Some (Some x) ->
  exists x', nth_error h1 b = Some (Some x') /\ b_data x' = b_data x /\ b_alloc x' = b_alloc x.
Proof.
  unfold unshare. intros H Hb.
  assert (C : (forall y, s_body s = Some b -> nth_error h b = Some (Some y) -> 1 < b_refs y) ->
    (do x <- new_body (elem_at h s) (s_num s) (u32 (s_num s + ex));
    let b := length h in
    do h1 <- addref (h ++ [Some x]) (Some b);
    do h2 <- release h1 (s_body s);
    Ok (h2, {| s_body := Some b; s_off := 0; s_num := s_num s |})) = Ok (h1, s1) ->
    exists x', nth_error h1 b = Some (Some x') /\ b_data x' = b_data x /\ b_alloc x' = b_alloc x).
  { intros RF E. apply obind_ok in E as (y & _ & E). cbv zeta in E. apply obind_ok in E as (h2 & E1 & E). apply obind_ok in E as (h3 & E2 & E). injection E as <- _.
    assert (LB := nth_lt _ _ _ Hb).
    assert (K : nth_error h2 b = Some (Some x)).
    { unfold addref in E1. apply obind_ok in E1 as (z & GZ & E1). injection E1 as <-. apply hget_ok in GZ. rewrite (nth_hput _ _ _ _ _ GZ).
      destruct (Nat.eqb_spec b (length h)); [lia|]. rewrite nth_error_app1 by lia. exact Hb. }
    unfold release, cassert in E2. destruct (s_body s) as [c|] eqn:Es; [|injection E2 as <-; exists x; auto].
    apply obind_ok in E2 as (z & GZ & E2). apply hget_ok in GZ. destruct (_ >? _) in E2; [|discriminate].
    destruct (Nat.eq_dec c b) as [->|NC].
    - rewrite K in GZ. injection GZ as <-. specialize (RF x eq_refl Hb). destruct (Z.eqb_spec (b_refs x - 1) 0); [lia|]. injection E2 as <-.
      rewrite (nth_hput _ _ _ _ _ K), Nat.eqb_refl. eexists. split; [reflexivity|]. auto.
    - exists x. split; [|auto]. destruct (_ =? 0) in E2; injection E2 as <-.
      + rewrite nth_upd. destruct (Nat.eqb_spec b c); [congruence|]. cbn [andb]. exact K.
      + rewrite (nth_hput _ _ _ _ _ GZ). destruct (Nat.eqb_spec b c); [congruence|]. exact K. }
  destruct (s_body s) as [c|] eqn:Es; [|apply C; [intros y E; discriminate|exact H]].
  apply obind_ok in H as (y & GY & H). apply hget_ok in GY. destruct (Z.leb_spec (b_refs y) 1).
  - injection H as <- _. exists x. auto.
  - apply C; [|exact H]. intros z E Hz. injection E as ->. rewrite GY in Hz. injection Hz as <-. lia.
Qed.
Lemma deref_unshare h s ex h1 s1 p a : unshare h s ex = Ok (h1, s1) -> deref h p = Ok a -> deref h1 p = Ok a.
Proof.
  intros U D. unfold deref in *. apply obind_ok in D as (x & GX & D). apply hget_ok in GX.
  destruct (unshare_keeps h s ex h1 s1 _ x U GX) as (x' & E & ED & EA). unfold hget. rewrite E. cbn [obind]. rewrite EA, ED. exact D.
Qed.

(** set with a reference is set with what it refers to. *)
Lemma set_ref_eq h s i p a : deref h p = Ok a -> set_ref h s i p = set h s i a.
Proof.
  intros D. unfold set_ref, elem_mut, set, cassert. destruct (_ && _); [|reflexivity].
  destruct (unshare h s 0) as [[h1 s1]| |] eqn:U; cbn [obind]; try reflexivity. destruct (s_body s1) as [b|] eqn:Es; [|reflexivity].
  destruct (hget h1 b) as [x| |] eqn:G; cbn [obind]; try reflexivity. rewrite (deref_unshare _ _ _ _ _ _ _ U D). cbn [obind].
  unfold assign_to. cbn [p_body p_alloc p_cell]. rewrite G. cbn [obind]. rewrite Z.eqb_refl. destruct (cell_wr (b_data x) (s_off s1 + i) a); reflexivity.
Qed.

Lemma insert_one_ext x pos (f g : Z -> outcome A) : f 0 = g 0 -> body_insert x pos (Ext f) 1 = body_insert x pos (Ext g) 1.
Proof.
  intros E. unfold body_insert. destruct (b_refs x <=? 1); cbn [cassert]; [|reflexivity]. destruct (1 <=? 0); [reflexivity|].
  destruct (pos <=? b_num x); cbn [cassert]; [|reflexivity]. cbv zeta. destruct (_ >=? _); cbn [cassert]; [|reflexivity].
  destruct (resize x _) as [r| |]; cbn [obind]; try reflexivity.
  destruct (if b_num x >? pos then _ else _) as [d1| |]; cbn [obind]; try reflexivity.
  change (Z.to_nat 1) with 1%nat. cbn [copy_in]. rewrite E. reflexivity.
Qed.

(** push of a reference to an element of another array is push of that element. *)
Lemma push_ref_eq st w s m v i p a : Inv st -> good st m v i p -> v <> w -> nth_error (vars st) w = Some s -> deref (hp st) p = Ok a ->
  push_ref (hp st) s p = push (hp st) s a.
Proof.
  intros I G N Ew D. unfold push_ref, push. destruct (unshare (hp st) s 1) as [[h1 s1]| |] eqn:U; cbn [obind]; try reflexivity.
  destruct (s_body s1) as [b|] eqn:Es; [|reflexivity]. destruct (hget h1 b) as [x| |] eqn:GX; cbn [obind]; try reflexivity.
  destruct G as (t & y & Ev & Eb & Ey & _). assert (LB := nth_lt _ _ _ Ey).
  assert (NB : p_body p <> b).
  { intros EQ. rewrite EQ in Ey, Eb, LB. destruct (unshare_from _ _ _ _ _ U) as [[F|(c & F & B)] _]; [|rewrite Es in F; injection F as ->; lia].
    rewrite Es in F. unfold unshare in U. rewrite <- F in U. unfold hget in U at 1. rewrite Ey in U. cbn [obind] in U.
    destruct (Z.leb_spec (b_refs y) 1).
    - destruct I as [WB _]. destruct (WB _ _ Ey) as (_ & RC & _). assert (cnt b (vars st) <> 1%nat).
      { intros C1. apply N. symmetry. exact (cnt_only b (vars st) v t w s C1 Ev Eb Ew (eq_sym F)). }
      assert (1 <= cnt b (vars st))%nat by exact (in_cnt _ _ _ (nth_error_In _ _ Ev) Eb). unfold stat in RC. destruct (b_static y); lia.
    - apply obind_ok in U as (z & _ & U). cbv zeta in U. apply obind_ok in U as (h2 & _ & U). apply obind_ok in U as (h3 & _ & U).
      assert (s_body s1 = Some (length (hp st))) by (injection U as _ <-; reflexivity). assert (b = length (hp st)) by congruence. lia. }
  destruct (Nat.eqb_spec (p_body p) b); [contradiction|].
  rewrite (insert_one_ext x (s_num s1) (fun _ => deref h1 p) (fun j => rdZ [a] j)); [reflexivity|].
  rewrite (deref_unshare _ _ _ _ _ _ _ U D). reflexivity.
Qed.

(** elem_mut: contents stay, the reference is good, and Unshare does nothing if
    there is a writable reference already. *)
Lemma elem_mut_spec st v s i r p : Inv st -> nth_error (vars st) v = Some s -> elem_mut (hp st) s i = Ok (r, p) ->
  exists st' l, contents st v = Some l /\ 0 <= i < Z.of_nat (length l) /\ store st v (Ok r) = Ok st' /\ result st st' v l /\ good st' true v i p /\
    (forall s', nth_error (vars st') v = Some s' -> from (hp st) s s') /\
    (forall j q, good st true v j q -> st' = st).
Proof.
  intros I Ev H. destruct (Inv_view st v s I Ev) as (KS & L & V & C). destruct (store_spec st v s (fun _ => True) Ev I) as (hs & WS & _ & ST).
  unfold elem_mut, cassert in H. destruct (_ && _) eqn:EB in H; [|discriminate]. apply andb_true_iff in EB as [EB _]. apply andb_true_iff in EB as [EA EB]. apply Z.leb_le in EA. apply Z.ltb_lt in EB.
  apply obind_ok in H as ([h1 s1] & U & H). cbn beta iota in H. destruct (s_body s1) as [b|] eqn:Es; [|discriminate].
  apply obind_ok in H as (x & GX & H). injection H as <- <-. apply hget_ok in GX.
  destruct (unshare_spec _ _ _ _ _ _ _ WS V U) as (W1 & SA & V1 & (b' & x' & Eb' & Ex' & R1 & S1) & N1 & OF).
  assert (b' = b) by congruence. subst b'. assert (x' = x) by congruence. subst x'.
  destruct (view_len _ s L KS V) as (LN & _).
  set (st' := {| hp := h1; vars := upd (vars st) v s1 |}). exists st', L. split; [exact C|]. split; [lia|]. split; [reflexivity|].
  assert (NV : nth_error (vars st') v = Some s1).
  { cbn [vars st']. rewrite nth_upd, Nat.eqb_refl. destruct (Nat.ltb_spec v (length (vars st))); [reflexivity|apply nth_lt in Ev; lia]. }
  split; [apply (ST (h1, s1) L st'); [split; [exact W1|split; [exact SA|exact V1]]|reflexivity]|].
  split; [exists s1, x; cbn [p_body p_alloc p_cell]; repeat (split; [first [assumption|reflexivity|lia]|]); auto|].
  split; [intros s' E; rewrite NV in E; injection E as <-; exact (proj1 (unshare_from _ _ _ _ _ U))|].
  intros j q (s0 & y & E0 & B0 & Y0 & _ & _ & _ & M0). assert (s0 = s) by congruence. subst s0. destruct (M0 eq_refl) as [R0 _].
  unfold unshare in U. rewrite B0 in U. unfold hget in U at 1. rewrite Y0 in U. cbn [obind] in U. rewrite R0 in U. cbn in U.
  assert (h1 = hp st) by congruence. assert (s1 = s) by congruence. subst h1 s1. unfold st'. rewrite LatchProofs.upd_same by exact Ev. destruct st; reflexivity.
Qed.

(** Writing through a writable reference is set on the array it refers to. *)
Lemma put_eq st v i p a : good st true v i p -> Inv st ->
  exists st', step st (OSet v i a) = Ok st' /\ assign_to (hp st) p a = Ok (hp st') /\ vars st' = vars st /\
    (forall m j q, good st m v j q -> good st' m v j q).
Proof.
  intros (s & x & Ev & Eb & Ex & Al & Ce & Bi & M) I. destruct (M eq_refl) as [R S]. destruct (Inv_view st v s I Ev) as (KS & L & V & C).
  assert (KS0 := KS). unfold slice_ok in KS. rewrite Eb in KS. destruct KS as (x1 & L1 & Ex1 & VL & O & N & B). rewrite Ex in Ex1. injection Ex1 as <-.
  assert (W : exists d, cell_wr (b_data x) (s_off s + i) a = Ok d).
  { unfold cell_wr. assert (AL := agree_len _ _ (proj1 VL)). destruct (Z.leb_spec 0 (s_off s + i)); [|lia]. destruct (Z.ltb_spec (s_off s + i) (Z.of_nat (length (b_data x)))); [|lia]. cbn [andb]. eauto. }
  destruct W as [d W]. set (y := {| b_data := d; b_num := b_num x; b_alloc := b_alloc x; b_refs := b_refs x; b_static := b_static x |}).
  exists {| hp := hput (hp st) (p_body p) y; vars := vars st |}. split; [|split; [|split; [reflexivity|]]].
  - cbn [step]. rewrite Ev. unfold set, cassert. rewrite Eb. destruct (Z.leb_spec 0 i); [|lia]. destruct (Z.ltb_spec i (s_num s)); [|lia]. cbn [andb].
    unfold unshare. rewrite Eb. unfold hget at 1. rewrite Ex. cbn [obind]. rewrite R. cbn [Z.leb Z.compare Pos.compare Pos.compare_cont obind]. rewrite Eb.
    unfold hget. rewrite Ex. cbn [obind]. rewrite W. cbn [obind store]. unfold store. cbn [obind]. rewrite LatchProofs.upd_same by exact Ev. reflexivity.
  - unfold assign_to, hget. rewrite Ex. cbn [obind]. rewrite Al, Z.eqb_refl, Ce, W. cbn [obind]. unfold y. cbn [hp]. rewrite Al. reflexivity.
  - intros m j q (s2 & x2 & E2 & B2 & X2 & A2 & C2 & I2 & M2). assert (s2 = s) by congruence. subst s2. assert (EP : p_body q = p_body p) by congruence. rewrite EP in *.
    assert (x2 = x) by congruence. subst x2. exists s, y. cbn [vars hp]. rewrite EP. split; [exact E2|]. split; [exact B2|]. split; [rewrite (nth_hput _ _ _ _ _ Ex), Nat.eqb_refl; reflexivity|].
    split; [exact A2|]. split; [exact C2|]. split; [exact I2|exact M2].
Qed.

(** ** Whole programs *)
Implicit Types (rs : rstate A) (ls : list live).
Definition RI rs ls : Prop :=
  Inv (r_st rs) /\ length (r_refs rs) = length ls /\
  forall r m v i, nth_error ls r = Some (Some (m, v, i)) -> exists p, nth_error (r_refs rs) r = Some (Some p) /\ good (r_st rs) m v i p /\ (m = true -> is_int i).

Lemma rinit_RI n k : RI (rinit n k) (repeat None k).
Proof.
  split; [apply init_inv|]. split; [cbn; rewrite !repeat_length; reflexivity|]. intros r m v i E.
  exfalso. apply nth_error_In, repeat_spec in E. discriminate.
Qed.

Lemma keep_inv f ls r m v i : nth_error (map (keep f) ls) r = Some (Some (m, v, i)) -> nth_error ls r = Some (Some (m, v, i)) /\ f m v = true.
Proof.
  rewrite nth_error_map. destruct (nth_error ls r) as [[[[m' v'] i']|]|]; cbn; try discriminate.
  destruct (f m' v') eqn:E; [|discriminate]. intros H. injection H as -> -> ->. auto.
Qed.
Lemma on_ref_good rs ls r m v i B (k : ptr -> outcome B) : RI rs ls -> nth_error ls r = Some (Some (m, v, i)) ->
  exists p l a, on_ref rs r k = k p /\ good (r_st rs) m v i p /\ contents (r_st rs) v = Some l /\ nth_error l (Z.to_nat i) = Some a /\ 0 <= i < Z.of_nat (length l) /\ deref (hp (r_st rs)) p = Ok a.
Proof.
  intros (I & _ & G) E. destruct (G r m v i E) as (p & Ep & GP & _). destruct (good_deref _ _ _ _ _ I GP) as (l & a & C & Na & Bi & D). exists p, l, a. unfold on_ref. rewrite Ep. auto 10.
Qed.
Lemma RI_of rs st' ls ls' : RI rs ls -> Inv st' -> length ls' = length ls ->
  (forall r m v i, nth_error ls' r = Some (Some (m, v, i)) -> nth_error ls r = Some (Some (m, v, i)) /\ forall p, good (r_st rs) m v i p -> good st' m v i p) ->
  RI (with_st rs st') ls'.
Proof.
  intros (_ & L & G) I LL F. split; [exact I|]. split; [cbn; congruence|]. intros r m v i E. destruct (F r m v i E) as [E' GG]. destruct (G r m v i E') as (p & Ep & GP & BI). exists p. split; [exact Ep|]. split; [exact (GG p GP)|exact BI].
Qed.

(** In place: set on an array that has a writable reference. *)
Lemma set_good st v i a st' m w j q : Inv st -> op_ok st (OSet v i a) -> step st (OSet v i a) = Ok st' -> good st m w j q -> m || negb (Nat.eqb w v) = true -> good st' m w j q.
Proof.
  intros I K H G P. destruct (Nat.eqb_spec w v) as [->|N].
  - destruct m; [|discriminate]. assert (G0 := G). destruct G as (s & x & Ev & Eb & Ex & Al & Ce & Bi & M). destruct (M eq_refl) as [R _].
    assert (B : 0 <= i < s_num s).
    { cbn [step] in H. rewrite Ev in H. unfold store in H. apply obind_ok in H as (r & H & _). unfold set, cassert in H. destruct (Z.leb_spec 0 i); [|discriminate]. destruct (Z.ltb_spec i (s_num s)); [lia|discriminate]. }
    assert (GI : good st true v i {| p_body := p_body q; p_alloc := p_alloc q; p_cell := s_off s + i |}) by (exists s, x; cbn [p_body p_alloc p_cell]; auto 10).
    destruct (put_eq st v i _ a GI I) as (st2 & E2 & _ & _ & GG). rewrite H in E2. injection E2 as <-. exact (GG true j q G0).
  - exact (good_step st (OSet v i a) st' m w j q I K H G N (fun _ => eq_refl)).
Qed.

Lemma other_target (o : op A) : (exists v i a, o = OSet v i a) \/
  forall ls, track ls (RDo o) = map (keep (fun m w => negb (Nat.eqb w (target o)) && negb (m && shares o w))) ls.
Proof. destruct o; try (right; reflexivity). left. eauto. Qed.

Lemma do_RI rs ls o st' : RI rs ls -> op_ok (r_st rs) o -> step (r_st rs) o = Ok st' -> RI (with_st rs st') (track ls (RDo o)).
Proof.
  intros R K H. assert (I := proj1 R).
  assert (I' : Inv st') by (destruct (step_spec _ _ _ I K H) as [[-> _]|(L & (I' & _) & _)]; assumption).
  destruct (other_target o) as [(v & i & a & ->)|T].
  - apply (RI_of rs st' ls); [exact R|exact I'|cbn [track]; apply map_length|]. intros r m w j E. cbn [track] in E. apply keep_inv in E as [E P]. split; [exact E|]. intros p G. exact (set_good _ v i a st' m w j p I K H G P).
  - rewrite T. apply (RI_of rs st' ls); [exact R|exact I'|apply map_length|]. intros r m w j E. apply keep_inv in E as [E P]. split; [exact E|]. intros p G.
    apply andb_true_iff in P as [P1 P2]. apply (good_step _ o st' m w j p I K H G).
    + destruct (Nat.eqb_spec w (target o)); [discriminate|assumption].
    + intros ->. cbn [andb] in P2. destruct (shares o w); [discriminate|reflexivity].
Qed.

(** Uses of references as ordinary operations. *)
Lemma use_push rs ls w r m v i : RI rs ls -> nth_error ls r = Some (Some (m, v, i)) -> v <> w ->
  exists l a, contents (r_st rs) v = Some l /\ nth_error l (Z.to_nat i) = Some a /\ rstep rs (RPush w r) = rstep rs (RDo (OPush w a)).
Proof.
  intros R E N. destruct (on_ref_good rs ls r m v i unit (fun _ => Ok tt) R E) as (p & l & a & _ & G & C & Na & Bi & D).
  exists l, a. split; [exact C|]. split; [exact Na|]. cbn [rstep step]. unfold on_var.
  destruct (nth_error (vars (r_st rs)) w) as [s|] eqn:Ew; [|destruct rs; reflexivity].
  destruct (proj2 (proj2 R) r m v i E) as (p' & Ep & G' & _). unfold on_ref. rewrite Ep.
  destruct (good_deref _ _ _ _ _ (proj1 R) G') as (l' & a' & C' & Na' & _ & D'). assert (a' = a) by congruence. subst a'.
  rewrite (push_ref_eq (r_st rs) w s m v i p' a (proj1 R) G' N Ew D'). reflexivity.
Qed.
Lemma use_set rs ls w j r m v i : RI rs ls -> nth_error ls r = Some (Some (m, v, i)) ->
  exists l a, contents (r_st rs) v = Some l /\ nth_error l (Z.to_nat i) = Some a /\ rstep rs (RSet w j r) = rstep rs (RDo (OSet w j a)).
Proof.
  intros R E. destruct (on_ref_good rs ls r m v i unit (fun _ => Ok tt) R E) as (p & l & a & _ & G & C & Na & Bi & D).
  exists l, a. split; [exact C|]. split; [exact Na|]. cbn [rstep step]. unfold on_var.
  destruct (nth_error (vars (r_st rs)) w) as [s|] eqn:Ew; [|destruct rs; reflexivity].
  destruct (proj2 (proj2 R) r m v i E) as (p' & Ep & G' & _). unfold on_ref. rewrite Ep.
  destruct (good_deref _ _ _ _ _ (proj1 R) G') as (l' & a' & C' & Na' & _ & D'). assert (a' = a) by congruence. subst a'.
  rewrite (set_ref_eq _ s j p' a D'). reflexivity.
Qed.
Lemma use_put rs ls r v i a : RI rs ls -> nth_error ls r = Some (Some (true, v, i)) ->
  exists st', rstep rs (RPut r a) = Ok (with_st rs st') /\ step (r_st rs) (OSet v i a) = Ok st' /\ RI (with_st rs st') ls /\ is_int i.
Proof.
  intros R E. destruct (proj2 (proj2 R) r true v i E) as (p & Ep & G & BI). specialize (BI eq_refl). assert (I := proj1 R).
  destruct (put_eq (r_st rs) v i p a G I) as (st' & ES & EA & EV & GG). exists st'.
  assert (R' : rstep rs (RPut r a) = Ok (with_st rs st')).
  { cbn [rstep]. unfold on_ref. rewrite Ep, EA. cbn [obind]. unfold with_st. destruct st' as [h' vs']. cbn [hp vars] in *. subst vs'. reflexivity. }
  split; [exact R'|]. split; [exact ES|].
  split; [|exact BI].
  assert (I' : Inv st') by (destruct (step_spec _ _ _ I (BI : op_ok (r_st rs) (OSet v i a)) ES) as [[-> _]|(L & (I' & _) & _)]; assumption).
  apply (RI_of rs st' ls); [exact R|exact I'|reflexivity|]. intros r2 m w j E2. split; [exact E2|]. intros q GQ.
  destruct (Nat.eq_dec w v) as [->|N]; [exact (GG m j q GQ)|]. exact (good_step _ (OSet v i a) st' m w j q I BI ES GQ N (fun _ => eq_refl)).
Qed.

Lemma upd_inv {B} (l : list B) r x k y : nth_error (upd l r x) k = Some y -> k = r /\ y = x /\ (r < length l)%nat \/ k <> r /\ nth_error l k = Some y.
Proof.
  rewrite nth_upd. destruct (Nat.eqb_spec k r) as [->|]; cbn [andb]; [|right; auto]. destruct (Nat.ltb_spec r (length l)); intros H'.
  - left. split; [reflexivity|]. split; [congruence|assumption].
  - apply nth_lt in H'. lia.
Qed.

Lemma mut_RI rs ls r v i rs' : RI rs ls -> is_int i -> contents (r_st rs) v <> None -> rstep rs (RMut r v i) = Ok rs' ->
  RI rs' (track ls (RMut r v i : rop A)) /\ r_out rs' = r_out rs /\ (forall w, contents (r_st rs') w = contents (r_st rs) w) /\
  exists l, contents (r_st rs) v = Some l /\ 0 <= i < Z.of_nat (length l).
Proof.
  intros R BI CN H. destruct R as (I & LR & G). cbn [rstep] in H. unfold on_var in H. destruct (nth_error (vars (r_st rs)) v) as [s|] eqn:Ev; [|unfold contents in CN; rewrite Ev in CN; congruence].
  apply obind_ok in H as ([rr p] & EM & H). apply obind_ok in H as (st' & ES & H). injection H as <-. cbn [fst snd] in *.
  destruct (elem_mut_spec _ v s i rr p I Ev EM) as (st2 & l & C & Bi & ES2 & (I' & LV & C' & ISO & F) & GP & FR & SAME).
  rewrite ES in ES2. injection ES2 as <-. cbn [r_st r_refs r_out]. split; [|split; [reflexivity|split; [intros w; destruct (Nat.eq_dec w v) as [->|N]; [congruence|exact (ISO w N)]|exists l; auto]]].
  split; [exact I'|]. split; [cbn [r_refs track]; rewrite !upd_length, map_length; exact LR|]. cbn [r_st r_refs track]. intros k m w j E.
  apply upd_inv in E as [(-> & E & LK)|(NK & E)].
  - assert (m = true /\ w = v /\ j = i) as (-> & -> & ->) by (split; [congruence|split; congruence]). rewrite map_length in LK. exists p. split; [rewrite nth_upd, Nat.eqb_refl; destruct (Nat.ltb_spec r (length (r_refs rs))); [reflexivity|lia]|]. split; [exact GP|auto].
  - apply keep_inv in E as [E P]. destruct (G k m w j E) as (q & Eq & GQ & BQ). exists q. split; [rewrite nth_upd; destruct (Nat.eqb_spec k r); [contradiction|exact Eq]|]. split; [|exact BQ].
    destruct (Nat.eqb_spec w v) as [->|N].
    + destruct m; [|discriminate]. rewrite (SAME j q GQ). exact GQ.
    + refine (good_frame _ st' v m w j q I I' N GQ F LV _). intros -> s' Es BS. assert (GQ0 := GQ). destruct GQ as (t & y & Et & Eb & Ey & _).
      assert (C1 := good_excl _ w j q t y I GQ0 Et Ey). destruct (FR s' Es) as [Q|(b & Q & B)].
      * rewrite BS in Q. symmetry in Q. exact (N (eq_sym (cnt_only _ _ w t v s C1 Et Eb Ev Q))).
      * assert (b = p_body q) by congruence. subst b. apply nth_lt in Ey. lia.
Qed.

Lemma peek_RI rs ls r v i l : RI rs ls -> contents (r_st rs) v = Some l -> 0 <= i < Z.of_nat (length l) ->
  exists rs', rstep rs (RPeek r v i) = Ok rs' /\ RI rs' (track ls (RPeek r v i : rop A)) /\ r_st rs' = r_st rs /\ r_out rs' = r_out rs.
Proof.
  intros (I & LR & G) C Bi. unfold contents in C. destruct (nth_error (vars (r_st rs)) v) as [s|] eqn:Ev; [|discriminate].
  destruct (Inv_view _ v s I Ev) as (KS & L & V & _). assert (L = l) by congruence. subst L. destruct (view_len _ s l KS V) as (LN & _).
  assert (KS0 := KS). unfold slice_ok in KS. destruct (s_body s) as [b|] eqn:Eb; [|lia]. destruct KS as (x & M & Ex & _).
  cbn [rstep]. unfold on_var. rewrite Ev. unfold elem_ptr, hget. rewrite Eb, Ex. cbn [obind]. eexists. split; [reflexivity|]. split; [|split; reflexivity].
  split; [exact I|]. split; [cbn [r_refs track]; rewrite !upd_length; exact LR|]. cbn [r_st r_refs track]. intros k m w j E. apply upd_inv in E as [(-> & E & LK)|(NK & E)].
  - assert (m = false /\ w = v /\ j = i) as (-> & -> & ->) by (split; [congruence|split; congruence]). eexists. split; [rewrite nth_upd, Nat.eqb_refl; destruct (Nat.ltb_spec r (length (r_refs rs))); [reflexivity|lia]|].
    split; [|discriminate]. exists s, x. cbn [p_body p_alloc p_cell]. repeat (split; [first [assumption|reflexivity|lia]|]). discriminate.
  - rewrite nth_upd. destruct (Nat.eqb_spec k r); [contradiction|]. exact (G k m w j E).
Qed.

Lemma rstep_RI rs ls o rs' : RI rs ls -> rop_ok rs ls o -> rstep rs o = Ok rs' -> RI rs' (track ls o).
Proof.
  intros R K H. destruct o as [o|r v i|r v i|r|r a|w r|w j r]; cbn [rop_ok] in K.
  - cbn [rstep] in H. apply obind_ok in H as (st' & E & H). injection H as <-. exact (do_RI rs ls o st' R K E).
  - destruct K as [BI CN]. exact (proj1 (mut_RI rs ls r v i rs' R BI CN H)).
  - destruct K as (l & C & Bi). destruct (peek_RI rs ls r v i l R C Bi) as (rs2 & E & R' & _). rewrite H in E. injection E as <-. exact R'.
  - cbn [rstep] in H. unfold on_ref in H. destruct (nth_error (r_refs rs) r) as [[p|]|]; try discriminate. apply obind_ok in H as (a & _ & H). injection H as <-. exact R.
  - destruct K as (v & i & E). destruct (use_put rs ls r v i a R E) as (st' & E1 & _ & R' & _). assert (rs' = with_st rs st') by congruence. subst rs'. exact R'.
  - destruct K as (m & v & i & E & N). destruct (use_push rs ls w r m v i R E N) as (l & a & _ & _ & EQ). rewrite EQ in H. cbn [rstep] in H. apply obind_ok in H as (st' & ES & H). injection H as <-.
    assert (D := do_RI rs ls (OPush w a) st' R Logic.I ES). cbn [track] in *. split; [exact (proj1 D)|]. split; [rewrite map_length; exact (proj1 (proj2 R))|].
    intros k m' v' i' E'. apply (proj2 (proj2 D)). apply keep_inv in E' as [E1 P]. rewrite nth_error_map, E1. cbn [option_map keep target shares]. rewrite P. rewrite andb_false_r. reflexivity.
  - destruct K as (BJ & m & v & i & E). destruct (use_set rs ls w j r m v i R E) as (l & a & _ & _ & EQ). rewrite EQ in H. cbn [rstep] in H. apply obind_ok in H as (st' & ES & H). injection H as <-.
    exact (do_RI rs ls (OSet w j a) st' R BJ ES).
Qed.

Lemma rrun_RI os : forall rs ls rs', RI rs ls -> rhist_ok rs ls os -> rrun rs os = Ok rs' -> RI rs' (fold_left track os ls).
Proof.
  induction os as [|o os IH]; intros rs ls rs' R K H; cbn [rrun rhist_ok fold_left] in *.
  - injection H as <-. exact R.
  - destruct K as [K1 K2]. apply obind_ok in H as (rs1 & E & H). rewrite E in K2. exact (IH rs1 (track ls o) rs' (rstep_RI rs ls o rs1 R K1 E) K2 H).
Qed.
End P.
