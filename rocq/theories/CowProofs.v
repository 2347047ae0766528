(** Proofs about copy-on-write maps. *)
From Verif Require Import Base RefModel RefProofs LatchProofs ArrayProofs ArrayState CowModel CowSpec.
From Coq Require Import Permutation.

Section CowP.
Context {K V : Type} (ltb : K -> K -> bool).
Hypothesis KO : key_order ltb.
Notation eqv := (eqv ltb).
Notation mfind := (mfind ltb).
Notation heap := (list (option (cbody K V))).
Implicit Types (m : list (K * V)) (h : heap) (vs : list nat).

Lemma eqv_refl a : eqv a a = true.
Proof. apply KO. reflexivity. Qed.
Lemma eqv_sym a b : eqv a b = eqv b a.
Proof. unfold CowModel.eqv. apply andb_comm. Qed.
Lemma eqv_spec a b : reflect (a = b) (eqv a b).
Proof. destruct (eqv a b) eqn:E; constructor; [apply KO; exact E|intros ->; rewrite eqv_refl in E; discriminate]. Qed.

Lemma mfind_none k m : mfind k m = None <-> ~ In k (map fst m).
Proof.
  induction m as [|[k' v] m IH]; cbn; [tauto|]. destruct (eqv_spec k k').
  - subst. split; [discriminate|intros H; exfalso; apply H; auto].
  - rewrite IH. split; [intros H [->|H2]; tauto|tauto].
Qed.

Lemma In_dec_mfind k m : In k (map fst m) \/ ~ In k (map fst m).
Proof. induction m as [|[k' v] m IH]; cbn; [tauto|]. destruct (eqv_spec k k'); [subst; tauto|]. destruct IH; [tauto|right; intros [X|X]; congruence]. Qed.

Lemma mplace_find k v m k' : mfind k m = None -> mfind k' (mplace ltb k v m) = if eqv k' k then Some v else mfind k' m.
Proof.
  induction m as [|[k1 v1] m IH]; cbn; intros N; [reflexivity|].
  destruct (eqv_spec k k1); [discriminate|]. destruct (ltb k k1); cbn.
  - destruct (eqv_spec k' k); [reflexivity|reflexivity].
  - rewrite IH by exact N. destruct (eqv_spec k' k1); [|reflexivity]. destruct (eqv_spec k' k); [congruence|reflexivity].
Qed.
Lemma mplace_perm k v m : Permutation (map fst (mplace ltb k v m)) (k :: map fst m).
Proof.
  induction m as [|[k1 v1] m IH]; cbn; [reflexivity|]. destruct (ltb k k1); cbn; [reflexivity|].
  rewrite IH. apply perm_swap.
Qed.
Lemma minsert_find k v m k' : mfind k' (minsert ltb k v m) = match mfind k' m with Some y => Some y | None => if eqv k' k then Some v else None end.
Proof.
  unfold minsert. destruct (mfind k m) eqn:E.
  - destruct (mfind k' m) eqn:E2; [reflexivity|]. destruct (eqv_spec k' k); [congruence|reflexivity].
  - rewrite mplace_find by exact E. destruct (eqv_spec k' k); [subst; rewrite E; reflexivity|]. destruct (mfind k' m); reflexivity.
Qed.
Lemma minsert_nodup k v m : NoDup (map fst m) -> NoDup (map fst (minsert ltb k v m)).
Proof.
  intros H. unfold minsert. destruct (mfind k m) eqn:E; [exact H|].
  eapply Permutation_NoDup; [symmetry; apply mplace_perm|]. constructor; [apply mfind_none; exact E|exact H].
Qed.
Lemma merase_find k m k' : mfind k' (merase ltb k m) = if eqv k' k then None else mfind k' m.
Proof.
  induction m as [|[k1 v1] m IH]; [cbn; destruct (eqv k' k); reflexivity|].
  unfold merase. cbn [filter fst CowModel.mfind]. fold (merase ltb k m).
  destruct (eqv_spec k k1); cbn [negb CowModel.mfind].
  - subst. rewrite IH. destruct (eqv_spec k' k1); reflexivity.
  - rewrite IH. destruct (eqv_spec k' k1); [|reflexivity]. destruct (eqv_spec k' k); [congruence|reflexivity].
Qed.
Lemma merase_nodup k m : NoDup (map fst m) -> NoDup (map fst (merase ltb k m)).
Proof.
  induction m as [|[k1 v1] m IH]; intros H; [constructor|]. inversion H; subst.
  unfold merase. cbn [filter fst]. fold (merase ltb k m).
  destruct (negb (eqv k k1)); cbn [map fst]; [|auto]. constructor; [|auto]. intros X. apply H2.
  apply in_map_iff in X as ([a b] & <- & X). apply filter_In in X as [X _]. apply in_map_iff. exists (a, b). auto.
Qed.

(** Copying entry by entry. *)
Definition rebuild (l : list (K * V)) (acc : list (K * V)) := fold_left (fun acc p => minsert ltb (fst p) (snd p) acc) l acc.
Lemma rebuild_find l : forall acc k, mfind k (rebuild l acc) =
  match mfind k acc with Some y => Some y | None => match find (fun p => eqv k (fst p)) l with Some p => Some (snd p) | None => None end end.
Proof.
  induction l as [|[k1 v1] l IH]; intros acc k; cbn.
  - destruct (mfind k acc); reflexivity.
  - change (mfind k (rebuild l (minsert ltb k1 v1 acc)) = match mfind k acc with Some y => Some y | None => match (if eqv k k1 then Some (k1, v1) else find (fun p => eqv k (fst p)) l) with Some p => Some (snd p) | None => None end end).
    rewrite IH, minsert_find. destruct (mfind k acc); [reflexivity|]. destruct (eqv k k1); reflexivity.
Qed.
Lemma rebuild_nodup l : forall acc, NoDup (map fst acc) -> NoDup (map fst (rebuild l acc)).
Proof. induction l as [|[k1 v1] l IH]; intros acc H; [exact H|]. cbn. apply IH. apply minsert_nodup. exact H. Qed.
Lemma find_mfind k m : match find (fun p => eqv k (fst p)) m with Some p => Some (snd p) | None => None end = mfind k m.
Proof. induction m as [|[k1 v1] m IH]; cbn; [reflexivity|]. destruct (eqv k k1); [reflexivity|exact IH]. Qed.

(** Heap *)
Definition mapof h b : option (list (K * V)) := match nth_error h b with Some (Some x) => Some (c_map x) | _ => None end.
Definition cnt b vs : nat := length (filter (Nat.eqb b) vs).
Definition WF h vs : Prop :=
  (forall b x, nth_error h b = Some (Some x) -> c_refs x = Z.of_nat (cnt b vs) /\ 0 < c_refs x /\ NoDup (map fst (c_map x))) /\
  (forall b, In b vs -> mapof h b <> None).

Lemma cnt_cons b c vs : cnt b (c :: vs) = ((if Nat.eqb b c then 1 else 0) + cnt b vs)%nat.
Proof. unfold cnt. cbn. destruct (Nat.eqb b c); reflexivity. Qed.
Lemma cnt_perm b vs vs' : Permutation vs vs' -> cnt b vs = cnt b vs'.
Proof. intros P. induction P; rewrite ?cnt_cons in *; lia. Qed.
Lemma WF_perm h vs vs' : Permutation vs vs' -> WF h vs -> WF h vs'.
Proof.
  intros P [A B]. split.
  - intros b x Hb. rewrite <- (cnt_perm b _ _ P). auto.
  - intros b Hb. apply B. eapply Permutation_in; [symmetry; exact P|exact Hb].
Qed.
Lemma cnt_pos b vs : In b vs -> (0 < cnt b vs)%nat.
Proof.
  intros H. unfold cnt. assert (In b (filter (Nat.eqb b) vs)) by (apply filter_In; split; [exact H|apply Nat.eqb_refl]).
  destruct (filter (Nat.eqb b) vs); [destruct H0|cbn; lia].
Qed.

Lemma mapof_upd h b y x c : nth_error h b = Some y -> mapof (upd h b x) c = if Nat.eqb c b then option_map c_map x else mapof h c.
Proof.
  intros H. unfold mapof. rewrite nth_upd. apply nth_lt in H.
  destruct (Nat.eqb_spec c b); destruct (Nat.ltb_spec b (length h)); try lia; cbn; [destruct x; reflexivity|reflexivity].
Qed.
Lemma alive h b : mapof h b <> None -> exists x, nth_error h b = Some (Some x).
Proof. unfold mapof. destruct (nth_error h b) as [[x|]|]; [eauto|congruence..]. Qed.

(** o = body: rebinding a variable. *)
Lemma rebind_live h old new vs : WF h (old :: vs) -> mapof h new <> None ->
  exists h', rebind h old new = Ok h' /\ WF h' (new :: vs) /\ forall c, c = new \/ In c vs -> mapof h' c = mapof h c.
Proof.
  intros [WB WS] A. destruct (alive h new A) as [x Hx]. unfold rebind, caddref, cget. rewrite Hx. cbn [obind].
  set (h1 := upd h new _).
  assert (Ao : mapof h1 old <> None).
  { unfold h1. rewrite (mapof_upd _ _ _ _ _ Hx). destruct (Nat.eqb_spec old new); cbn; [discriminate|]. apply WS. left. reflexivity. }
  destruct (alive h1 old Ao) as [y Hy]. unfold crelease, cget. rewrite Hy. cbn [obind].
  assert (RY : c_refs y = Z.of_nat (cnt old (old :: vs)) + (if Nat.eqb old new then 1 else 0) /\ NoDup (map fst (c_map y)) /\ mapof h old = Some (c_map y)).
  { unfold h1 in Hy. rewrite nth_upd in Hy. assert (Hn := nth_lt _ _ _ Hx). destruct (Nat.eqb_spec old new).
    - subst. destruct (Nat.ltb_spec new (length h)); [|lia]. cbn [andb] in Hy. injection Hy as <-. cbn [c_refs c_map]. destruct (WB new x Hx) as (R & _ & N).
      unfold mapof. rewrite Hx. split; [lia|split; [exact N|reflexivity]].
    - cbn in Hy. destruct (WB old y Hy) as (R & _ & N). unfold mapof. rewrite Hy. split; [lia|auto]. }
  destruct RY as (RY & NY & MY). rewrite cnt_cons, Nat.eqb_refl in RY. unfold cassert. destruct (Z.gtb_spec (c_refs y) 0); [|destruct (Nat.eqb old new); lia].
  eexists. split; [reflexivity|]. set (h2 := upd h1 old _).
  assert (N2 : forall c, nth_error h2 c = if Nat.eqb c old then Some (if c_refs y - 1 =? 0 then None else Some {| c_map := c_map y; c_refs := c_refs y - 1 |})
                          else if Nat.eqb c new then Some (Some {| c_map := c_map x; c_refs := c_refs x + 1 |}) else nth_error h c).
  { intros c. unfold h2. rewrite nth_upd. assert (Hl := nth_lt _ _ _ Hy). destruct (Nat.ltb_spec old (length h1)); [|lia]. rewrite andb_true_r.
    destruct (Nat.eqb c old); [reflexivity|]. unfold h1. rewrite nth_upd. assert (Hn := nth_lt _ _ _ Hx).
    destruct (Nat.ltb_spec new (length h)); [|lia]. rewrite andb_true_r. reflexivity. }
  assert (MS : forall c, c = new \/ In c vs -> mapof h2 c = mapof h c).
  { intros c Hc. unfold mapof at 1. rewrite N2. destruct (Nat.eqb_spec c old).
    - subst c. destruct (Z.eqb_spec (c_refs y - 1) 0) as [Z0|]; [|symmetry; exact MY]. exfalso.
      destruct Hc as [->|Hc]; [rewrite Nat.eqb_refl in RY; lia|]. apply cnt_pos in Hc. destruct (Nat.eqb old new); lia.
    - destruct (Nat.eqb_spec c new); [subst; cbn; unfold mapof; rewrite Hx; reflexivity|reflexivity]. }
  split; [|exact MS]. split.
  - intros b z Hz. rewrite N2 in Hz. rewrite cnt_cons. destruct (Nat.eqb_spec b old).
    + subst b. destruct (Z.eqb_spec (c_refs y - 1) 0); [discriminate|]. injection Hz as <-. cbn. destruct (Nat.eqb old new); (split; [lia|split; [lia|exact NY]]).
    + destruct (Nat.eqb_spec b new).
      * subst b. injection Hz as <-. cbn. destruct (WB new x Hx) as (R & P & N). rewrite cnt_cons in R. destruct (Nat.eqb_spec new old); [congruence|]. split; [lia|split; [lia|exact N]].
      * destruct (WB b z Hz) as (R & P & N). rewrite cnt_cons in R. destruct (Nat.eqb_spec b old); [congruence|]. auto.
  - intros b Hb. rewrite MS by (destruct Hb; [left; congruence|right; assumption]). destruct Hb as [<-|Hb]; [exact A|apply WS; right; exact Hb].
Qed.

(** Rebinding to a new body. *)
Lemma rebind_fresh h old vs m : WF h (old :: vs) -> NoDup (map fst m) ->
  exists h', rebind (h ++ [fresh m]) old (length h) = Ok h' /\ WF h' (length h :: vs) /\
    mapof h' (length h) = Some m /\ (forall c, In c vs -> mapof h' c = mapof h c).
Proof.
  intros W ND.
  (* count the new body as already held once by an extra handle *)
  assert (NV : ~ In (length h) (old :: vs)).
  { intros X. destruct W as [_ WS]. specialize (WS _ X). unfold mapof in WS. assert (E : nth_error h (length h) = None) by (apply nth_error_None; lia). rewrite E in WS. congruence. }
  unfold rebind, caddref, cget, fresh. rewrite nth_error_app2, Nat.sub_diag by lia. cbn [nth_error obind c_map c_refs].
  set (h1 := upd (h ++ _) (length h) _).
  assert (N1 : forall c, nth_error h1 c = if Nat.eqb c (length h) then Some (Some {| c_map := m; c_refs := 0 + 1 |}) else nth_error h c).
  { intros c. unfold h1. rewrite nth_upd, app_length. cbn [length]. destruct (Nat.ltb_spec (length h) (length h + 1)); [|lia]. rewrite andb_true_r.
    destruct (Nat.eqb_spec c (length h)); [reflexivity|]. destruct (Nat.lt_ge_cases c (length h)); [apply nth_error_app1; assumption|].
    rewrite nth_error_app2 by lia. assert (E : nth_error h c = None) by (apply nth_error_None; lia). rewrite E.
    destruct (c - length h)%nat as [|k] eqn:Ek; [lia|]. destruct k; reflexivity. }
  assert (W1 : WF h1 (old :: length h :: vs)).
  { destruct W as [WB WS]. split.
    - intros b x Hb. rewrite N1 in Hb. rewrite !cnt_cons. destruct (Nat.eqb_spec b (length h)).
      + injection Hb as <-. cbn. assert (C0 : cnt b (old :: vs) = 0%nat).
        { destruct (cnt b (old :: vs)) eqn:E; [reflexivity|exfalso]. unfold cnt in E. destruct (filter (Nat.eqb b) (old :: vs)) as [|t r] eqn:F; [discriminate|].
          assert (X : In t (filter (Nat.eqb b) (old :: vs))) by (rewrite F; left; reflexivity). apply filter_In in X as [X1 X2]. apply Nat.eqb_eq in X2. subst. exact (NV X1). }
        rewrite cnt_cons in C0. split; [lia|split; [lia|exact ND]].
      + destruct (WB b x Hb) as (R & P & N). rewrite cnt_cons in R. split; [lia|auto].
    - intros b Hb. unfold mapof. rewrite N1. destruct (Nat.eqb_spec b (length h)); [discriminate|].
      change (mapof h b <> None). apply WS. destruct Hb as [<-|[<-|Hb]]; [left; reflexivity|congruence|right; exact Hb]. }
  assert (Ao : mapof h1 old <> None) by (apply W1; left; reflexivity).
  destruct (alive _ _ Ao) as [y Hy]. unfold crelease, cget. rewrite Hy. cbn [obind]. destruct W1 as [WB1 WS1]. destruct (WB1 old y Hy) as (RY & PY & NY).
  unfold cassert. destruct (Z.gtb_spec (c_refs y) 0); [|lia]. eexists. split; [reflexivity|]. set (h2 := upd h1 old _).
  rewrite cnt_cons, Nat.eqb_refl in RY.
  assert (N2 : forall c, nth_error h2 c = if Nat.eqb c old then Some (if c_refs y - 1 =? 0 then None else Some {| c_map := c_map y; c_refs := c_refs y - 1 |}) else nth_error h1 c).
  { intros c. unfold h2. rewrite nth_upd. assert (Hl := nth_lt _ _ _ Hy). destruct (Nat.ltb_spec old (length h1)); [|lia]. rewrite andb_true_r. reflexivity. }
  assert (MS : forall c, In c (length h :: vs) -> mapof h2 c = mapof h1 c).
  { intros c Hc. unfold mapof. rewrite N2. destruct (Nat.eqb_spec c old); [|reflexivity]. subst c. rewrite Hy.
    destruct (Z.eqb_spec (c_refs y - 1) 0) as [Z0|]; [|reflexivity]. apply cnt_pos in Hc. lia. }
  split; [|split].
  - split.
    + intros b z Hz. rewrite N2 in Hz. destruct (Nat.eqb_spec b old).
      * subst b. destruct (Z.eqb_spec (c_refs y - 1) 0); [discriminate|]. injection Hz as <-. cbn [c_refs c_map]. split; [lia|split; [lia|exact NY]].
      * destruct (WB1 b z Hz) as (R & P & N). rewrite cnt_cons in R. destruct (Nat.eqb_spec b old); [congruence|]. auto.
    + intros b Hb. rewrite MS by exact Hb. apply WS1. right. exact Hb.
  - rewrite MS by (left; reflexivity). unfold mapof. rewrite N1, Nat.eqb_refl. reflexivity.
  - intros c Hc. rewrite MS by (right; exact Hc). unfold mapof. rewrite N1. destruct (Nat.eqb_spec c (length h)); [|reflexivity].
    subst. exfalso. apply NV. right. exact Hc.
Qed.

Lemma unshare_spec h b vs m : WF h (b :: vs) -> mapof h b = Some m ->
  exists h' b' m', cunshare ltb h b = Ok (h', b') /\ WF h' (b' :: vs) /\ mapof h' b' = Some m' /\ (forall k, mfind k m' = mfind k m) /\
    ~ In b' vs /\ (forall c, In c vs -> mapof h' c = mapof h c).
Proof.
  intros W M. assert (W0 := W). destruct W as [WB WS]. destruct (alive h b ltac:(congruence)) as [x Hx].
  assert (EM : c_map x = m) by (unfold mapof in M; rewrite Hx in M; congruence).
  destruct (WB b x Hx) as (R & P & N). rewrite cnt_cons, Nat.eqb_refl in R.
  unfold cunshare, cget. rewrite Hx. cbn [obind]. destruct (Z.leb_spec (c_refs x) 1).
  - exists h, b, m. split; [reflexivity|]. split; [exact W0|]. split; [exact M|]. split; [reflexivity|]. split; [|reflexivity].
    intros X. apply cnt_pos in X. lia.
  - fold (rebuild (c_map x) []).
    destruct (rebind_fresh h b vs (rebuild (c_map x) []) W0 ltac:(apply rebuild_nodup; constructor)) as (h' & E & W' & M' & S').
    cbv zeta; rewrite E. cbn [obind]. exists h', (length h), (rebuild (c_map x) []). split; [reflexivity|]. split; [exact W'|]. split; [exact M'|].
    split; [|split; [|exact S']].
    + intros k. rewrite rebuild_find. cbn. rewrite find_mfind, EM. reflexivity.
    + intros X. specialize (WS _ (or_intror X)). unfold mapof in WS. assert (E0 : nth_error h (length h) = None) by (apply nth_error_None; lia). rewrite E0 in WS. congruence.
Qed.

Lemma write_spec h b vs m f : WF h (b :: vs) -> mapof h b = Some m -> NoDup (map fst (f m)) ->
  exists h', write h b f = Ok h' /\ WF h' (b :: vs) /\ mapof h' b = Some (f m) /\ (forall c, c <> b -> mapof h' c = mapof h c).
Proof.
  intros [WB WS] M ND. destruct (alive h b ltac:(congruence)) as [x Hx].
  assert (EM : c_map x = m) by (unfold mapof in M; rewrite Hx in M; congruence).
  unfold write, cget. rewrite Hx. cbn [obind]. eexists. split; [reflexivity|]. rewrite EM.
  assert (MU := fun c => mapof_upd h b _ (Some {| c_map := f m; c_refs := c_refs x |}) c Hx).
  split; [split|split].
  - intros c z Hz. rewrite nth_upd in Hz. assert (Hl := nth_lt _ _ _ Hx). destruct (Nat.ltb_spec b (length h)); [|lia]. rewrite andb_true_r in Hz.
    destruct (Nat.eqb_spec c b); [|exact (WB c z Hz)]. subst c. injection Hz as <-. cbn. destruct (WB b x Hx) as (R & P & _). auto.
  - intros c Hc. rewrite MU. destruct (Nat.eqb_spec c b); [discriminate|]. exact (WS c Hc).
  - rewrite MU, Nat.eqb_refl. reflexivity.
  - intros c Hc. rewrite MU. destruct (Nat.eqb_spec c b); [congruence|reflexivity].
Qed.

Lemma mapof_nodup h vs b m : WF h vs -> mapof h b = Some m -> NoDup (map fst m).
Proof.
  intros [WB _] M. unfold mapof in M. destruct (nth_error h b) as [[x|]|] eqn:E; try discriminate. injection M as <-. apply (WB b x E).
Qed.

Lemma insert_spec h b vs m k x : WF h (b :: vs) -> mapof h b = Some m ->
  exists h' b' m', cinsert ltb h b k x = Ok (h', b') /\ WF h' (b' :: vs) /\ mapof h' b' = Some m' /\
    (forall k', mfind k' m' = match mfind k' m with Some y => Some y | None => if eqv k' k then Some x else None end) /\
    (forall c, In c vs -> mapof h' c = mapof h c).
Proof.
  intros W M. destruct (unshare_spec h b vs m W M) as (h1 & b1 & m1 & U & W1 & M1 & F1 & NI & S1).
  unfold cinsert. rewrite U. cbn [obind].
  destruct (write_spec h1 b1 vs m1 (minsert ltb k x) W1 M1 ltac:(apply minsert_nodup; eapply mapof_nodup; eassumption)) as (h2 & E2 & W2 & M2 & S2).
  rewrite E2. cbn [obind]. exists h2, b1, (minsert ltb k x m1). split; [reflexivity|]. split; [exact W2|]. split; [exact M2|]. split.
  - intros k'. rewrite minsert_find, F1. reflexivity.
  - intros c Hc. rewrite S2 by (intros ->; contradiction). apply S1. exact Hc.
Qed.

(** State level *)
Definition Inv (s : cstate K V) : Prop := WF (ch s) (cv s).

Lemma look_mapof (s : cstate K V) v b k : nth_error (cv s) v = Some b -> clookup ltb s v k = match mapof (ch s) b with Some m => mfind k m | None => None end.
Proof. intros E. unfold clookup, mapof. rewrite E. destruct (nth_error (ch s) b) as [[x|]|]; reflexivity. Qed.

Lemma init_inv n : Inv (cinit n).
Proof.
  split.
  - intros b x Hb. cbn in *. assert (Hl := nth_lt _ _ _ Hb). rewrite repeat_length in Hl.
    assert (In (Some x) (repeat (Some {| c_map := []; c_refs := 1 |} : option (cbody K V)) n)) by (eapply nth_error_In; exact Hb).
    apply repeat_spec in H. injection H as ->. cbn [c_refs c_map map]. split; [|split; [lia|constructor]].
    assert (C : cnt b (seq 0 n) = 1%nat); [|change (1 = Z.of_nat (cnt b (seq 0 n))); rewrite C; reflexivity]. unfold cnt.
    assert (G : forall a k, filter (Nat.eqb b) (seq a k) = if ((a <=? b) && (b <? a + k))%nat then [b] else []).
    { intros a k. revert a. induction k as [|k IH]; intros a; cbn [seq filter].
      - destruct (Nat.leb_spec a b); destruct (Nat.ltb_spec b (a + 0)); try lia; reflexivity.
      - rewrite IH. destruct (Nat.eqb_spec b a); destruct (Nat.leb_spec (S a) b); destruct (Nat.ltb_spec b (S a + k)); destruct (Nat.leb_spec a b); destruct (Nat.ltb_spec b (a + S k)); cbn [andb]; try lia; subst; reflexivity. }
    rewrite G. destruct (Nat.leb_spec 0 b); destruct (Nat.ltb_spec b (0 + n)); try lia. reflexivity.
  - intros b Hb. cbn in *. apply in_seq in Hb. unfold mapof.
    assert (E : nth_error (repeat (Some {| c_map := []; c_refs := 1 |} : option (cbody K V)) n) b = Some (Some {| c_map := []; c_refs := 1 |})) by (apply nth_error_repeat; lia).
    rewrite E. discriminate.
Qed.

(** Everything about one step. *)
Lemma step_spec s o : Inv s ->
  exists s', cstep ltb s o = Ok s' /\ Inv s' /\ length (cv s') = length (cv s) /\
   ((forall b, nth_error (cv s) (ctarget o) = Some b -> match o with CCopy _ v => nth_error (cv s) v <> None | _ => True end ->
      forall k, clookup ltb s' (ctarget o) k = c_expected ltb (clookup ltb s) o k) /\
    (forall w k, w <> ctarget o -> (put_on_shared ltb s o -> match o with CPut _ k0 _ => k <> k0 | _ => True end) ->
       clookup ltb s' w k = clookup ltb s w k)).
Proof.
  intros I.
  assert (NOP : nth_error (cv s) (ctarget o) = None \/ (exists d v, o = CCopy d v /\ nth_error (cv s) v = None) ->
    cstep ltb s o = Ok s -> exists s', cstep ltb s o = Ok s' /\ Inv s' /\ length (cv s') = length (cv s) /\
   ((forall b, nth_error (cv s) (ctarget o) = Some b -> match o with CCopy _ v => nth_error (cv s) v <> None | _ => True end ->
      forall k, clookup ltb s' (ctarget o) k = c_expected ltb (clookup ltb s) o k) /\
    (forall w k, w <> ctarget o -> (put_on_shared ltb s o -> match o with CPut _ k0 _ => k <> k0 | _ => True end) ->
       clookup ltb s' w k = clookup ltb s w k))).
  { intros N E. exists s. split; [exact E|]. split; [exact I|]. split; [reflexivity|]. split; [|reflexivity].
    intros b Hb Hc. destruct N as [N|(d & v & -> & N)]; congruence. }
  (* the common shape: the target's body b becomes b' in heap h' *)
  assert (GO : forall v b l1 l2 h' b' m' (r : outcome (list (option (cbody K V)) * nat)),
    cv s = l1 ++ b :: l2 -> length l1 = v -> ctarget o = v ->
    r = Ok (h', b') -> WF h' (b' :: l1 ++ l2) -> mapof h' b' = Some m' ->
    cstep ltb s o = (do p <- r; Ok {| ch := fst p; cv := upd (cv s) v (snd p) |}) ->
    (forall k, mfind k m' = c_expected ltb (clookup ltb s) o k) ->
    (forall c k, In c (l1 ++ l2) -> (put_on_shared ltb s o -> match o with CPut _ k0 _ => k <> k0 | _ => True end) ->
       match mapof h' c with Some m => mfind k m | None => None end = match mapof (ch s) c with Some m => mfind k m | None => None end) ->
    exists s', cstep ltb s o = Ok s' /\ Inv s' /\ length (cv s') = length (cv s) /\
   ((forall b, nth_error (cv s) (ctarget o) = Some b -> match o with CCopy _ v => nth_error (cv s) v <> None | _ => True end ->
      forall k, clookup ltb s' (ctarget o) k = c_expected ltb (clookup ltb s) o k) /\
    (forall w k, w <> ctarget o -> (put_on_shared ltb s o -> match o with CPut _ k0 _ => k <> k0 | _ => True end) ->
       clookup ltb s' w k = clookup ltb s w k))).
  { intros v b l1 l2 h' b' m' r ES EV ET ER W' M' EC EX SM. subst r. cbn [obind fst snd] in EC. eexists. split; [exact EC|]. cbn [ch cv].
    rewrite ES, <- EV, upd_split. split; [|split; [|split]].
    - unfold Inv. cbn [ch cv]. eapply WF_perm; [|exact W']. symmetry. apply perm_mid.
    - rewrite !app_length. reflexivity.
    - intros b0 Hb0 _ k. rewrite ET, <- EV. erewrite look_mapof by (cbn [cv]; rewrite nth_error_app2, Nat.sub_diag by lia; reflexivity).
      cbn [ch]. rewrite M'. apply EX.
    - intros w k Hw HP. rewrite ET, <- EV in Hw. unfold clookup at 1. cbn [cv ch]. rewrite (nth_mid_ne l1 l2 b b' w Hw), <- ES.
      destruct (nth_error (cv s) w) as [c|] eqn:Ec; [|unfold clookup; rewrite Ec; reflexivity].
      rewrite (look_mapof s w c k Ec). rewrite <- SM; [|rewrite in_app_iff|exact HP].
      + unfold mapof. destruct (nth_error h' c) as [[z|]|]; reflexivity.
      + rewrite ES in Ec. destruct (Nat.lt_ge_cases w (length l1)).
        * left. rewrite nth_error_app1 in Ec by assumption. eapply nth_error_In; exact Ec.
        * right. rewrite nth_error_app2 in Ec by assumption. destruct (w - length l1)%nat eqn:Kk; [lia|]. eapply nth_error_In; exact Ec. }
  destruct (nth_error (cv s) (ctarget o)) as [b|] eqn:Eb.
  2:{ apply NOP; [left; reflexivity|]. destruct o as [d kvs|d v|v|v k x|v k|v k x]; cbn [cstep ctarget] in *; rewrite ?Eb; try reflexivity.
      destruct (nth_error (cv s) v); reflexivity. }
  clear NOP. destruct (nth_error_split _ _ Eb) as (l1 & l2 & ES & EV).
  assert (W : WF (ch s) (b :: l1 ++ l2)) by (eapply WF_perm; [|exact I]; rewrite ES; apply perm_mid).
  assert (Mb : exists m, mapof (ch s) b = Some m).
  { assert (mapof (ch s) b <> None) by (apply W; left; reflexivity). destruct (mapof (ch s) b); [eauto|congruence]. }
  destruct Mb as [m Mb].
  destruct o as [d kvs|d v|v|v k x|v k|v k x]; cbn [ctarget] in *.
  - destruct (rebind_fresh (ch s) b (l1 ++ l2) (rebuild kvs []) W ltac:(apply rebuild_nodup; constructor)) as (h' & E & W' & M' & S').
    eapply (GO d b l1 l2 h' (length (ch s)) (rebuild kvs [])); try eassumption; try reflexivity.
    + cbn [cstep]. rewrite Eb. fold (rebuild kvs []). rewrite E. reflexivity.
    + intros k. rewrite rebuild_find. reflexivity.
    + intros c k Hc _. rewrite S' by exact Hc. reflexivity.
  - destruct (nth_error (cv s) v) as [c|] eqn:Ev.
    + assert (A : mapof (ch s) c <> None) by (apply I; eapply nth_error_In; exact Ev).
      destruct (rebind_live (ch s) b c (l1 ++ l2) W A) as (h' & E & W' & S').
      destruct (mapof (ch s) c) as [mc|] eqn:Mc; [|congruence].
      eapply (GO d b l1 l2 h' c mc); try eassumption; try reflexivity.
      * rewrite S' by (left; reflexivity). exact Mc.
      * cbn [cstep]. rewrite Ev, Eb, E. reflexivity.
      * intros k. cbn [c_expected]. rewrite (look_mapof s v c k Ev), Mc. reflexivity.
      * intros c' k Hc _. rewrite S' by (right; exact Hc). reflexivity.
    + exists s. cbn [cstep]. rewrite Ev. split; [reflexivity|]. split; [exact I|]. split; [reflexivity|]. split; [|reflexivity]. intros ? ? N. congruence.
  - destruct (rebind_fresh (ch s) b (l1 ++ l2) [] W ltac:(constructor)) as (h' & E & W' & M' & S').
    eapply (GO v b l1 l2 h' (length (ch s)) []); try eassumption; try reflexivity.
    + cbn [cstep]. rewrite Eb, E. reflexivity.
    + intros c k Hc _. rewrite S' by exact Hc. reflexivity.
  - destruct (insert_spec (ch s) b (l1 ++ l2) m k x W Mb) as (h' & b' & m' & E & W' & M' & F' & S').
    eapply (GO v b l1 l2 h' b' m'); try eassumption; try reflexivity.
    + cbn [cstep]. rewrite Eb, E. reflexivity.
    + intros k'. rewrite F'. cbn [c_expected]. rewrite (look_mapof s v b k' Eb), Mb. reflexivity.
    + intros c k' Hc _. rewrite S' by exact Hc. reflexivity.
  - destruct (unshare_spec (ch s) b (l1 ++ l2) m W Mb) as (h1 & b1 & m1 & U & W1 & M1 & F1 & NI & S1).
    destruct (write_spec h1 b1 (l1 ++ l2) m1 (merase ltb k) W1 M1 ltac:(apply merase_nodup; eapply mapof_nodup; eassumption)) as (h2 & E2 & W2 & M2 & S2).
    eapply (GO v b l1 l2 h2 b1 (merase ltb k m1) (Ok (h2, b1))); try eassumption; try reflexivity.
    + cbn [cstep]. rewrite Eb, U. cbn [obind]. rewrite E2. reflexivity.
    + intros k'. rewrite merase_find, F1. cbn [c_expected]. rewrite (look_mapof s v b k' Eb), Mb. reflexivity.
    + intros c k' Hc _. rewrite S2 by (intros ->; contradiction). rewrite S1 by exact Hc. reflexivity.
  - assert (GX : exists h0 m0, (match mfind k m with Some _ => write (ch s) b (merase ltb k) | None => Ok (ch s) end) = Ok h0 /\
        WF h0 (b :: l1 ++ l2) /\ mapof h0 b = Some m0 /\ (forall k', mfind k' m0 = if eqv k' k then None else mfind k' m) /\
        (forall c, mapof h0 c = if Nat.eqb c b then Some m0 else mapof (ch s) c) /\ (mfind k m = None -> m0 = m)).
    { destruct (mfind k m) eqn:Fk.
      - destruct (write_spec (ch s) b (l1 ++ l2) m (merase ltb k) W Mb ltac:(apply merase_nodup; eapply mapof_nodup; eassumption)) as (h2 & E2 & W2 & M2 & S2).
        exists h2, (merase ltb k m). split; [exact E2|]. split; [exact W2|]. split; [exact M2|]. split; [intros k'; apply merase_find|]. split; [|discriminate].
        intros c. destruct (Nat.eqb_spec c b); [subst; exact M2|apply S2; assumption].
      - exists (ch s), m. split; [reflexivity|]. split; [exact W|]. split; [exact Mb|]. split; [|split; [|reflexivity]].
        + intros k'. destruct (eqv_spec k' k); [congruence|reflexivity].
        + intros c. destruct (Nat.eqb_spec c b); [subst; exact Mb|reflexivity]. }
    destruct GX as (h0 & m0 & E0 & W0 & M0 & F0 & S0 & Z0).
    destruct (insert_spec h0 b (l1 ++ l2) m0 k x W0 M0) as (h' & b' & m' & E & W' & M' & F' & S').
    eapply (GO v b l1 l2 h' b' m' (Ok (h', b'))); try eassumption; try reflexivity.
    + cbn [cstep]. rewrite Eb. unfold cget. assert (A : mapof (ch s) b <> None) by congruence. destruct (alive _ _ A) as [y Hy]. rewrite Hy. cbn [obind].
      assert (EM : c_map y = m) by (unfold mapof in Mb; rewrite Hy in Mb; congruence). rewrite EM, E0. cbn [obind]. rewrite E. reflexivity.
    + intros k'. rewrite F', F0. cbn [c_expected]. rewrite (look_mapof s v b k' Eb), Mb. destruct (eqv k' k); [reflexivity|]. destruct (mfind k' m); reflexivity.
    + intros c k' Hc HP. rewrite S' by exact Hc. rewrite S0. destruct (Nat.eqb_spec c b); [|reflexivity]. subst c. rewrite F0, Mb.
      destruct (eqv_spec k' k); [|reflexivity]. subst k'. destruct (mfind k m) eqn:Fk; [|reflexivity]. exfalso. apply HP; [|reflexivity].
      cbn. rewrite (look_mapof s v b k Eb), Mb, Fk. split; [discriminate|]. exists b. split; [exact Eb|].
      unfold c_handles. fold (cnt b (cv s)). rewrite (cnt_perm b _ (b :: l1 ++ l2)) by (rewrite ES; apply perm_mid). rewrite cnt_cons, Nat.eqb_refl. apply cnt_pos in Hc. lia.
Qed.

Lemma run_inv os : forall s, Inv s -> exists s', crun ltb s os = Ok s' /\ Inv s' /\ length (cv s') = length (cv s).
Proof.
  induction os as [|o os IH]; intros s I; [exists s; auto|]. cbn [crun].
  destruct (step_spec s o I) as (s1 & E & I1 & L1 & _). rewrite E. cbn [obind]. destruct (IH s1 I1) as (s2 & E2 & I2 & L2). exists s2. split; [exact E2|]. split; [exact I2|congruence].
Qed.
End CowP.
