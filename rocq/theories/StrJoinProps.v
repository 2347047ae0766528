(** Property C43: StringArray::join. *)
From Verif Require Import Base RefModel RefProofs UTF8Model UTF8Spec ArrayModel ArraySpec ArrayProofs StrModel StrSpec StrText StrHeap StrState StrOps StrEdit StrMore StrJson StrInv StrProps StrJoin.

(** The elements in order, the separator between neighbours. *)
Fixpoint joined (sep : list Z) (l : list (list Z)) : list Z :=
  match l with
  | [] => []
  | [x] => x
  | x :: r => x ++ sep ++ joined sep r
  end.
(** The strings of an array, given by the variables that hold them. *)
Definition vals (st : sstate) (vs : list nat) : list sval := flat_map (fun v => match nth_error (sv st) v with Some s => [s] | None => [] end) vs.

Lemma joined_eq sep x l : joined sep (x :: l) = x ++ flat_map (fun y => sep ++ y) l.
Proof.
  revert x. induction l as [|y l IH]; intros x.
  - cbn. rewrite app_nil_r. reflexivity.
  - change (joined sep (x :: y :: l)) with (x ++ sep ++ joined sep (y :: l)). rewrite IH. cbn [flat_map]. rewrite <- app_assoc. reflexivity.
Qed.
Lemma vals_map st vs : Forall (fun v => (v < length (sv st))%nat) vs -> map (txt (sh st)) (vals st vs) = map (T st) vs.
Proof.
  induction 1 as [|v vs Hv _ IH]; [reflexivity|]. cbn [vals flat_map map]. fold (vals st vs). destruct (nth_some_lt (sv st) v Hv) as [s Hs]. rewrite Hs. cbn [app map].
  rewrite IH. f_equal. unfold txt, T, text. rewrite Hs. reflexivity.
Qed.
Lemma vals_length st vs : Forall (fun v => (v < length (sv st))%nat) vs -> length (vals st vs) = length vs.
Proof. intros F. rewrite <- (map_length (txt (sh st))), (vals_map _ _ F). apply map_length. Qed.
Lemma vals_incl st vs : incl (vals st vs) (sv st).
Proof.
  intros s Hs. apply in_flat_map in Hs as (v & _ & Hs). destruct (nth_error (sv st) v) as [s'|] eqn:E; [|destruct Hs]. destruct Hs as [<-|[]]. eapply nth_error_In; exact E.
Qed.
Lemma joined_bytes sep l : (length (encode_all (joined sep l)) <= length l * bytes sep + sum l)%nat /\
  (l <> [] -> length l * bytes sep + sum l <= length (encode_all (joined sep l)) + bytes sep)%nat.
Proof.
  destruct l as [|x l]; [cbn; split; [lia|congruence]|]. assert (E : length (encode_all (joined sep (x :: l))) = (length l * bytes sep + sum (x :: l))%nat); [|rewrite E; cbn [length Nat.mul]; split; [lia|intros _; lia]].
  assert (X : length (encode_all (flat_map (fun y => sep ++ y) l)) = (length l * bytes sep + sum l)%nat).
  { induction l as [|y l IH]; [reflexivity|]. cbn [flat_map length sum fold_right Nat.mul]. fold (sum l). rewrite !enc_app, !app_length, IH. unfold bytes. lia. }
  rewrite joined_eq, enc_app, app_length, X. cbn [sum fold_right]. fold (sum l). unfold bytes. lia.
Qed.

(** C43: after any program of strings (C22), for any array [vs] of its strings
    and any of them as separator [j]: join never fails, its result is the joined
    text, no other string changes, and every body left is counted exactly by
    the handles on it (the result, StrVal::null, the variables).  Sizes: the
    biggest body, the result and one separator more stay below 1 GiB. *)
Theorem C43_join : forall n os st vs j sj K, run_ok (sinit n) os -> srun (sinit n) os = Ok st ->
  Forall (fun v => (v < n)%nat) vs -> nth_error (sv st) j = Some sj ->
  (forall v, v = j \/ In v vs -> nbytes (body_text st v) <= K) ->
  K + nbytes (joined (T st j) (map (T st) vs)) + nbytes (T st j) < 2^30 ->
  exists h' r, join (sh st) (vals st vs) sj = Ok (h', r) /\
    val_text h' r = Some (joined (T st j) (map (T st) vs)) /\
    (forall v s, nth_error (sv st) v = Some s -> val_text h' s = text st v) /\
    (forall b x, nth_error h' b = Some (Some x) ->
       b_refs (sb_arr x) = Z.of_nat (length (filter (fun s => Nat.eqb (v_body s) b) (r :: null_val :: sv st))) + (if b_static (sb_arr x) then 1 else 0)).
Proof.
  intros n os st vs j sj K OK E FV EJ HK LB. destruct (run_inv os (sinit n) (sinit_inv n) OK) as (st1 & E1 & I & L & _). rewrite E1 in E. injection E as <-. rename st1 into st.
  assert (LN : length (sv (sinit n)) = n) by apply repeat_length. rewrite LN in L.
  assert (FV' : Forall (fun v => (v < length (sv st))%nat) vs) by (rewrite L; exact FV).
  assert (EO : forall v s, nth_error (sv st) v = Some s -> v = j \/ In v vs -> elem_ok (Z.to_nat K) (sh st) s).
  { intros v s Ev IV. destruct (inv_vok st v s I Ev) as (chs & V & TI & _ & EB & _). exists chs. split; [exact V|]. split; [exact TI|].
    specialize (HK v IV). rewrite EB in HK. unfold nbytes in HK. lia. }
  assert (TJ : txt (sh st) sj = T st j) by (unfold txt, T, text; rewrite EJ; reflexivity).
  assert (K0 : 0 <= K) by (specialize (HK j (or_introl eq_refl)); unfold nbytes in HK; lia).
  destruct I as (R & G & NO & F).
  destruct (join_ok (null_val :: sv st) (vals st vs) sj (Z.to_nat K) (sh st)) as (h' & r & EQ & R' & K' & G' & TX).
  - right. eapply nth_error_In; exact EJ.
  - left. reflexivity.
  - intros s Hs. right. eapply vals_incl; exact Hs.
  - exact G.
  - exact R.
  - exact NO.
  - apply (EO j); auto.
  - apply Forall_forall. intros s Hs. apply in_flat_map in Hs as (v & Iv & Hs). destruct (nth_error (sv st) v) as [s'|] eqn:Ev; [|destruct Hs]. destruct Hs as [<-|[]]. apply (EO v); auto.
  - rewrite vals_map by exact FV'. rewrite vals_length by exact FV'. rewrite TJ. destruct (joined_bytes (T st j) (map (T st) vs)) as [_ JB]. rewrite map_length in JB. unfold nbytes in LB.
    destruct vs as [|v0 vs0]; [cbn [length map sum fold_right Nat.mul]; lia|]. specialize (JB ltac:(discriminate)). unfold bytes in *. lia.
  - exists h', r. split; [exact EQ|]. split; [|split].
    + rewrite TX. f_equal. assert (VM := vals_map st vs FV'). destruct vs as [|v0 vs0]; [reflexivity|]. destruct (vals st (v0 :: vs0)) as [|e0 es]; [discriminate VM|].
      cbn [map] in VM. injection VM as V0 VS. cbn [map]. rewrite joined_eq, V0, TJ, <- VS, !flat_map_concat_map, map_map. reflexivity.
    + intros v s Ev. unfold text. rewrite Ev. apply val_text_bits; try reflexivity. unfold keep in K'. rewrite Forall_forall in K'. apply K'. right. eapply nth_error_In; exact Ev.
    + intros b x Hb. destruct R' as [A _]. destruct (A b (sb_arr x)) as [RB _]; [unfold arr; rewrite Hb; reflexivity|]. unfold cnt, refers, stat in RB. exact RB.
Qed.

(** An instance: two words and a slice of a word, joined by a slice adjacent to it. *)
Definition join_demo : list sop := [SLit 0 [97; 44; 98] false; SSubstr 1 0 1 1; SSubstr 2 0 2 1; SLit 3 [195; 169] false].
Example C43_example_ok : run_ok (sinit 5) join_demo.
Proof.
  unfold join_demo. assert (P : forall c, 0 <= c < 2^31 -> plain c) by (intros c Hc; unfold plain; lia).
  next. { split; [exists [97; 44; 98]; split; [reflexivity|repeat constructor; apply P; lia]|]. split; [cbn; intuition lia|cbn; lia]. }
  next. { lia. }
  next. { lia. }
  next. { split; [exists [233]; split; [reflexivity|repeat constructor; apply P; lia]|]. split; [cbn; intuition lia|cbn; lia]. }
  exact Logic.I.
Qed.
Example C43_example : exists st sj h' r, srun (sinit 5) join_demo = Ok st /\ nth_error (sv st) 1 = Some sj /\ T st 1 = [44] /\ map (T st) [4; 2; 3; 0]%nat = [[]; [98]; [233]; [97; 44; 98]] /\
  join (sh st) (vals st [4; 2; 3; 0]%nat) sj = Ok (h', r) /\ val_text h' r = Some [44; 98; 44; 233; 44; 97; 44; 98].
Proof. do 4 eexists. split; [vm_compute; reflexivity|]. split; [vm_compute; reflexivity|]. split; [vm_compute; reflexivity|]. split; [vm_compute; reflexivity|]. split; [vm_compute; reflexivity|]. vm_compute. reflexivity. Qed.

Print Assumptions C43_join.
