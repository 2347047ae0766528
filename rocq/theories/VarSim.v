(** Variants: every operation does what it says on values. *)
From Verif Require Import Base RefModel RefProofs CowModel StrFindSpec StrNumProofs VarModel VarSpec VarProofs.
From Coq Require Import Sorted.
From Verif Require StrFindProofs.

(** ** Lists of values *)
Lemma all_some_F2 {A B} (f : A -> option B) l r :
  all_some (map f l) = Some r <-> Forall2 (fun a b => f a = Some b) l r.
Proof.
  revert r. induction l as [|a l IH]; intros r; cbn.
  - split; [intros H; injection H as <-; constructor|intros H; inversion H; reflexivity].
  - split.
    + destruct (f a) as [b|] eqn:F; [|discriminate]. destruct (all_some (map f l)) as [q|]; [|discriminate].
      intros H. injection H as <-. constructor; [exact F|]. apply IH. reflexivity.
    + intros H. inversion H as [|? b ? q Hb Hq]; subst. rewrite Hb. apply IH in Hq. rewrite Hq. reflexivity.
Qed.

Lemma F2_impl {A B} (P Q : A -> B -> Prop) l r : (forall a b, In a l -> P a b -> Q a b) -> Forall2 P l r -> Forall2 Q l r.
Proof.
  intros H F. induction F as [|a b l r Hab F IH]; constructor; [apply H; [left; reflexivity|exact Hab]|].
  apply IH. intros x y Hx. apply H. right. exact Hx.
Qed.

Lemma F2_length {A B} (P : A -> B -> Prop) l r : Forall2 P l r -> length l = length r.
Proof. induction 1; cbn; congruence. Qed.

Definition vals (f : nat) (h : heap) : list variant -> list tree -> Prop := Forall2 (fun v t => denote f h v = Some t).
Definition texts (h : heap) : list ref -> list (list Z) -> Prop := Forall2 (fun r t => ok (text h r) = Some t).
Definition pairs (f : nat) (h : heap) : list (ref * variant) -> list (list Z * tree) -> Prop :=
  Forall2 (fun p q => ok (text h (fst p)) = Some (fst q) /\ denote f h (snd p) = Some (snd q)).

Lemma vals_ext f h h' l r : ext h h' -> vals f h l r -> vals f h' l r.
Proof. intros E. apply F2_impl. intros a b _. apply ext_denote, E. Qed.
Lemma texts_ext h h' l r : ext h h' -> texts h l r -> texts h' l r.
Proof. intros E. apply F2_impl. intros a b _. apply ext_text, E. Qed.
Lemma pairs_ext f h h' l r : ext h h' -> pairs f h l r -> pairs f h' l r.
Proof. intros E. apply F2_impl. intros a b _ [X Y]. split; [eapply ext_text; eauto|eapply ext_denote; eauto]. Qed.
Lemma vals_mono f f' h l r : (f <= f')%nat -> vals f h l r -> vals f' h l r.
Proof. intros L. apply F2_impl. intros a b _. apply denote_mono, L. Qed.

Ltac perm := intros ?; cbn [flat_map map app owned kids fst snd]; rewrite ?cnt_app, ?cnt_cons, ?cnt_app; lia.

(** ** Copying *)
Lemma copies_ok f : forall l h roots ts, Inv h roots -> vals f h l ts ->
  exists h' l', copies h l = Ok (h', l') /\ Inv h' (flat_map owned l' ++ roots) /\ ext h h' /\ vals f h' l' ts.
Proof.
  induction l as [|v l IH]; intros h roots ts I V; inversion V as [|? t ? ts' Hv Hl]; subst; cbn [copies].
  - exists h, []. split; [reflexivity|]. split; [exact I|]. split; [apply ext_refl|constructor].
  - destruct (copy_ok h roots f v t I Hv) as (h1 & v1 & E1 & I1 & X1 & D1 & _). rewrite E1. cbn [obind fst snd].
    destruct (IH h1 (owned v1 ++ roots) ts' I1 (vals_ext _ _ _ _ _ X1 Hl)) as (h2 & l2 & E2 & I2 & X2 & D2).
    rewrite E2. cbn [obind fst snd]. exists h2, (v1 :: l2). split; [reflexivity|]. split.
    + revert I2. apply inv_perm. perm.
    + split; [eapply ext_trans; eauto|]. constructor; [eapply ext_denote; eauto|exact D2].
Qed.

Lemma add_refs_ok : forall rs h roots ts, Inv h roots -> texts h rs ts ->
  exists h', add_refs h rs = Ok h' /\ Inv h' (map r_body rs ++ roots) /\ ext h h'.
Proof.
  induction rs as [|r rs IH]; intros h roots ts I T; inversion T as [|? t ? ts' Hr Hrs]; subst; cbn [add_refs].
  - exists h. split; [reflexivity|]. split; [exact I|apply ext_refl].
  - destruct (text_live _ _ _ Hr) as (x & L). destruct (add_ref_ok h roots _ x I L) as (h1 & E1 & I1 & X1).
    rewrite E1. cbn [obind]. destruct (IH h1 _ ts' I1 (texts_ext _ _ _ _ X1 Hrs)) as (h2 & E2 & I2 & X2).
    exists h2. split; [exact E2|]. split; [|eapply ext_trans; eauto]. revert I2. apply inv_perm. perm.
Qed.

(** ** Maps *)
Lemma key_text_ok h r t : ok (text h r) = Some t -> key_text h r = t.
Proof. unfold key_text. destruct (text h r); cbn; congruence. Qed.

Lemma mfind_commute f h k tk m md : ok (text h k) = Some tk -> pairs f h m md ->
  match mfind (key_ltb h) k m with
  | Some _ => mfind text_ltb tk md <> None
  | None => mfind text_ltb tk md = None
  end.
Proof.
  intros Hk P. induction P as [|[k' v] [tk' t] m md [H1 H2] P IH]; cbn [mfind]; [reflexivity|]. cbn [fst snd] in *.
  unfold eqv, key_ltb in *. rewrite (key_text_ok _ _ _ Hk), (key_text_ok _ _ _ H1) in *.
  destruct (negb (text_ltb tk tk') && negb (text_ltb tk' tk)); [discriminate|]. exact IH.
Qed.

Lemma mplace_commute f h h0 k tk v t m md : ok (text h k) = Some tk -> ext h h0 -> denote f h0 v = Some t -> pairs f h m md ->
  pairs f h0 (mplace (key_ltb h) k v m) (mplace text_ltb tk t md).
Proof.
  intros Hk X Hv P. induction P as [|[k' v'] [tk' t'] m md [H1 H2] P IH]; cbn [mplace].
  - constructor; [|constructor]. split; [eapply ext_text; eauto|exact Hv].
  - cbn [fst snd] in *. unfold key_ltb at 1. rewrite (key_text_ok _ _ _ Hk), (key_text_ok _ _ _ H1).
    destruct (text_ltb tk tk').
    + constructor; [split; [eapply ext_text; eauto|exact Hv]|].
      constructor; [split; [eapply ext_text; eauto|eapply ext_denote; eauto]|]. eapply pairs_ext; eauto.
    + constructor; [split; [eapply ext_text; eauto|eapply ext_denote; eauto]|exact IH].
Qed.

Lemma mplace_kids {lt} (k : ref) (v : variant) m c :
  cnt c (kids (DMap (mplace lt k v m))) = cnt c ((r_body k :: owned v) ++ kids (DMap m)).
Proof.
  cbn [kids]. induction m as [|[k' v'] m IH]; cbn [mplace flat_map fst snd]; [reflexivity|].
  destruct (lt k k'); cbn [flat_map fst snd]; [reflexivity|].
  rewrite cnt_app, IH, !cnt_app. lia.
Qed.

Lemma build_map_ok f : forall ks vs h m md kts ts roots,
  Inv h (kids (DMap m) ++ roots) -> pairs f h m md -> texts h ks kts -> vals f h vs ts ->
  exists h' m', build_map h m ks vs = Ok (h', m') /\ Inv h' (kids (DMap m') ++ roots) /\ ext h h' /\
    pairs f h' m' (fold_left (fun m p => minsert text_ltb (fst p) (snd p) m) (combine kts ts) md).
Proof.
  induction ks as [|k ks IH]; intros vs h m md kts ts roots I P T V; inversion T as [|? tk ? kts' Hk Hks]; subst; cbn [build_map combine fold_left].
  { exists h, m. split; [reflexivity|]. split; [exact I|]. split; [apply ext_refl|exact P]. }
  inversion V as [|v t vs' ts' Hv Hvs]; subst; cbn [combine fold_left].
  { exists h, m. split; [reflexivity|]. split; [exact I|]. split; [apply ext_refl|exact P]. }
  cbn [fst snd]. pose proof (mfind_commute f h k tk m md Hk P) as MF.
  destruct (mfind (key_ltb h) k m) as [w|] eqn:M.
  - assert (E : minsert text_ltb tk t md = md).
    { unfold minsert. destruct (mfind text_ltb tk md); [reflexivity|contradiction]. }
    rewrite E. apply IH; auto.
  - destruct (text_live _ _ _ Hk) as (x & L).
    destruct (add_ref_ok h _ _ x I L) as (h1 & E1 & I1 & X1). rewrite E1. cbn [obind].
    destruct (copy_ok h1 _ f v t I1 (ext_denote _ _ _ _ _ X1 Hv)) as (h2 & v2 & E2 & I2 & X2 & D2 & _).
    rewrite E2. cbn [obind fst snd]. assert (X : ext h h2) by (eapply ext_trans; eauto).
    assert (EM : minsert (key_ltb h) k v2 m = mplace (key_ltb h) k v2 m) by (unfold minsert; rewrite M; reflexivity).
    assert (ED : minsert text_ltb tk t md = mplace text_ltb tk t md) by (unfold minsert; rewrite MF; reflexivity).
    rewrite EM, ED.
    destruct (IH vs' h2 (mplace (key_ltb h) k v2 m) (mplace text_ltb tk t md) kts' ts' roots) as (h3 & m3 & E3 & I3 & X3 & P3).
    + revert I2. apply inv_perm. intros c. rewrite !cnt_app, mplace_kids, cnt_cons. cbn [app]. rewrite cnt_cons, !cnt_app. lia.
    + eapply mplace_commute; eauto.
    + eapply texts_ext; eauto.
    + eapply vals_ext; eauto.
    + exists h3, m3. split; [exact E3|]. split; [exact I3|]. split; [eapply ext_trans; eauto|exact P3].
Qed.

Lemma text_ltb_lt a b : text_ltb a b = match lex a b with Lt => true | _ => false end.
Proof. reflexivity. Qed.
Definition in_order (m : list (list Z * tree)) : Prop := StronglySorted (fun p q => lex (fst p) (fst q) = Lt) m.
Lemma mfind_below k (t : tree) m : Forall (fun q : list Z * tree => lex k (fst q) = Lt) m -> mfind text_ltb k m = None.
Proof.
  induction m as [|[k' t'] m IH]; intros F; [reflexivity|]. inversion F as [|? ? F1 F2]; subst. cbn [mfind fst] in *.
  unfold eqv. rewrite !text_ltb_lt, F1. cbn [negb andb]. auto.
Qed.
Lemma minsert_add k t m : in_order m -> minsert text_ltb k t m = add_new k t m.
Proof.
  unfold minsert. induction m as [|[k' t'] m IH]; intros O; [reflexivity|]. inversion O as [|? ? O1 O2]; subst. specialize (IH O1).
  cbn [mfind mplace add_new]. unfold eqv. rewrite !text_ltb_lt, (StrFindProofs.lex_opp k k'). cbn [fst] in O2.
  destruct (lex k k') eqn:E; cbn [CompOpp negb andb]; [reflexivity| |].
  - rewrite mfind_below; [reflexivity|exact t|]. revert O2. apply Forall_impl. intros q Hq. eapply StrFindProofs.lex_trans; [exact E|exact Hq].
  - destruct (mfind text_ltb k m) eqn:M; [rewrite <- IH; reflexivity|]. rewrite IH. reflexivity.
Qed.
Lemma add_new_in k t m q : In q (add_new k t m) -> q = (k, t) \/ In q m.
Proof.
  induction m as [|[k' t'] m IH]; cbn [add_new]; [intros [H|[]]; auto|].
  destruct (lex k k'); [auto| |]; intros [H|H]; cbn [In]; auto. apply IH in H. tauto.
Qed.
Lemma add_new_order k t m : in_order m -> in_order (add_new k t m).
Proof.
  induction m as [|[k' t'] m IH]; intros O; [constructor; constructor|]. inversion O as [|? ? O1 O2]; subst. cbn [add_new].
  destruct (lex k k') eqn:E; [exact O| |].
  - constructor; [exact O|]. constructor; [exact E|]. revert O2. apply Forall_impl. intros q Hq. eapply StrFindProofs.lex_trans; [exact E|exact Hq].
  - constructor; [apply IH, O1|]. apply Forall_forall. intros q Hq. apply add_new_in in Hq. destruct Hq as [->|Hq].
    + cbn [fst]. rewrite StrFindProofs.lex_opp, E. reflexivity.
    + rewrite Forall_forall in O2. apply O2, Hq.
Qed.
Lemma build_eq l : forall md, in_order md ->
  fold_left (fun m p => minsert text_ltb (fst p) (snd p) m) l md = fold_left (fun m p => add_new (fst p) (snd p) m) l md.
Proof.
  induction l as [|[k t] l IH]; intros md O; [reflexivity|]. cbn [fold_left fst snd]. rewrite minsert_add by exact O. apply IH, add_new_order, O.
Qed.

Lemma eqv_text a b : eqv text_ltb a b = if list_eq_dec Z.eq_dec a b then true else false.
Proof.
  unfold eqv. rewrite !text_ltb_lt, (StrFindProofs.lex_opp a b). pose proof (StrFindProofs.lex_eq a b) as Q.
  destruct (list_eq_dec Z.eq_dec a b) as [E|E]; [apply Q in E; rewrite E; reflexivity|].
  destruct (lex a b); cbn; [|reflexivity|reflexivity]. exfalso. apply E, Q. reflexivity.
Qed.
Lemma at_key_ok f h k tk m md : ok (text h k) = Some tk -> pairs f h m md ->
  match mfind (key_ltb h) k m with
  | Some v => denote f h v = Some (at_key tk md)
  | None => at_key tk md = Null
  end.
Proof.
  intros Hk P. induction P as [|[k' v] [tk' t] m md [H1 H2] P IH]; cbn [mfind at_key]; [reflexivity|]. cbn [fst snd] in *.
  assert (Q : eqv (key_ltb h) k k' = eqv text_ltb tk tk').
  { unfold eqv, key_ltb. rewrite (key_text_ok _ _ _ Hk), (key_text_ok _ _ _ H1). reflexivity. }
  rewrite Q, eqv_text.
  destruct (list_eq_dec Z.eq_dec tk tk'); [exact H2|exact IH].
Qed.

(** ** Destroying, assigning *)
Lemma coerce_none_ok h v roots : Inv h (owned v ++ roots) ->
  exists h', coerce_none h v = Ok (h', mkvar TNone zeroed) /\ Inv h' roots /\ keeps roots h h'.
Proof.
  intros I. unfold coerce_none. destruct (release_all_ok h (owned v) roots I) as (h' & E & I' & K).
  rewrite E. cbn [obind]. exists h'. auto.
Qed.

Lemma assign_ok h this v roots f t : Inv h (owned v ++ owned this ++ roots) -> denote f h v = Some t ->
  exists h' v', assign h this v = Ok (h', v') /\ Inv h' (owned v' ++ roots) /\ keeps roots h h' /\ denote f h' v' = Some t.
Proof.
  intros I D. unfold assign.
  destruct (coerce_none_ok h this (owned v ++ roots)) as (h1 & E1 & I1 & K1).
  { revert I. apply inv_perm. perm. }
  rewrite E1. cbn [obind fst].
  assert (D1 : denote f h1 v = Some t) by (apply K1; [apply incl_appl, incl_refl|exact D]).
  destruct (copy_ok h1 _ f v t I1 D1) as (h2 & v2 & E2 & I2 & X2 & D2 & _). rewrite E2. cbn [obind fst snd].
  destruct (coerce_none_ok h2 v (owned v2 ++ roots)) as (h3 & E3 & I3 & K3).
  { revert I2. apply inv_perm. perm. }
  rewrite E3. cbn [obind fst snd]. exists h3, v2. split; [reflexivity|]. split; [exact I3|]. split.
  - eapply keeps_trans; [eapply keeps_incl; [|exact K1]; apply incl_appr, incl_refl|].
    eapply keeps_trans; [apply (ext_keeps _ _ _ X2)|]. eapply keeps_incl; [|exact K3]. apply incl_appr, incl_refl.
  - apply K3; [apply incl_appl, incl_refl|exact D2].
Qed.

(** ** States *)
Definition oowned (o : option variant) : list nat := match o with Some v => owned v | None => [] end.
Definition var_roots (vs : list (option variant)) : list nat := flat_map oowned vs.

Lemma var_roots_upd vs x o o' c : nth_error vs x = Some o ->
  (cnt c (var_roots (upd vs x o')) + cnt c (oowned o) = cnt c (var_roots vs) + cnt c (oowned o'))%nat.
Proof.
  revert x. induction vs as [|y vs IH]; intros [|x] H; cbn in H; try discriminate.
  - injection H as ->. cbn [upd var_roots flat_map]. rewrite !cnt_app. lia.
  - cbn [upd var_roots flat_map]. rewrite !cnt_app. specialize (IH x H). unfold var_roots in IH. lia.
Qed.

Lemma var_roots_in vs x v : nth_error vs x = Some (Some v) -> incl (owned v) (var_roots vs).
Proof.
  intros H b Hb. unfold var_roots. apply in_flat_map. exists (Some v). split; [eapply nth_error_In; eauto|exact Hb].
Qed.

(** [lost]: bodies that nothing refers to any more but that still count a
    reference. *)
Definition SInv (st : state) (lost : list nat) : Prop := Inv (st_heap st) (var_roots (st_vars st) ++ lost).

Lemma var_ok st e x : shows st e ->
  match e x with
  | Some t => exists v f, nth_error (st_vars st) x = Some (Some v) /\ var st x = Ok v /\ denote f (st_heap st) v = Some t
  | None => var st x = Abort
  end.
Proof.
  intros S. specialize (S x). unfold var. destruct (nth_error (st_vars st) x) as [[v|]|] eqn:E.
  - destruct S as (t & -> & f & D). exists v, f. auto.
  - rewrite S. reflexivity.
  - rewrite S. reflexivity.
Qed.

Lemma vars_ok st e xs : shows st e ->
  match all_some (map e xs) with
  | Some ts => exists vs f, vars st xs = Ok vs /\ vals f (st_heap st) vs ts
  | None => vars st xs = Abort
  end.
Proof.
  intros S. induction xs as [|x xs IH]; cbn [map all_some vars].
  - exists [], 0%nat. split; [reflexivity|constructor].
  - pose proof (var_ok st e x S) as V. destruct (e x) as [t|].
    + destruct V as (v & f & _ & V & D). rewrite V. cbn [obind]. destruct (all_some (map e xs)) as [ts|].
      * destruct IH as (vs & f' & E & W). rewrite E. cbn [obind]. exists (v :: vs), (max f f'). split; [reflexivity|].
        constructor; [apply (denote_mono f); [lia|exact D]|apply (vals_mono f'); [lia|exact W]].
      * rewrite IH. reflexivity.
    + rewrite V. reflexivity.
Qed.

Lemma str_refs_ok f h vs ts : vals f h vs ts ->
  match all_some (map (fun t => as_str (Some t)) ts) with
  | Some l => exists rs, str_refs vs = Ok rs /\ texts h rs l
  | None => str_refs vs = Abort
  end.
Proof.
  intros V. induction V as [|v t vs ts D V IH]; cbn [map all_some str_refs].
  - exists []. split; [reflexivity|constructor].
  - destruct f as [|f]; [discriminate|]. cbn [denote] in D. unfold must_be, cassert.
    destruct (v_type v) eqn:T; cbn [vtype_eqb].
    5: { unfold object. destruct (v_u v) as [z|r]; cbn [refd bind obind] in *; [discriminate|].
         destruct (ok (text h r)) as [tx|] eqn:TX; cbn [bind] in D; [|discriminate]. injection D as <-.
         change (as_str (Some (Str tx))) with (Some tx). cbv iota.
         destruct (all_some (map (fun t => as_str (Some t)) ts)) as [q|].
         - destruct IH as (rs & E & W). rewrite E. cbn [obind]. eexists. split; [reflexivity|]. constructor; [exact TX|exact W].
         - rewrite IH. reflexivity. }
    all: try (injection D as <-; reflexivity).
    all: repeat match type of D with bind ?Q _ = _ => destruct Q; cbn [bind] in D; [|discriminate] end; injection D as <-; reflexivity.
Qed.

Lemma as_strs (e : env) (ys : list nat) : all_some (map (fun y => as_str (e y)) ys) =
  match all_some (map e ys) with Some ts => all_some (map (fun t => as_str (Some t)) ts) | None => None end.
Proof.
  induction ys as [|y ys IH]; cbn [map all_some]; [reflexivity|]. rewrite IH.
  destruct (e y) as [t|]; cbn [as_str]; [|reflexivity].
  destruct (all_some (map e ys)) as [ts|]; [|destruct t; reflexivity]. cbn [map all_some]. reflexivity.
Qed.

Lemma strs_ok st e ys : shows st e ->
  match all_some (map (fun y => as_str (e y)) ys) with
  | Some l => exists vs rs, vars st ys = Ok vs /\ str_refs vs = Ok rs /\ texts (st_heap st) rs l
  | None => vars st ys = Abort \/ exists vs, vars st ys = Ok vs /\ str_refs vs = Abort
  end.
Proof.
  intros S. rewrite as_strs. pose proof (vars_ok st e ys S) as V. destruct (all_some (map e ys)) as [ts|]; [|left; exact V].
  destruct V as (vs & f & E & V). pose proof (str_refs_ok _ _ _ _ V) as R.
  destruct (all_some (map (fun t => as_str (Some t)) ts)) as [l|].
  - destruct R as (rs & R & T). exists vs, rs. auto.
  - right. exists vs. auto.
Qed.

(** The string of a variable. *)
Lemma str_ok st e y : shows st e ->
  match as_str (e y) with
  | Some t => exists v r, nth_error (st_vars st) y = Some (Some v) /\ var st y = Ok v /\ v_type v = TString /\ v_u v = Obj r /\ text (st_heap st) r = Ok t
  | None => var st y = Abort \/ exists v, var st y = Ok v /\ vtype_eqb (v_type v) TString = false
  end.
Proof.
  intros S. pose proof (var_ok st e y S) as V. destruct (e y) as [t|]; [|left; exact V].
  destruct V as (v & f & N & V & D). destruct f as [|f]; [discriminate|]. cbn [denote] in D.
  assert (X : forall t', v_type v = t' -> t' <> TString -> as_str (Some t) = None ->
    match as_str (Some t) with
    | Some t => exists v r, nth_error (st_vars st) y = Some (Some v) /\ var st y = Ok v /\ v_type v = TString /\ v_u v = Obj r /\ text (st_heap st) r = Ok t
    | None => var st y = Abort \/ exists v, var st y = Ok v /\ vtype_eqb (v_type v) TString = false
    end).
  { intros t' E Ht ->. right. exists v. split; [exact V|]. rewrite E. destruct t'; try reflexivity. contradiction. }
  destruct (v_type v) eqn:T.
  5: { destruct (v_u v) as [z|r] eqn:U; cbn [refd bind] in D; [discriminate|].
       destruct (text (st_heap st) r) as [u| |] eqn:TX; cbn in D; try discriminate. injection D as <-. cbn [as_str].
       exists v, r. auto. }
  all: apply (X _ eq_refl); [discriminate|].
  all: try (injection D as <-; reflexivity).
  all: repeat match type of D with bind ?Q _ = _ => destruct Q; cbn [bind] in D; [|discriminate] end; injection D as <-; reflexivity.
Qed.

Lemma skipn_skipn {A} (l : list A) a b : skipn a (skipn b l) = skipn (b + a) l.
Proof. revert l. induction b as [|b IH]; intros l; [reflexivity|]. destruct l; cbn [skipn Nat.add]; [apply skipn_nil|apply IH]. Qed.

Lemma slice_sub {A} (t : list A) r full off len : t = slice r full ->
  slice (mkref (r_body r) (r_off r + min off (length t)) (min len (length t - off))) full = firstn len (skipn off t).
Proof.
  intros E. unfold slice in *. cbn [r_off r_len].
  assert (S : skipn (r_off r + min off (length t)) full = skipn (min off (length t)) (skipn (r_off r) full)).
  { symmetry. apply skipn_skipn. }
  rewrite S. rewrite <- (firstn_skipn (r_len r) (skipn (r_off r) full)), <- E.
  rewrite skipn_app. replace (min off (length t) - length t)%nat with 0%nat by lia. rewrite skipn_O.
  rewrite firstn_app, skipn_length. replace (min len (length t - off) - (length t - min off (length t)))%nat with 0%nat by lia.
  rewrite firstn_O, app_nil_r. destruct (Nat.le_ge_cases off (length t)) as [L|L].
  - replace (min off (length t)) with off by lia. destruct (Nat.le_ge_cases len (length t - off)) as [M|M].
    + replace (min len (length t - off)) with len by lia. reflexivity.
    + replace (min len (length t - off)) with (length t - off)%nat by lia. rewrite !firstn_all2; try reflexivity; rewrite skipn_length; lia.
  - rewrite (@skipn_all2 _ off t) by lia. rewrite firstn_nil. replace (length t - off)%nat with 0%nat by lia.
    rewrite Nat.min_0_r. reflexivity.
Qed.

(** An element of an array. *)
Lemma elem_ok st e y i : shows st e ->
  match element e y i with
  | Some t => exists w f, elem st y i = Ok w /\ denote f (st_heap st) w = Some t
  | None => elem st y i = Abort
  end.
Proof.
  intros S. pose proof (var_ok st e y S) as V. unfold element, elem. destruct (e y) as [t|]; [|rewrite V; reflexivity].
  destruct V as (v & f & N & V & D). rewrite V. cbn [obind]. destruct f as [|f]; [discriminate|]. cbn [denote] in D.
  unfold must_be, cassert. destruct (v_type v) eqn:T; cbn [vtype_eqb].
  7: { unfold object. destruct (v_u v) as [z|r]; cbn [refd bind obind] in *; [discriminate|].
       destruct (variants (st_heap st) r) as [l| |]; cbn [ok bind obind] in *; try discriminate.
       destruct (all_some (map (denote f (st_heap st)) l)) as [ts|] eqn:A; cbn [bind] in D; [|discriminate].
       injection D as <-. apply all_some_F2 in A. clear - A. revert i. induction A as [|w t l ts D A IH]; intros [|i]; cbn [nth_error].
       - reflexivity.
       - reflexivity.
       - exists w, f. auto.
       - apply IH. }
  all: try (injection D as <-; reflexivity).
  all: repeat match type of D with bind ?Q _ = _ => destruct Q; cbn [bind] in D; [|discriminate] end; injection D as <-; reflexivity.
Qed.

(** ** Constructors *)
Lemma means_int h i z : -2^31 <= z < 2^31 -> denote 1 h (mkvar TInteger (set_i i z)) = Some (Int z).
Proof. intros H. cbn [denote v_type v_u]. rewrite get_set_i, s32_id by exact H. reflexivity. Qed.
Lemma means_long h z : -2^63 <= z < 2^63 -> denote 1 h (mkvar TLong (set_l z)) = Some (Long z).
Proof. intros H. cbn [denote v_type v_u]. rewrite get_set_l, s64_id by exact H. reflexivity. Qed.
Lemma means_longlong h z : -2^63 <= z < 2^63 -> denote 1 h (mkvar TLongLong (set_l z)) = Some (LongLong z).
Proof. intros H. cbn [denote v_type v_u]. rewrite get_set_l, s64_id by exact H. reflexivity. Qed.

Lemma slice_all {A} b (l : list A) : slice (mkref b 0 (length l)) l = l.
Proof. unfold slice. cbn [r_len r_off skipn]. apply firstn_all. Qed.

Lemma text_new h b t : live h b (mkbody 1 (DStr t)) -> text h (mkref b 0 (length t)) = Ok t.
Proof. intros L. unfold text. cbn [r_body]. rewrite (get_live _ _ _ L). cbn [obind b_data]. rewrite slice_all. reflexivity. Qed.

Lemma array_ok f h roots vs ts : Inv h roots -> vals f h vs ts ->
  exists h' v, array h vs = Ok (h', v) /\ Inv h' (owned v ++ roots) /\ ext h h' /\ denote (S f) h' v = Some (Vars ts).
Proof.
  intros I V. unfold array. destruct (copies_ok f vs h roots ts I V) as (h1 & l & E & I1 & X1 & V1).
  rewrite E. cbn [obind fst snd]. destruct (new_body h1 (DVars l)) as [h2 b] eqn:NB.
  pose proof (new_body_ok h1 roots (DVars l) I1) as (I2 & X2 & L2). rewrite NB in *. cbn [fst snd] in *.
  exists h2. eexists. split; [reflexivity|]. split; [exact I2|]. split; [eapply ext_trans; eauto|].
  cbn [denote v_type v_u refd bind]. unfold variants. cbn [r_body]. rewrite (get_live _ _ _ L2). cbn [obind b_data].
  assert (EL : length vs = length l).
  { transitivity (length ts); [eapply F2_length; exact V|symmetry; eapply F2_length; exact V1]. }
  rewrite EL, slice_all. cbn [ok bind].
  assert (A : all_some (map (denote f h2) l) = Some ts) by (apply all_some_F2; eapply vals_ext; eauto).
  rewrite A. reflexivity.
Qed.

Lemma fresh_ok h roots ty d len : Inv h roots -> (match d with DStrs [] | DVars [] | DMap [] | DStr _ => True | _ => False end) ->
  match ty with TString | TStrArray | TVarArray | TStrVarMap => True | _ => False end ->
  exists h' b, fresh h ty d len = Ok (h', mkvar ty (Obj (mkref b 0 len))) /\
    Inv h' (owned (mkvar ty (Obj (mkref b 0 len))) ++ roots) /\ ext h h' /\ live h' b (mkbody 1 d).
Proof.
  intros I K T. unfold fresh. destruct (new_body h d) as [h2 b] eqn:NB.
  assert (KD : kids d = []) by (destruct d as [|[|]|[|]|[|]]; try contradiction; reflexivity).
  pose proof (new_body_ok h roots d) as Q. rewrite KD in Q. specialize (Q I). rewrite NB in Q. cbn [fst snd] in Q. destruct Q as (I2 & X2 & L2).
  exists h2, b. split; [reflexivity|]. split; [|split; [exact X2|exact L2]]. destruct ty; try contradiction; exact I2.
Qed.

Lemma must_be_ok {A} v ty (K : outcome A) : v_type v = ty -> must_be v ty K = K.
Proof. intros <-. unfold must_be, cassert. destruct (v_type v); reflexivity. Qed.

(** The map of a variable. *)
Lemma map_ok st e y : shows st e ->
  match e y with
  | Some (Map md) => exists v r m f, var st y = Ok v /\ v_type v = TStrVarMap /\ v_u v = Obj r /\ entries (st_heap st) r = Ok m /\ pairs f (st_heap st) m md
  | _ => var st y = Abort \/ exists v, var st y = Ok v /\ vtype_eqb (v_type v) TStrVarMap = false
  end.
Proof.
  intros S. pose proof (var_ok st e y S) as V. destruct (e y) as [t|]; [|left; exact V].
  destruct V as (v & f & N & V & D). destruct f as [|f]; [discriminate|]. cbn [denote] in D.
  destruct (v_type v) eqn:T.
  8: { destruct (v_u v) as [z|r] eqn:U; cbn [refd bind] in D; [discriminate|].
       destruct (entries (st_heap st) r) as [m| |] eqn:M; cbn [ok bind] in D; try discriminate.
       match type of D with bind (all_some (map ?g m)) _ = _ => destruct (all_some (map g m)) as [ts|] eqn:A; cbn [bind] in D; [|discriminate] end.
       injection D as <-. exists v, r, m, f. repeat (split; [assumption|]). apply all_some_F2 in A. revert A. apply F2_impl.
       intros [k w] [tk tw] _ Q. cbn [fst snd] in *. destruct (ok (text (st_heap st) k)); cbn [bind] in Q; [|discriminate].
       destruct (denote f (st_heap st) w); cbn [bind] in Q; [|discriminate]. injection Q as <- <-. auto. }
  all: try (injection D as <-; right; exists v; split; [exact V|rewrite T; reflexivity]).
  all: repeat match type of D with bind ?Q _ = _ => destruct Q; cbn [bind] in D; [|discriminate] end; injection D as <-;
    right; exists v; split; [exact V|rewrite T; reflexivity].
Qed.

(** The array of a variable. *)
Lemma arr_ok st e y : shows st e ->
  match e y with
  | Some (Vars ts) => exists v r l f, var st y = Ok v /\ v_type v = TVarArray /\ v_u v = Obj r /\ variants (st_heap st) r = Ok l /\ vals f (st_heap st) l ts
  | _ => var st y = Abort \/ exists v, var st y = Ok v /\ vtype_eqb (v_type v) TVarArray = false
  end.
Proof.
  intros S. pose proof (var_ok st e y S) as V. destruct (e y) as [t|]; [|left; exact V].
  destruct V as (v & f & N & V & D). destruct f as [|f]; [discriminate|]. cbn [denote] in D.
  destruct (v_type v) eqn:T.
  7: { destruct (v_u v) as [z|r] eqn:U; cbn [refd bind] in D; [discriminate|].
       destruct (variants (st_heap st) r) as [m| |] eqn:M; cbn [ok bind] in D; try discriminate.
       match type of D with bind (all_some (map ?g m)) _ = _ => destruct (all_some (map g m)) as [ts|] eqn:A; cbn [bind] in D; [|discriminate] end.
       injection D as <-. exists v, r, m, f. repeat (split; [assumption|]). apply all_some_F2 in A. exact A. }
  all: try (injection D as <-; right; exists v; split; [exact V|rewrite T; reflexivity]).
  all: repeat match type of D with bind ?Q _ = _ => destruct Q; cbn [bind] in D; [|discriminate] end; injection D as <-;
    right; exists v; split; [exact V|rewrite T; reflexivity].
Qed.

Lemma F2_skipn {A B} (P : A -> B -> Prop) n : forall l r, Forall2 P l r -> Forall2 P (skipn n l) (skipn n r).
Proof. induction n as [|n IH]; intros l r F; [exact F|]. destruct F; cbn; [constructor|apply IH; assumption]. Qed.
Lemma F2_firstn {A B} (P : A -> B -> Prop) n : forall l r, Forall2 P l r -> Forall2 P (firstn n l) (firstn n r).
Proof. induction n as [|n IH]; intros l r F; [constructor|]. destruct F; cbn; constructor; [assumption|apply IH; assumption]. Qed.

Lemma construct_ok st e i lost : SInv st lost -> shows st e -> fits i ->
  match expected e i with
  | Some t => exists h' v, construct st i = Ok (h', v) /\ Inv h' (owned v ++ var_roots (st_vars st) ++ lost) /\
      ext (st_heap st) h' /\ means h' v t
  | None => construct st i = Abort
  end.
Proof.
  intros I S F. unfold SInv in I. set (roots := var_roots (st_vars st) ++ lost) in *. set (h := st_heap st) in *.
  assert (X0 : ext h h) by apply ext_refl.
  destruct i as [ |z|z|z|t|y off len|y|ys|ys|ks ys|y i|y z|ty|y off len|y k]; cbn [expected construct fits] in *.
  - eexists; eexists; split; [reflexivity|]. split; [exact I|]. split; [exact X0|]. exists 1%nat. reflexivity.
  - eexists; eexists; split; [reflexivity|]. split; [exact I|]. split; [exact X0|]. exists 1%nat. apply means_int, F.
  - eexists; eexists; split; [reflexivity|]. split; [exact I|]. split; [exact X0|]. exists 1%nat. apply means_long, F.
  - eexists; eexists; split; [reflexivity|]. split; [exact I|]. split; [exact X0|]. exists 1%nat. apply means_longlong, F.
  - fold h. destruct (new_body h (DStr t)) as [h2 b] eqn:NB. pose proof (new_body_ok h roots (DStr t) I) as (I2 & X2 & L2).
    rewrite NB in *. cbn [fst snd] in *. eexists; eexists; split; [reflexivity|]. split; [exact I2|]. split; [exact X2|].
    exists 1%nat. cbn [denote v_type v_u refd bind]. rewrite (text_new _ _ _ L2). reflexivity.
  - pose proof (str_ok st e y S) as V. destruct (as_str (e y)) as [t|]; cbn [bind].
    + destruct V as (v & r & N & V & T & U & TX). rewrite V. cbn [obind]. unfold must_be, cassert. rewrite T. cbn [vtype_eqb].
      unfold object. rewrite U. cbn [obind]. fold h in TX |- *. rewrite TX. cbn [obind].
      destruct (text_live h r t) as (x & L). { rewrite TX. reflexivity. }
      destruct (add_ref_ok h roots _ x I L) as (h' & E & I' & X). rewrite E. cbn [obind].
      eexists; eexists; split; [reflexivity|]. split; [exact I'|]. split; [exact X|]. exists 1%nat.
      cbn [denote v_type v_u refd bind].
      unfold text in TX. rewrite (get_live _ _ _ L) in TX. cbn [obind] in TX. destruct (X _ _ L) as (x' & L' & D').
      unfold text. cbn [r_body]. rewrite (get_live _ _ _ L'). cbn [obind]. rewrite D'.
      destruct (b_data x) as [full| | |]; try discriminate. injection TX as TX. cbn [ok bind]. rewrite slice_sub; [reflexivity|]. symmetry. exact TX.
    + destruct V as [V|(v & V & T)]; rewrite V; cbn [obind]; [reflexivity|]. unfold must_be, cassert. rewrite T. reflexivity.
  - pose proof (var_ok st e y S) as V. destruct (e y) as [t|]; [|rewrite V; reflexivity].
    destruct V as (v & f & N & V & D). rewrite V. cbn [obind]. fold h in D |- *.
    destruct (copy_ok h roots f v t I D) as (h' & v' & E & I' & X & D' & _). exists h', v'. repeat (split; [eassumption|]). exists f. exact D'.
  - pose proof (strs_ok st e ys S) as V. destruct (all_some (map (fun y => as_str (e y)) ys)) as [l|]; cbn [bind].
    + destruct V as (vs & rs & V & R & T). rewrite V. cbn [obind]. rewrite R. cbn [obind]. fold h in T |- *.
      destruct (add_refs_ok rs h roots l I T) as (h1 & E1 & I1 & X1). rewrite E1. cbn [obind].
      destruct (new_body h1 (DStrs rs)) as [h2 b] eqn:NB. pose proof (new_body_ok h1 roots (DStrs rs) I1) as (I2 & X2 & L2).
      rewrite NB in *. cbn [fst snd] in *. eexists; eexists; split; [reflexivity|]. split; [exact I2|]. split; [eapply ext_trans; eauto|].
      exists 1%nat. cbn [denote v_type v_u refd bind]. unfold strings. cbn [r_body]. rewrite (get_live _ _ _ L2). cbn [obind b_data].
      rewrite slice_all. cbn [ok bind].
      assert (A : all_some (map (fun r => ok (text h2 r)) rs) = Some l).
      { apply all_some_F2. eapply texts_ext; [|exact T]. eapply ext_trans; eauto. }
      rewrite A. reflexivity.
    + destruct V as [V|(vs & V & R)]; rewrite V; cbn [obind]; [reflexivity|]. rewrite R. reflexivity.
  - pose proof (vars_ok st e ys S) as V. destruct (all_some (map e ys)) as [ts|]; cbn [bind]; [|rewrite V; reflexivity].
    destruct V as (vs & f & V & W). rewrite V. cbn [obind]. fold h in W |- *.
    destruct (array_ok f h roots vs ts I W) as (h' & v & E & I' & X & D). exists h', v. repeat (split; [eassumption|]). exists (Datatypes.S f). exact D.
  - pose proof (strs_ok st e ks S) as V. destruct (all_some (map (fun y => as_str (e y)) ks)) as [l|]; cbn [bind].
    + destruct V as (vs & rs & V & R & T). rewrite V. cbn [obind]. rewrite R. cbn [obind]. fold h in T |- *.
      pose proof (vars_ok st e ys S) as V2. destruct (all_some (map e ys)) as [ts|]; cbn [bind]; [|rewrite V2; reflexivity].
      destruct V2 as (ws & f & V2 & W). rewrite V2. cbn [obind]. fold h in W.
      destruct (build_map_ok f rs ws h [] [] l ts roots I (Forall2_nil _) T W) as (h1 & m & E1 & I1 & X1 & P1).
      rewrite E1. cbn [obind fst snd].
      destruct (new_body h1 (DMap m)) as [h2 b] eqn:NB. pose proof (new_body_ok h1 roots (DMap m) I1) as (I2 & X2 & L2).
      rewrite NB in *. cbn [fst snd] in *. eexists; eexists; split; [reflexivity|]. split; [exact I2|]. split; [eapply ext_trans; eauto|].
      exists (Datatypes.S f). cbn [denote v_type v_u refd bind]. unfold entries. cbn [r_body]. rewrite (get_live _ _ _ L2). cbn [obind b_data ok bind].
      match goal with |- bind (all_some (map ?g m)) _ = _ => assert (A : all_some (map g m) = Some (build l ts)) end.
      { apply all_some_F2. unfold build. rewrite <- build_eq by constructor. revert P1. apply F2_impl. intros [k w] [tk t] _ [HK HW]. cbn [fst snd] in *.
        rewrite (ext_text _ _ _ _ X2 HK). cbn [bind]. rewrite (ext_denote _ _ _ _ _ X2 HW). reflexivity. }
      rewrite A. reflexivity.
    + destruct V as [V|(vs & V & R)]; rewrite V; cbn [obind]; [reflexivity|]. rewrite R. reflexivity.
  - pose proof (elem_ok st e y i S) as V. destruct (element e y i) as [t|]; [|rewrite V; reflexivity].
    destruct V as (w & f & V & D). rewrite V. cbn [obind]. fold h in D |- *.
    destruct (copy_ok h roots f w t I D) as (h' & v' & E & I' & X & D' & _). exists h', v'. repeat (split; [eassumption|]). exists f. exact D'.
  - pose proof (vars_ok st e [y; z] S) as V. cbn [map all_some] in V.
    destruct (e y) as [a|]; cbn [bind]; [|rewrite V; reflexivity].
    destruct (e z) as [b|]; cbn [bind]; [|rewrite V; reflexivity].
    destruct V as (vs & f & V & W). rewrite V. cbn [obind]. fold h in W |- *.
    destruct (array_ok f h roots vs [a; b] I W) as (h' & v & E & I' & X & D). exists h', v. repeat (split; [eassumption|]). exists (Datatypes.S f). exact D.
  - destruct ty; cbn [empty].
    1-4: eexists; eexists; split; [reflexivity|]; split; [exact I|]; split; [exact X0|]; exists 1%nat; reflexivity.
    all: match goal with |- context [fresh ?hh ?ty ?d ?len] =>
      destruct (fresh_ok hh roots ty d len I Logic.I Logic.I) as (h' & b & E & I' & X & L) end;
      rewrite E; eexists; eexists; split; [reflexivity|]; split; [exact I'|]; split; [exact X|]; exists 1%nat;
      cbn [denote v_type v_u refd bind]; unfold text, strings, variants, entries; cbn [r_body]; rewrite (get_live _ _ _ L); reflexivity.
  - pose proof (arr_ok st e y S) as V.
    assert (AB : var st y = Abort \/ (exists v, var st y = Ok v /\ vtype_eqb (v_type v) TVarArray = false) -> construct st (ISlice y off len) = Abort).
    { intros [Q|(v & Q & T)]; cbn [construct]; rewrite Q; cbn [obind]; [reflexivity|]. unfold must_be, cassert. rewrite T. reflexivity. }
    destruct (e y) as [[| | | | | |ts|]|]; try (apply AB; exact V). clear AB.
    destruct V as (v & r & l & f & V & T & U & M & W). rewrite V. cbn [obind]. unfold must_be, cassert. rewrite T. cbn [vtype_eqb].
    unfold object. rewrite U. cbn [obind]. fold h in M, W |- *. rewrite M. cbn [obind].
    pose proof (F2_length _ _ _ W) as LL.
    destruct ((length l <=? off)%nat || (len =? 0)%nat) eqn:G.
    + destruct (fresh_ok h roots TVarArray (DVars []) 0 I Logic.I Logic.I) as (h' & b & E & I' & X & L).
      rewrite E. eexists; eexists; split; [reflexivity|]. split; [exact I'|]. split; [exact X|]. exists 1%nat.
      cbn [denote v_type v_u refd bind]. unfold variants. cbn [r_body]. rewrite (get_live _ _ _ L). cbn [obind b_data slice r_len r_off skipn firstn ok bind map all_some].
      do 2 f_equal. apply Bool.orb_true_iff in G. destruct G as [G|G].
      * apply Nat.leb_le in G. rewrite skipn_all2 by lia. symmetry. apply firstn_nil.
      * apply Nat.eqb_eq in G. subst len. reflexivity.
    + apply Bool.orb_false_iff in G. destruct G as [G _]. apply Nat.leb_gt in G.
      unfold variants in M. destruct (get h (r_body r)) as [x| |] eqn:GX; cbn [obind] in M; try discriminate.
      assert (L : live h (r_body r) x).
      { unfold get in GX. unfold live. destruct (nth_error h (r_body r)) as [[x'|]|]; try discriminate. congruence. }
      destruct (add_ref_ok h roots _ x I L) as (h' & E & I' & X). rewrite E. cbn [obind].
      eexists; eexists; split; [reflexivity|]. split; [exact I'|]. split; [exact X|]. exists (Datatypes.S f).
      cbn [denote v_type v_u refd bind]. destruct (X _ _ L) as (x' & L' & D').
      unfold variants. cbn [r_body]. rewrite (get_live _ _ _ L'). cbn [obind]. rewrite D'.
      destruct (b_data x) as [|?|full|] eqn:BD; try discriminate. assert (M' : slice r full = l) by congruence. clear M. rename M' into M. cbn [ok bind].
      pose proof (slice_sub l r full off len (eq_sym M)) as Q. replace (min off (length l)) with off in Q by lia. rewrite Q.
      assert (A : all_some (map (denote f h') (firstn len (skipn off l))) = Some (firstn len (skipn off ts))).
      { apply all_some_F2. apply F2_firstn, F2_skipn. eapply vals_ext; [exact X|exact W]. }
      rewrite A. reflexivity.
  - pose proof (str_ok st e k S) as V. destruct (as_str (e k)) as [tk|]; cbn [bind].
    2: { destruct V as [V|(v & V & T)]; rewrite V; cbn [obind]; [reflexivity|]. unfold must_be, cassert. rewrite T. reflexivity. }
    destruct V as (w & kr & N & V & T & U & TX). rewrite V. cbn [obind]. rewrite (must_be_ok w TString _ T).
    assert (OB : object w = Ok kr) by (unfold object; rewrite U; reflexivity). rewrite OB. cbn [obind]. pose proof (map_ok st e y S) as VM.
    match goal with |- context [obind (var st y) ?K] => set (rest := K);
    assert (AB : var st y = Abort \/ (exists v, var st y = Ok v /\ vtype_eqb (v_type v) TStrVarMap = false) -> obind (var st y) rest = Abort) end.
    { unfold rest. intros [Q|(v & Q & TT)]; rewrite Q; cbn [obind]; [reflexivity|]. unfold must_be, cassert. rewrite TT. reflexivity. }
    destruct (e y) as [[| | | | | | |md]|]; try (apply AB; exact VM). clear AB. unfold rest. clear rest.
    destruct VM as (v & r & m & f & V2 & T2 & U2 & M & P). rewrite V2. cbn [obind]. unfold must_be, cassert. rewrite T2. cbn [vtype_eqb].
    unfold object. rewrite U2. cbn [obind]. fold h in M, P, TX |- *. rewrite M. cbn [obind].
    assert (TK : ok (text h kr) = Some tk) by (rewrite TX; reflexivity).
    pose proof (at_key_ok f h kr tk m md TK P) as Q. destruct (mfind (key_ltb h) kr m) as [x|].
    + destruct (copy_ok h roots f x _ I Q) as (h' & v' & E & I' & X & D' & _). exists h', v'. repeat (split; [eassumption|]). exists f. exact D'.
    + rewrite Q. eexists; eexists; split; [reflexivity|]. split; [exact I|]. split; [exact X0|]. exists 1%nat. reflexivity.
Qed.

(** ** Steps other than coercions *)
Lemma nth_upd_any {A} (l : list A) i x j : (i < length l)%nat ->
  nth_error (upd l i x) j = if (j =? i)%nat then Some x else nth_error l j.
Proof.
  intros L. destruct (Nat.eqb_spec j i) as [->|N].
  - destruct (nth_error l i) as [y|] eqn:E; [eapply nth_upd_eq; eauto|apply nth_error_None in E; lia].
  - apply nth_upd_ne. congruence.
Qed.

(** Putting a new value in one variable. *)
Lemma put_ok st e x h' o t : shows st e -> (x < length (st_vars st))%nat ->
  (forall y v, y <> x -> nth_error (st_vars st) y = Some (Some v) -> forall u, means (st_heap st) v u -> means h' v u) ->
  match o with Some v => exists u, t = Some u /\ means h' v u | None => t = None end ->
  shows (mkstate h' (upd (st_vars st) x o)) (put e x t).
Proof.
  intros S L K H y. cbn [st_vars st_heap]. rewrite nth_upd_any by exact L. unfold put. destruct (Nat.eqb_spec y x) as [->|N].
  - destruct o; exact H.
  - specialize (S y). destruct (nth_error (st_vars st) y) as [[v|]|] eqn:E; [|exact S|exact S].
    destruct S as (u & Ey & M). exists u. split; [exact Ey|]. eapply K; eauto.
Qed.

Lemma roots_without vs x v y w : y <> x -> nth_error vs x = Some (Some v) -> nth_error vs y = Some (Some w) ->
  incl (owned w) (var_roots (upd vs x None)).
Proof.
  intros N X Y. apply (var_roots_in (upd vs x None) y). rewrite nth_upd_ne by congruence. exact Y.
Qed.

Lemma roots_split vs x v c : nth_error vs x = Some (Some v) ->
  cnt c (var_roots vs) = (cnt c (owned v) + cnt c (var_roots (upd vs x None)))%nat.
Proof. intros H. pose proof (var_roots_upd vs x (Some v) None c H) as Q. cbn [oowned] in Q. change (cnt c []) with 0%nat in Q. lia. Qed.

Lemma roots_put vs x v w c : nth_error vs x = Some (Some v) ->
  cnt c (var_roots (upd vs x (Some w))) = (cnt c (owned w) + cnt c (var_roots (upd vs x None)))%nat.
Proof.
  intros H. pose proof (var_roots_upd vs x (Some v) None c H) as Q. pose proof (var_roots_upd vs x (Some v) (Some w) c H) as Q'.
  cbn [oowned] in *. change (cnt c []) with 0%nat in *. lia.
Qed.

Lemma assign_step st e x v w f t lost : SInv st lost -> shows st e -> nth_error (st_vars st) x = Some (Some v) ->
  denote f (st_heap st) w = Some t ->
  exists st', (do c <- copy (st_heap st) w; do r <- assign (fst c) v (snd c);
               Ok (mkstate (fst r) (upd (st_vars st) x (Some (snd r))))) = Ok st' /\
    shows st' (put e x (Some t)) /\ SInv st' lost /\ length (st_vars st') = length (st_vars st).
Proof.
  intros I S N D. destruct (copy_ok _ _ f w t I D) as (h1 & w1 & E1 & I1 & X1 & D1 & _). rewrite E1. cbn [obind fst snd].
  set (rest := var_roots (upd (st_vars st) x None)).
  destruct (assign_ok h1 v w1 (rest ++ lost) f t) as (h2 & w2 & E2 & I2 & K2 & D2).
  { revert I1. apply inv_perm. intros c. rewrite !cnt_app, (roots_split _ _ _ c N). fold rest. lia. }
  { exact D1. }
  rewrite E2. cbn [obind fst snd]. eexists. split; [reflexivity|].
  assert (Lx : (x < length (st_vars st))%nat) by (apply nth_error_Some; congruence).
  split; [|split].
  - apply put_ok; auto.
    + intros y u Ny Hu q [fq Dq]. exists fq. apply K2; [|eapply ext_denote; eauto].
      apply incl_appl. eapply roots_without; eauto.
    + exists t. split; [reflexivity|]. exists f. exact D2.
  - unfold SInv. cbn [st_heap st_vars]. revert I2. apply inv_perm. intros c. rewrite !cnt_app, (roots_put _ _ _ w2 c N). fold rest. lia.
  - cbn [st_vars]. apply upd_length.
Qed.

Lemma step_ok st e o lost : SInv st lost -> shows st e -> op_fits o -> is_coerce o = false ->
  match effect (length (st_vars st)) e o with
  | Some e' => exists st', step st o = Ok st' /\ shows st' e' /\ SInv st' lost /\ length (st_vars st') = length (st_vars st)
  | None => step st o = Abort
  end.
Proof.
  intros I S F C. destruct o as [x i|x y|x y i|x|x t|x t z]; cbn [effect step]; [| | | |discriminate|discriminate].
  - unfold free_var. pose proof (S x) as Sx. destruct (Nat.ltb_spec x (length (st_vars st))) as [L|L].
    + destruct (nth_error (st_vars st) x) as [[v|]|] eqn:N.
      * destruct Sx as (t & -> & _). reflexivity.
      * rewrite Sx. pose proof (construct_ok st e i lost I S F) as K. destruct (expected e i) as [t|]; cbn [bind].
        -- destruct K as (h' & v & E & I' & X & M). rewrite E. cbn [obind fst snd]. eexists. split; [reflexivity|]. split; [|split].
           ++ apply put_ok; auto; [|eauto]. intros y w _ _ u [f D]. exists f. eapply ext_denote; eauto.
           ++ unfold SInv. cbn [st_heap st_vars]. revert I'. apply inv_perm. intros c.
              pose proof (var_roots_upd (st_vars st) x None (Some v) c N) as Q. cbn [oowned] in Q. change (cnt c []) with 0%nat in Q.
              rewrite !cnt_app. lia.
           ++ cbn [st_vars]. apply upd_length.
        -- rewrite K. reflexivity.
      * apply nth_error_None in N. lia.
    + rewrite (proj2 (nth_error_None (st_vars st) x)) by lia. reflexivity.
  - pose proof (var_ok st e x S) as V. destruct (e x) as [tx|]; cbn [bind]; [|rewrite V; reflexivity].
    destruct V as (v & fx & N & V & _). rewrite V. cbn [obind].
    pose proof (var_ok st e y S) as W. destruct (e y) as [t|]; cbn [bind]; [|rewrite W; reflexivity].
    destruct W as (w & f & _ & W & D). rewrite W. cbn [obind]. eapply assign_step; eauto.
  - pose proof (var_ok st e x S) as V. destruct (e x) as [tx|]; cbn [bind]; [|rewrite V; reflexivity].
    destruct V as (v & fx & N & V & _). rewrite V. cbn [obind].
    pose proof (elem_ok st e y i S) as W. destruct (element e y i) as [t|]; cbn [bind]; [|rewrite W; reflexivity].
    destruct W as (w & f & W & D). rewrite W. cbn [obind]. eapply assign_step; eauto.
  - pose proof (var_ok st e x S) as V. destruct (e x) as [tx|]; cbn [bind]; [|rewrite V; reflexivity].
    destruct V as (v & fx & N & V & _). rewrite V. cbn [obind].
    destruct (coerce_none_ok (st_heap st) v (var_roots (upd (st_vars st) x None) ++ lost)) as (h' & E & I' & K).
    { revert I. apply inv_perm. intros c. rewrite !cnt_app, (roots_split _ _ _ c N). lia. }
    rewrite E. cbn [obind fst]. eexists. split; [reflexivity|].
    assert (Lx : (x < length (st_vars st))%nat) by (apply nth_error_Some; congruence).
    split; [|split; [exact I'|cbn [st_vars]; apply upd_length]].
    apply put_ok; auto. intros y u Ny Hu q [fq Dq]. exists fq. apply K; [|exact Dq]. apply incl_appl. eapply roots_without; eauto.
Qed.
