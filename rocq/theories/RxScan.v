(** Scanning the text of a regular expression yields its tokens. *)
From Verif Require Import Base UTF8Model CharModel RxCompModel RxSpec RxVm.

Definition flush' (d : list Z) : list token := match d with [] => [] | _ => [TLit d] end.
Definition rep_toks (q : quant) : list token :=
  match q with QOne => [] | QOpt => [TRep 0 1] | QStar => [TRep 0 0] | QPlus => [TRep 1 0] end.

(** The tokens, given the literal characters held back, and those held back after *)
Fixpoint toks (r : rx) (d : list Z) : list token * list Z :=
  match r with
  | XSeq s => toks_sq s d
  | XAlt s r =>
    let x := toks_sq s d in
    let y := toks r [] in
    (fst x ++ flush' (snd x) ++ [TAlt] ++ fst y, snd y)
  end
with toks_sq (s : sq) (d : list Z) : list token * list Z :=
  match s with
  | SNil => ([], d)
  | SCons i s =>
    let x := toks_item i d in
    let y := toks_sq s (snd x) in
    (fst x ++ fst y, snd y)
  end
with toks_item (i : item) (d : list Z) : list token * list Z :=
  match i with
  | ItBol => (flush' d ++ [TBOL], [])
  | ItEol => (flush' d ++ [TEOL], [])
  | It (AChar c) QOne => ([], d ++ [c])
  | It a q => (flush' d ++ toks_atom a ++ rep_toks q, [])
  end
with toks_atom (a : atom) : list token :=
  match a with
  | AChar c => [TLit [c]]
  | AAny => [TAny]
  | AClass neg l => [TClass neg (class_text l)]
  | AProp c => [TProp [c]]
  | AGroup _ r => let x := toks r [] in TGroup :: fst x ++ flush' (snd x) ++ [TEnd]
  end.

Definition scans (rest d : list Z) (es : list event) : Prop := exists f, scan_loop AllFeatures 0 f rest d = Ok es.

Lemma scans_nil d : scans [] d (flush d).
Proof. exists O. reflexivity. Qed.
Lemma scans_round rest d es d' rest' es' : rest <> [] -> scan_round AllFeatures 0 rest d = Ok (es, d', rest') ->
  scans rest' d' es' -> scans rest d (es ++ es').
Proof.
  intros Hr E [f H]. exists (S f). destruct rest as [|c rest]; [contradiction|]. cbn [scan_loop]. rewrite E. cbn [obind]. rewrite H. reflexivity.
Qed.
Lemma scan_loop_mono f : forall rest d es f', scan_loop AllFeatures 0 f rest d = Ok es -> (f <= f')%nat -> scan_loop AllFeatures 0 f' rest d = Ok es.
Proof.
  induction f as [|f IH]; intros rest d es f' H Hf.
  - destruct rest; cbn in H; [|discriminate]. destruct f'; exact H.
  - destruct f' as [|f']; [lia|]. destruct rest as [|c rest]; [exact H|]. cbn [scan_loop] in *.
    apply obind_ok in H. destruct H as ([[e d1] r1] & E & H). rewrite E. cbn [obind]. apply obind_ok in H. destruct H as (es' & E' & H).
    rewrite (IH _ _ _ f' E') by lia. exact H.
Qed.
Lemma scans_fun rest d es es' f : scans rest d es -> scan_loop AllFeatures 0 f rest d = Ok es' -> es' = es.
Proof.
  intros [g H] H'. pose proof (scan_loop_mono _ _ _ _ (f + g) H ltac:(lia)). pose proof (scan_loop_mono _ _ _ _ (f + g) H' ltac:(lia)). congruence.
Qed.

Definition head_ok (rest : list Z) : Prop := repeats (at_ rest 0) = false.
Lemma flush_map d : flush d = map Tok (flush' d).
Proof. destruct d; reflexivity. Qed.

Lemma at_0 c rest : at_ (c :: rest) 0 = c.
Proof. reflexivity. Qed.
Lemma at_1 c rest : at_ (c :: rest) 1 = at_ rest 0.
Proof. reflexivity. Qed.
Lemma at_2 c c' rest : at_ (c :: c' :: rest) 2 = at_ rest 0.
Proof. reflexivity. Qed.

(** ** Rounds *)
Definition plain (c : Z) : bool := negb (special c).
Lemma plain_ne c x : plain c = true -> In x [94; 36; 46; 63; 42; 43; 123; 92; 91; 124; 40; 41] -> c =? x = false.
Proof.
  unfold plain, special. rewrite negb_true_iff. intros H Hx. destruct (c =? x) eqn:E; [|reflexivity].
  rewrite <- H. symmetry. apply existsb_exists. exists x. auto.
Qed.
Lemma round_plain c rest d : plain c = true ->
  scan_round AllFeatures 0 (c :: rest) d = Ok (delay [] d c (at_ rest 0) rest).
Proof.
  intros H. unfold scan_round. rewrite at_0.
  rewrite !(plain_ne c) by (assumption || (cbn; tauto)).
  unfold simple_char. rewrite at_0, at_1. cbn [skipn].
  destruct ((c =? 32) || (c =? 9) || (c =? 10) || (c =? 13)); reflexivity.
Qed.
Lemma special_in c : special c = true -> In c [94; 36; 46; 63; 42; 43; 123; 92; 91; 124; 40; 41].
Proof. unfold special. intros H. apply existsb_exists in H. destruct H as (x & Hx & E). apply Z.eqb_eq in E. subst. exact Hx. Qed.
Lemma round_special c rest d : special c = true ->
  scan_round AllFeatures 0 (92 :: c :: rest) d = Ok (delay [] d c (at_ rest 0) rest).
Proof.
  intros H. apply special_in in H. cbn [In] in H.
  repeat (destruct H as [<-|H]; [reflexivity|]). contradiction.
Qed.
Lemma round_char c rest d : scan_round AllFeatures 0 (show_char c ++ rest) d = Ok (delay [] d c (at_ rest 0) rest).
Proof.
  unfold show_char. destruct (special c) eqn:E.
  - apply round_special, E.
  - apply round_plain. unfold plain. rewrite E. reflexivity.
Qed.
Lemma show_char_ne c rest : show_char c ++ rest <> [].
Proof. unfold show_char. destruct (special c); discriminate. Qed.

(** A round that flushes and hands on tokens *)
Lemma scans_emit rest d ts rest' es : rest <> [] -> scan_round AllFeatures 0 rest d = Ok (emit [] d (map Tok ts) rest') ->
  scans rest' [] es -> scans rest d (map Tok (flush' d ++ ts) ++ es).
Proof. intros Hn H Hs. rewrite map_app, <- flush_map. eapply scans_round; [exact Hn|exact H|exact Hs]. Qed.

Lemma scans_quant q rest d es : scans rest [] es -> q <> QOne ->
  scans (show_quant q ++ rest) d (map Tok (flush' d ++ rep_toks q) ++ es).
Proof.
  intros H Hq. destruct q; [contradiction|..]; (apply (scans_emit _ _ _ rest); [discriminate|reflexivity|exact H]).
Qed.
(** After an atom that has been handed on *)
Lemma scans_quant0 q rest es : scans rest [] es -> scans (show_quant q ++ rest) [] (map Tok (rep_toks q) ++ es).
Proof. intros H. destruct q; [exact H|exact (scans_quant QOpt rest [] es H ltac:(discriminate))|exact (scans_quant QStar rest [] es H ltac:(discriminate))|exact (scans_quant QPlus rest [] es H ltac:(discriminate))]. Qed.
Lemma quant_head q rest : head_ok rest -> q = QOne -> head_ok (show_quant q ++ rest).
Proof. intros H ->. exact H. Qed.

(** ** Classes *)
Lemma class_special_in c : class_special c = true -> In c [93; 92; 45; 94].
Proof. unfold class_special. intros H. apply existsb_exists in H. destruct H as (x & Hx & E). apply Z.eqb_eq in E. subst. exact Hx. Qed.
Lemma class_plain_ne c x : class_special c = false -> In x [93; 92; 45; 94] -> c =? x = false.
Proof.
  unfold class_special. intros H Hx. destruct (c =? x) eqn:E; [|reflexivity].
  rewrite <- H. symmetry. apply existsb_exists. exists x. auto.
Qed.
(** What follows a range: the next range or the bracket *)
Definition class_head (r : list Z) : Prop := exists c r', r = c :: r' /\ c <> 45.
Lemma class_char_head c r : class_head (show_class_char c ++ r).
Proof.
  unfold show_class_char. destruct (class_special c) eqn:E; [exists 92, (c :: r)|exists c, r]; (split; [reflexivity|]).
  - discriminate.
  - pose proof (class_plain_ne c 45 E ltac:(cbn; tauto)). lia.
Qed.
Lemma range_head x r : class_head (show_range x ++ r).
Proof. unfold show_range. destruct (fst x =? snd x); rewrite <- ?app_assoc; apply class_char_head. Qed.
Lemma ranges_head l r : class_head (flat_map show_range l ++ 93 :: r).
Proof. destruct l as [|x l]; cbn [flat_map]; [exists 93, r; split; [reflexivity|discriminate]|]. rewrite <- app_assoc. apply range_head. Qed.

(** Reading one character of a class *)
Lemma class_first f c r param : ok_char c ->
  class_loop (S f) (show_class_char c ++ r) param =
  let r' := c :: r in
  if (at_ r' 1 =? 45) && negb (at_ r' 2 =? 93) then
    let r := skipn 2 r' in
    let d := at_ r 0 in
    if d =? 0 then (None, r)
    else
      let r := if d =? 92 then skipn 1 r else r in
      let d := at_ r 0 in
      if d =? 0 then (None, r)
      else class_loop f (skipn 1 r) (param ++ [c; d])
  else class_loop f r (param ++ [c; c]).
Proof.
  intros Hc. unfold show_class_char. cbn zeta. destruct (class_special c) eqn:E.
  - cbn [app class_loop]. rewrite at_0. cbn [Z.eqb Pos.eqb skipn]. rewrite at_0.
    assert (c =? 0 = false) as -> by (destruct Hc; lia). reflexivity.
  - cbn [app class_loop]. rewrite at_0.
    assert (c =? 0 = false) as E0 by (destruct Hc; lia). rewrite E0.
    rewrite (class_plain_ne c 93 E), (class_plain_ne c 92 E) by (cbn; tauto). rewrite at_0, E0. reflexivity.
Qed.
Lemma class_range f x r param : ok_char (fst x) -> ok_char (snd x) -> class_head r ->
  class_loop (S f) (show_range x ++ r) param = class_loop f r (param ++ [fst x; snd x]).
Proof.
  intros H1 H2 (h & r' & Er & Hh). unfold show_range. destruct (fst x =? snd x) eqn:E.
  - rewrite class_first by assumption. subst r. cbn zeta. rewrite at_1, at_0. destruct (h =? 45) eqn:E'; [lia|].
    cbn [andb]. replace (snd x) with (fst x) by lia. reflexivity.
  - rewrite <- app_assoc. rewrite class_first by assumption. cbn zeta. cbn [app]. rewrite at_1, at_0. cbn [Z.eqb Pos.eqb andb].
    change (at_ (fst x :: 45 :: show_class_char (snd x) ++ r) 2) with (at_ (show_class_char (snd x) ++ r) 0).
    cbn [skipn]. unfold show_class_char. destruct (class_special (snd x)) eqn:E2.
    + cbn [app]. rewrite !at_0. cbn [Z.eqb Pos.eqb negb skipn]. rewrite at_0. assert (snd x =? 0 = false) as -> by (destruct H2; lia). reflexivity.
    + cbn [app]. rewrite !at_0. rewrite (class_plain_ne _ 93 E2), (class_plain_ne _ 92 E2) by (cbn; tauto).
      rewrite !at_0. assert (snd x =? 0 = false) as -> by (destruct H2; lia). reflexivity.
Qed.
Lemma class_ranges l : Forall (fun x => ok_char (fst x) /\ ok_char (snd x)) l -> forall f param r,
  (length l < f)%nat ->
  class_loop f (flat_map show_range l ++ 93 :: r) param = (Some (param ++ class_text l), 93 :: r).
Proof.
  induction 1 as [|x l [H1 H2] Hl IH]; intros f param r Hf; (destruct f as [|f]; [cbn in Hf; lia|]).
  - cbn [flat_map app class_loop]. rewrite at_0. cbn. rewrite app_nil_r. reflexivity.
  - cbn [flat_map]. rewrite <- app_assoc, class_range by (assumption || apply ranges_head).
    cbn [length] in Hf. rewrite IH by lia. rewrite <- app_assoc. reflexivity.
Qed.
Lemma show_range_len x : (1 <= length (show_range x))%nat.
Proof. unfold show_range, show_class_char. destruct (fst x =? snd x), (class_special (fst x)); cbn; lia. Qed.
Lemma ranges_len l : (length l <= length (flat_map show_range l))%nat.
Proof. induction l as [|x l IH]; [reflexivity|]. cbn [flat_map length]. rewrite app_length. pose proof (show_range_len x). lia. Qed.
(** The first character of the ranges is none of - ] ^ *)
Lemma ranges_first l r : l <> [] -> exists c r', flat_map show_range l ++ r = c :: r' /\ c <> 45 /\ c <> 93 /\ c <> 94.
Proof.
  intros H. destruct l as [|x l]; [contradiction|]. cbn [flat_map]. rewrite <- app_assoc. unfold show_range at 1.
  assert (G : forall r, exists c r', show_class_char (fst x) ++ r = c :: r' /\ c <> 45 /\ c <> 93 /\ c <> 94).
  { intros r'. unfold show_class_char. destruct (class_special (fst x)) eqn:E; cbn [app]; eexists _, _; (split; [reflexivity|]).
    - repeat split; discriminate.
    - pose proof (class_plain_ne _ 45 E ltac:(cbn; tauto)). pose proof (class_plain_ne _ 93 E ltac:(cbn; tauto)). pose proof (class_plain_ne _ 94 E ltac:(cbn; tauto)). lia. }
  destruct (fst x =? snd x); rewrite <- ?app_assoc; apply G.
Qed.
Lemma scan_class_show neg l rest d : l <> [] -> Forall (fun x => ok_char (fst x) /\ ok_char (snd x)) l ->
  scan_class [] (show_atom (AClass neg l) ++ rest) d = emit [] d (map Tok [TClass neg (class_text l)]) rest.
Proof.
  intros Hne Hl. cbn [show_atom app]. rewrite <- !app_assoc. cbn [app].
  destruct (ranges_first l (93 :: rest) Hne) as (c & r' & E & N1 & N2 & N3).
  unfold scan_class. rewrite at_1.
  assert (Hn : (at_ ((if neg then [94] else []) ++ flat_map show_range l ++ 93 :: rest) 0 =? 94) = neg).
  { destruct neg; [reflexivity|]. cbn [app]. rewrite E, at_0. lia. }
  rewrite Hn.
  replace (skipn (if neg then 2 else 1) (91 :: (if neg then [94] else []) ++ flat_map show_range l ++ 93 :: rest))
    with (flat_map show_range l ++ 93 :: rest) by (destruct neg; reflexivity).
  assert (E0 : (at_ (flat_map show_range l ++ 93 :: rest) 0 =? 45) || (at_ (flat_map show_range l ++ 93 :: rest) 0 =? 93) = false) by (rewrite E, at_0; lia).
  rewrite E0. cbn zeta. rewrite class_ranges; [reflexivity|assumption|].
  rewrite app_length. cbn [length]. pose proof (ranges_len l). lia.
Qed.

(** ** Everything *)
Scheme rx_ind' := Induction for rx Sort Prop
  with sq_ind' := Induction for sq Sort Prop
  with item_ind' := Induction for item Sort Prop
  with atom_ind' := Induction for atom Sort Prop.
Combined Scheme rx_mutind from rx_ind', sq_ind', item_ind', atom_ind'.

Lemma char_head c rest : ok_char c -> head_ok (show_char c ++ rest).
Proof.
  intros H. unfold head_ok, show_char. destruct (special c) eqn:E; [reflexivity|]. cbn [app]. rewrite at_0. unfold repeats.
  rewrite !(plain_ne c) by ((unfold plain; rewrite E; reflexivity) || (cbn; tauto)). reflexivity.
Qed.
Lemma atom_head a rest : wf_atom a -> head_ok (show_atom a ++ rest).
Proof. destruct a; intros H; try reflexivity. apply char_head, H. Qed.
Lemma sq_head s rest : wf_sq s -> head_ok rest -> head_ok (show_sq s ++ rest).
Proof.
  destruct s as [|i s]; intros H Hr; [exact Hr|]. cbn [show_sq]. rewrite <- app_assoc. destruct i; try reflexivity.
  cbn [show_item]. rewrite <- app_assoc. apply atom_head. apply H.
Qed.
Lemma rx_head r rest : wf r -> head_ok rest -> head_ok (show r ++ rest).
Proof.
  destruct r as [s|s r]; intros H Hr; [apply sq_head; assumption|]. cbn [show]. rewrite <- !app_assoc. apply sq_head; [apply H|reflexivity].
Qed.

Lemma delay_rep d c q rest : q <> QOne -> delay [] d c (at_ (show_quant q ++ rest) 0) (show_quant q ++ rest) = (flush d, [c], show_quant q ++ rest).
Proof. destruct q; [contradiction|reflexivity..]. Qed.
Lemma delay_head d c rest : head_ok rest -> delay [] d c (at_ rest 0) rest = ([], d ++ [c], rest).
Proof. unfold head_ok, delay. intros ->. reflexivity. Qed.

Lemma quant_dec q : {q = QOne} + {q <> QOne}.
Proof. destruct q; [left; reflexivity|right; discriminate..]. Qed.
Lemma map_tok_app a b : map Tok (a ++ b) = map Tok a ++ map Tok b.
Proof. apply map_app. Qed.
Lemma scan_group_plain rest d : head_ok rest -> scan_round AllFeatures 0 (40 :: rest) d = Ok (emit [] d (map Tok [TGroup]) rest).
Proof.
  intros H. unfold scan_round. rewrite at_0. cbn [Z.eqb Pos.eqb]. unfold scan_group. rewrite at_1.
  assert (E : at_ rest 0 =? 63 = false).
  { unfold head_ok, repeats in H. destruct (at_ rest 0 =? 63) eqn:E; [|reflexivity]. rewrite orb_true_r in H. discriminate. }
  rewrite E. cbn [negb]. rewrite orb_true_r. reflexivity.
Qed.
Lemma atom_round a d rest : wf_atom a -> match a with AChar _ | AGroup _ _ => False | _ => True end ->
  scan_round AllFeatures 0 (show_atom a ++ rest) d = Ok (emit [] d (map Tok (toks_atom a)) rest).
Proof.
  destruct a; intros H K; try contradiction.
  - reflexivity.
  - unfold scan_round. change (at_ (show_atom (AClass neg ranges) ++ rest) 0) with 91. cbn [Z.eqb Pos.eqb].
    change (supported AllFeatures 0 CharClasses) with (@nil event, true). cbv iota. rewrite scan_class_show by apply H. reflexivity.
  - destruct H as [-> | [-> | ->]]; reflexivity.
Qed.
Lemma atom_ne a rest : show_atom a ++ rest <> [].
Proof. destruct a; try discriminate. apply show_char_ne. Qed.

(** The tokens of a whole expression *)
Definition all_toks (r : rx) : list token := TStart :: fst (toks r []) ++ flush' (snd (toks r [])) ++ [TAccept].
Lemma no_err ts : existsb is_err (map Tok ts) = false.
Proof. induction ts as [|x ts IH]; [reflexivity|exact IH]. Qed.
