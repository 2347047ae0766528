(** Proofs about the failures that a parse records (PegFailModel). *)
From Coq Require Import Permutation.
From Verif Require Import Base UTF8Model UTF8Spec UTF8Proofs PegModel PegTotal PegFailModel PegFailSpec.

(** ** The calls of record_failure do not influence matching *)

Definition strip {A} (x : logged A) : res A := run r <- x; Done (fst r).

Lemma strip_bind {A B} (x : logged A) (k : A -> logged B) :
  strip (lbind x k) = rbind (strip x) (fun a => strip (k a)).
Proof.
  unfold strip, lbind. destruct x as [[a l]| |]; cbn [rbind fst snd]; [|reflexivity|reflexivity].
  destruct (k a) as [[b l']| |]; reflexivity.
Qed.
Lemma strip_lift {A} (x : res A) : strip (llift x) = x.
Proof. destruct x; reflexivity. Qed.
Lemma strip_ret {A} (a : A) : strip (lret a) = Done a.
Proof. reflexivity. Qed.
Lemma rbind_ext {A B} (x y : res A) (f g : A -> res B) :
  x = y -> (forall a, f a = g a) -> rbind x f = rbind y g.
Proof. intros -> H. destruct y; cbn [rbind]; [apply H|reflexivity|reflexivity]. Qed.
Lemma strip_done {A} (x : logged A) a l : x = Done (a, l) -> strip x = Done a.
Proof. intros ->. reflexivity. Qed.

Lemma switch_reads f L P pat ch p s cx r : match_switch f L P pat ch p s cx = Done r -> exists c, rdp pat p = Done c.
Proof.
  destruct f as [|f]; [discriminate|]. cbn [match_switch]. destruct (rdp pat p) as [c| |]; cbn [rbind]; [eauto|discriminate|discriminate].
Qed.

Section Strip.
Variables (L : lang) (P : policy).

Definition EA (f : nat) : Prop := forall pat ch st cx,
  strip (fmatch_atom f L P pat ch st cx) = match_atom f L P pat ch st cx.
Definition ESW (f : nat) : Prop := forall pat ch p s cx,
  strip (fmatch_switch f L P pat ch p s cx) = match_switch f L P pat ch p s cx.
Definition ESQ (f : nat) : Prop := forall pat ch st cx,
  strip (fmatch_sequence f L P pat ch st cx) = match_sequence f L P pat ch st cx.
Definition ESL (f : nat) : Prop := forall pat ch st cx,
  strip (fseq_loop f L P pat ch st cx) = seq_loop f L P pat ch st cx.
Definition ERL (f : nat) : Prop := forall pat ch once rp st cx,
  strip (frep_loop f L P pat ch once rp st cx) = rep_loop f L P pat ch once rp st cx.
Definition EAL (f : nat) : Prop := forall pat ch ini na sp s cx,
  strip (falt_loop f L P pat ch ini na sp s cx) = alt_loop f L P pat ch ini na sp s cx.
Definition EAA (f : nat) : Prop := forall pat ch st cx,
  strip (falt_atoms f L P pat ch st cx) = alt_atoms f L P pat ch st cx.

Ltac go := repeat (first
  [ rewrite strip_bind
  | rewrite strip_lift
  | reflexivity
  | match goal with H : forall _, _ |- _ => apply H end
  | apply rbind_ext; [|intros ?]
  | match goal with
    | |- strip (if ?b then _ else _) = _ => destruct b
    | |- strip (match ?x with _ => _ end) = _ => destruct x
    end
  | progress cbv beta iota zeta ]).

Lemma strip_all f : EA f /\ ESW f /\ ESQ f /\ ESL f /\ ERL f /\ EAL f /\ EAA f.
Proof.
  induction f as [|f (IA & ISW & ISQ & ISL & IRL & IAL & IAA)].
  { repeat split; intros; intro; intros; reflexivity. }
  unfold EA, ESW, ESQ, ESL, ERL, EAL, EAA in *.
  repeat split; intros.
  - cbn [fmatch_atom match_atom]. destruct st as [p s]. rewrite strip_bind, ISW.
    destruct (match_switch f L P pat ch p s cx) as [[[[m [q s1]] cx1] sp]| |] eqn:E; cbn [rbind]; [|reflexivity|reflexivity].
    cbv beta iota. destruct m.
    + rewrite strip_bind, strip_lift. apply rbind_ext; [reflexivity|]. intros [[nm|] y]; reflexivity.
    + destruct (switch_reads _ _ _ _ _ _ _ _ _ E) as [c Hc]. rewrite strip_bind, strip_lift, Hc. reflexivity.
  - cbn [fmatch_switch match_switch]. go.
  - cbn [fmatch_sequence match_sequence]. go.
  - cbn [fseq_loop seq_loop]. go.
  - cbn [frep_loop rep_loop]. go.
  - cbn [falt_loop alt_loop]. go.
  - cbn [falt_atoms alt_atoms]. go.
Qed.
End Strip.

(** ** What a call of record_failure says is true *)

Lemma steps_trans a b c : steps a b -> steps b c -> steps a c.
Proof. intros H1 H2. induction H2 as [|b x y z H2 IH E]; [exact H1|]. econstructor; [apply IH, H1|exact E]. Qed.
Lemma steps_get a c b : get_char a = Done (c, b) -> steps a b.
Proof. intros H. econstructor; [constructor|exact H]. Qed.
Lemma steps_len a b : steps a b -> (len b <= len a)%nat.
Proof. induction 1; [lia|]. apply get_len in H0. lia. Qed.

Lemma steps_class f pat p s b q s' : char_class f pat p s = Done (b, (q, s')) -> steps s s'.
Proof.
  unfold char_class. destruct (at_eof s).
  { intros H. assert (s = s') by congruence. subst. constructor. }
  intros H. inv H. destruct a0 as [c s1]. cbv beta iota in H. inv H. destruct a0 as [acc q1]. cbv beta iota in H. inv H.
  apply steps_get in E0. assert (s1 = s') by congruence. subst. exact E0.
Qed.
Lemma steps_literal pat p s b q s' : match_literal pat (p, s) = Done (b, (q, s')) -> steps s s'.
Proof.
  unfold match_literal. destruct (at_eof s).
  { intros H. assert (s = s') by congruence. subst. constructor. }
  intros H. inv H. destruct a0 as [c s1]. cbv beta iota in H. apply steps_get in E0.
  destruct (_ =? _); assert (s1 = s') by congruence; subst; exact E0.
Qed.

Section Sound.
Variables (rules : list rule) (P : policy) (top : nat) (start : src).

Record good (k : call) : Prop := {
  g_chain : exists ch, called rules top start ((k_rule k, k_origin k) :: ch) /\ k_path k = rev (k_rule k :: map fst ch);
  g_steps : steps (k_origin k) (k_loc k);
  g_rule : exists r c, nth_error rules (k_rule k) = Some r /\ rdp (r_pat r) (k_op k) = Done c /\
    (literal c -> refuses (r_pat r) (k_op k) (k_loc k) /\
      ((c = 91 /\ (k_op k < k_end k)%nat /\ (at_eof (k_loc k) = true -> k_end k = S (k_op k))) \/
       (c <> 91 /\ k_end k = if (0 <? c) && (c <? 32) then k_op k else S (k_op k))));
}.

Definition fits (pat : list Z) (ch : chain) (s : src) : Prop :=
  exists i o ch' r, ch = (i, o) :: ch' /\ called rules top start ch /\ nth_error rules i = Some r /\ pat = r_pat r /\ steps o s.

Lemma fits_steps pat ch s s' : fits pat ch s -> steps s s' -> fits pat ch s'.
Proof. intros (i & o & ch' & r & H1 & H2 & H3 & H4 & H5) H. exists i, o, ch', r. eauto 10 using steps_trans. Qed.

Definition GA (f : nat) : Prop := forall pat ch p s cx ok q s1 cx1 ks, fits pat ch s ->
  fmatch_atom f (Gram rules) P pat ch (p, s) cx = Done (ok, (q, s1), cx1, ks) -> steps s s1 /\ Forall good ks.
Definition GSW (f : nat) : Prop := forall pat ch p s cx ok q s1 cx1 sp ks, fits pat ch s ->
  fmatch_switch f (Gram rules) P pat ch p s cx = Done (ok, (q, s1), cx1, sp, ks) -> steps s s1 /\ Forall good ks.
Definition GSQ (f : nat) : Prop := forall pat ch p s cx ok q s1 cx1 ks, fits pat ch s ->
  fmatch_sequence f (Gram rules) P pat ch (p, s) cx = Done (ok, (q, s1), cx1, ks) -> steps s s1 /\ Forall good ks.
Definition GSL (f : nat) : Prop := forall pat ch p s cx ok q s1 cx1 ks, fits pat ch s ->
  fseq_loop f (Gram rules) P pat ch (p, s) cx = Done (ok, (q, s1), cx1, ks) -> steps s s1 /\ Forall good ks.
Definition GRL (f : nat) : Prop := forall pat ch once rp x s cx q s1 cx1 ks, fits pat ch s ->
  frep_loop f (Gram rules) P pat ch once rp (x, s) cx = Done (q, s1, cx1, ks) -> steps s s1 /\ Forall good ks.
Definition GAL (f : nat) : Prop := forall pat ch ini na sp s cx ok q s1 cx1 sp' ks, fits pat ch s ->
  falt_loop f (Gram rules) P pat ch ini na sp s cx = Done (ok, (q, s1), cx1, sp', ks) -> steps s s1 /\ Forall good ks.
Definition GAA (f : nat) : Prop := forall pat ch p s cx ok q s1 cx1 ks, fits pat ch s ->
  falt_atoms f (Gram rules) P pat ch (p, s) cx = Done (ok, (q, s1), cx1, ks) -> steps s s1 /\ Forall good ks.

Lemma lbind_done {A B} (x : logged A) (k : A -> logged B) b l : lbind x k = Done (b, l) ->
  exists a l1 l2, x = Done (a, l1) /\ k a = Done (b, l2) /\ l = l1 ++ l2.
Proof.
  unfold lbind. destruct x as [[a l1]| |]; cbn [rbind fst snd]; [|discriminate|discriminate].
  destruct (k a) as [[b' l2]| |] eqn:E; cbn [rbind fst snd]; [|discriminate|discriminate].
  intros H. exists a, l1, l2. assert (b' = b) by congruence. assert (l1 ++ l2 = l) by congruence. subst. auto.
Qed.
Lemma lift_done {A B} (x : res A) (k : A -> logged B) b l : lbind (llift x) k = Done (b, l) ->
  exists a, x = Done a /\ k a = Done (b, l).
Proof.
  intros H. apply lbind_done in H. destruct H as (a & l1 & l2 & H1 & H2 & ->). unfold llift in H1.
  destruct x as [a'| |]; cbn [rbind] in H1; [|discriminate|discriminate].
  assert (a' = a) by congruence. assert (l1 = []) by congruence. subst. exists a. auto.
Qed.

Lemma switch_lit f pat ch p s cx ok q s1 cx1 sp ks c :
  fmatch_switch f (Gram rules) P pat ch p s cx = Done (ok, (q, s1), cx1, sp, ks) ->
  rdp pat p = Done c -> literal c ->
  sp = p /\
  (ok = false -> refuses pat p s /\
      ((c = 91 /\ (p < q)%nat /\ (at_eof s = true -> q = S p)) \/
       (c <> 91 /\ q = if (0 <? c) && (c <? 32) then p else S p))).
Proof.
  intros H Hc Hl. destruct f as [|f]; [discriminate|]. cbn [fmatch_switch] in H.
  apply lift_done in H. destruct H as (c' & Hc' & H). assert (c' = c) by congruence. subst c'. clear Hc'.
  assert (N : forall x, In x peg_ops -> (c =? x) = false).
  { intros x Hx. destruct (Z.eqb_spec c x) as [->|]; [contradiction|reflexivity]. }
  rewrite ?(N 0), ?(N 41), ?(N 94), ?(N 36), ?(N 46), ?(N 92), ?(N 63), ?(N 42), ?(N 43), ?(N 40), ?(N 124), ?(N 38), ?(N 33), ?(N 60) in H by (cbn; tauto).
  assert (HE : extended c = (0 <? c) && (c <? 32)).
  { unfold extended. cbn [existsb]. rewrite !N by (cbn; tauto). reflexivity. }
  cbn [orb] in H. unfold lret in H.
  assert (SP : sp = p /\ (ok = false -> exists st, match_switch (S f) Plain null_policy pat [] p s ctx0 = Done (false, st, ctx0, p)) /\
     (ok = false -> (c = 91 /\ (p < q)%nat /\ (at_eof s = true -> q = S p)) \/
       (c <> 91 /\ q = if (0 <? c) && (c <? 32) then p else S p))).
  { cbn [match_switch]. rewrite Hc. cbn [rbind]. cbv zeta. rewrite ?(N 0), ?(N 41), ?(N 94), ?(N 36), ?(N 46), ?(N 92), ?(N 63), ?(N 42), ?(N 43), ?(N 40), ?(N 124), ?(N 38), ?(N 33), ?(N 60) by (cbn; tauto). cbn [orb].
    destruct (Z.eqb_spec c 91) as [E|E].
    - apply lift_done in H. destruct H as ([b [q0 s0]] & Hb & H). cbn [fst snd] in H.
      assert (p = sp) by congruence. assert (b = ok) by congruence. assert (q0 = q) by congruence. subst.
      rewrite Hb. cbn [rbind fst snd]. repeat split; [intros ->; eexists; reflexivity|].
      intros ->. left. split; [reflexivity|]. split.
      + apply char_class_adv in Hb. lia.
      + intros Ef. unfold char_class in Hb. rewrite Ef in Hb. congruence.
    - rewrite HE in H |- *. destruct ((0 <? c) && (c <? 32)) eqn:EC.
      + rewrite ?(N 60) in H by (cbn; tauto). cbn [negb] in H.
        apply lift_done in H. destruct H as ([b [q0 s0]] & Hb & H). cbn [fst snd] in H.
        assert (p = sp) by congruence. assert (b = ok) by congruence. assert (q0 = q) by congruence. subst.
        rewrite Hb. cbn [rbind fst snd]. repeat split; [intros ->; eexists; reflexivity|].
        intros ->. right. split; [exact E|]. unfold match_literal in Hb. destruct (at_eof s); [congruence|].
        inv Hb. destruct a0 as [x y]. cbv beta iota in Hb. destruct (_ =? _); congruence.
      + destruct (at_eof s).
        * assert (p = sp) by (unfold lret in H; congruence). assert (S p = q) by (unfold lret in H; congruence). subst. repeat split; [eexists; reflexivity|].
          intros _. right. auto.
        * apply lift_done in H. destruct H as ([b y] & Hb & H). cbn [fst snd] in H.
          assert (p = sp) by (unfold lret in H; congruence). assert (S p = q) by (unfold lret in H; congruence).
          assert ((u32 c =? b) = ok) by (unfold lret in H; congruence). subst sp q.
          rewrite Hb. cbn [rbind fst snd]. repeat split; [intros ->; rewrite H2; eexists; reflexivity|].
          intros _. right. auto. }
  destruct SP as (S1 & S2 & S3). split; [exact S1|]. intros ->. split; [|apply S3; reflexivity].
  destruct (S2 eq_refl) as [[q2 s2] E]. clear S2 S3. remember (S f) as f' eqn:Ef. exists (S f'), (p, s), (roll null_policy ctx0 (count ctx0)).
  cbn [match_atom]. rewrite E. reflexivity.
Qed.

Lemma switch_sp f pat ch p s cx ok q s1 cx1 sp ks c :
  fmatch_switch f (Gram rules) P pat ch p s cx = Done (ok, (q, s1), cx1, sp, ks) ->
  rdp pat p = Done c -> composite c = false -> p = sp.
Proof.
  intros H Hc Hn. destruct f as [|f]; [discriminate|]. cbn [fmatch_switch] in H.
  apply lift_done in H. destruct H as (c' & Hc' & H). assert (c' = c) by congruence. subst c'. clear Hc'.
  unfold composite in Hn. cbn [existsb] in Hn. rewrite !orb_false_iff in Hn.
  destruct Hn as (N1 & N2 & N3 & N4 & N5 & N6 & N7 & N8 & _). cbv beta zeta in H.
  rewrite N1, N2, N3, N4, N5, N6, N7, N8 in H. cbn [orb] in H. unfold lret in H.
  repeat match type of H with
  | Done _ = Done _ => congruence
  | Undef = _ => discriminate
  | lbind (llift _) _ = _ => apply lift_done in H; destruct H as (? & ? & H); cbv beta in H
  | lbind _ _ = _ => apply lbind_done in H; destruct H as (? & ? & ? & ? & H & ?); cbv beta in H
  | (if ?b then _ else _) = _ => destruct b
  | match ?x with _ => _ end = _ => destruct x
  end.
Qed.

Ltac lin H :=
  match type of H with
  | lbind (llift _) _ = Done (_, _) =>
    apply lift_done in H; let a := fresh "a" in let E := fresh "E" in destruct H as (a & E & H); cbv beta in H
  | lbind _ _ = Done (_, _) =>
    apply lbind_done in H; let a := fresh "a" in let l1 := fresh "l" in let l2 := fresh "l" in let E := fresh "E" in
    destruct H as (a & l1 & l2 & E & H & ->); cbv beta in H
  end.
Ltac fin H :=
  unfold lret in H; cbn [fst snd] in H;
  match type of H with
  | Done (_, (_, ?s), _, _, ?k) = Done (_, (_, ?s'), _, _, ?k') =>
    assert (s = s') by congruence; assert (k = k') by congruence; subst s' k'
  | Done (_, (_, ?s), _, ?k) = Done (_, (_, ?s'), _, ?k') =>
    assert (s = s') by congruence; assert (k = k') by congruence; subst s' k'
  | Done (_, ?s, _, ?k) = Done (_, ?s', _, ?k') =>
    assert (s = s') by congruence; assert (k = k') by congruence; subst s' k'
  end.

Lemma sound f : GA f /\ GSW f /\ GSQ f /\ GSL f /\ GRL f /\ GAL f /\ GAA f.
Proof.
  induction f as [|f (IA & ISW & ISQ & ISL & IRL & IAL & IAA)].
  { repeat split; intros; discriminate. }
  assert (X1 : GA (S f)).
  { intros pat ch p s cx ok q s1 cx1 ks HF H. cbn [fmatch_atom] in H. lin H.
    destruct a as [[[m [q0 s0]] c0] sp]. cbv beta iota in H.
    pose proof (ISW _ _ _ _ _ _ _ _ _ _ _ HF E) as [HS HG]. destruct m.
    - lin H. destruct a as [lb y]. cbn [fst snd] in H. destruct lb as [name|]; fin H; rewrite app_nil_r; auto.
    - lin H. fin H. split; [constructor|]. apply Forall_app. split; [exact HG|].
      unfold failed. destruct ch as [|[i o] ch']; [constructor|].
      destruct (composite a) eqn:EC; [constructor|]. constructor; [|constructor].
      destruct HF as (i' & o' & ch2 & r & H1 & H2 & H3 & H4 & H5). assert (i' = i) by congruence. assert (o' = o) by congruence.
      subst i' o'. subst pat. split; cbn [k_rule k_op k_end k_loc k_dis k_origin k_path].
      + exists ch'. split; [exact H2|]. reflexivity.
      + exact H5.
      + exists r. pose proof (switch_sp _ _ _ _ _ _ _ _ _ _ _ _ _ E E0 EC). subst sp. exists a. split; [exact H3|]. split; [exact E0|].
        intros Hl. destruct (switch_lit _ _ _ _ _ _ _ _ _ _ _ _ _ E E0 Hl) as [_ X]. apply X. reflexivity. }
  assert (X2 : GSW (S f)).
  { intros pat ch p s cx ok q s1 cx1 sp ks HF H. cbn [fmatch_switch] in H. lin H. rename E into HRD.
    destruct (Z.eqb_spec a 60) as [->|N60].
    { cbn [Z.eqb Pos.eqb orb] in H. change (extended 60) with true in H. cbn [negb] in H. lin H.
      destruct a as [[rn lb] ce]. cbv beta iota in H.
      destruct (lookup rules (skipn rn pat)) as [i|] eqn:EL; [|fin H; split; constructor].
      destruct (nth_error rules i) as [sr|] eqn:EN; [|discriminate]. cbv zeta in H. lin H.
      destruct a as [[fl s2] sc]. cbv beta iota in H.
      assert (W : steps s s2 /\ Forall good l).
      { destruct (left_recursive ch i s).
        - lin E0. fin E0. split; constructor.
        - lin E0. destruct a as [[ok0 [q0 s0]] c0]. cbv beta iota in E0. lin E0.
          assert (HF2 : fits (r_pat sr) ((i, s) :: ch) s).
          { destruct HF as (j & o & ch' & r & H1 & H2 & H3 & H4 & H5). exists i, s, ch, sr.
            repeat split; [|exact EN|constructor]. subst ch pat.
            unfold parse_call in E. inv E. assert (rn = S p) as -> by (destruct (a0 =? 58); [inv E; destruct (a2 =? 58)|]; congruence).
            apply called_rule with (r := r) (n := p); auto. }
          pose proof (ISQ _ _ _ _ _ _ _ _ _ _ HF2 E1) as [HS HG].
          destruct (ok0 && (a =? 0)); lin E0; fin E0; rewrite app_nil_r; split; auto; constructor. }
      destruct W as [W1 W2].
      destruct fl; [fin H; rewrite app_nil_r; auto|].
      destruct (match lb with Some (lp, nm) => _ | None => _ end) as [lk ln]. cbv beta iota in H.
      destruct ch as [|[cur o] ch']; [discriminate|].
      destruct (nth_error rules cur) as [cr|]; [|discriminate].
      fin H. rewrite app_nil_r. auto. }
    cbn [negb] in H.
    destruct (a =? 0); [fin H; split; constructor|].
    destruct (a =? 41); [fin H; split; constructor|].
    destruct (a =? 94); [fin H; split; constructor|].
    destruct (a =? 36). { destruct (at_eof s); [|lin H]; fin H; split; constructor. }
    destruct (a =? 46). { destruct (at_eof s); [fin H; split; constructor|lin H; destruct a0; fin H; split; [eapply steps_get; eassumption|constructor]]. }
    destruct (a =? 92). { destruct (at_eof s); [fin H; split; constructor|]. lin H. lin H. destruct a0 as [x y], a1 as [z w]. fin H. split; [eapply steps_get; eassumption|constructor]. }
    destruct (a =? 91). { lin H. destruct a0 as [b [q0 s0]]. fin H. split; [eapply steps_class; eassumption|constructor]. }
    destruct ((a =? 63) || (a =? 42) || (a =? 43)).
    { cbv zeta in H. lin H. destruct a0 as [[ok0 [q0 s0]] c0]. cbv beta iota in H. lin H. destruct a0 as [[m [q2 s2]] c2].
      cbv beta iota in H. fin H.
      assert (W : steps s s0 /\ Forall good l).
      { destruct (a =? 43); [eapply IA; eassumption|]. fin E. split; constructor. }
      destruct W as [W1 W2]. rewrite app_nil_r.
      assert (W3 : steps s0 s2 /\ Forall good l1).
      { destruct ok0; [|fin E0; split; constructor]. lin E0. destruct a0 as [[q4 s4] c4]. cbn [fst snd] in E0. fin E0.
        rewrite app_nil_r. eapply IRL; [|eassumption]. eapply fits_steps; eassumption. }
      destruct W3. split; [eapply steps_trans; eassumption|]. apply Forall_app. auto. }
    destruct (a =? 40).
    { lin H. destruct a0 as [[ok0 [q0 s0]] c0]. cbv beta iota in H. pose proof (ISQ _ _ _ _ _ _ _ _ _ _ HF E) as [W1 W2].
      destruct ok0; [lin H|]; fin H; rewrite app_nil_r; auto. }
    destruct (a =? 124). { eapply IAL; eassumption. }
    destruct ((a =? 38) || (a =? 33)).
    { lin H. destruct a0 as [[m [q0 s0]] c0]. cbv beta iota zeta in H. pose proof (IA _ _ _ _ _ _ _ _ _ _ HF E) as [W1 W2].
      destruct (if a =? 33 then negb m else m); [lin H|]; fin H; rewrite app_nil_r; split; auto; constructor. }
    destruct (extended a).
    - lin H. destruct a0 as [b [q0 s0]]. fin H. split; [eapply steps_literal; eassumption|constructor].
    - destruct (at_eof s); [fin H; split; constructor|]. lin H. destruct a0 as [x y]. fin H. split; [eapply steps_get; eassumption|constructor]. }
  assert (X3 : GSQ (S f)).
  { intros pat ch p s cx ok q s1 cx1 ks HF H. cbn [fmatch_sequence] in H. lin H.
    destruct a as [[ok0 [q0 s0]] c0]. cbv beta iota in H. fin H. rewrite app_nil_r. eapply ISL; eassumption. }
  assert (X4 : GSL (S f)).
  { intros pat ch p s cx ok q s1 cx1 ks HF H. cbn [fseq_loop] in H. lin H.
    destruct a; [fin H; split; constructor|]. lin H. destruct a as [[ok0 [q0 s0]] c0]. cbv beta iota in H.
    pose proof (IA _ _ _ _ _ _ _ _ _ _ HF E0) as [W1 W2].
    destruct ok0; [|fin H; rewrite app_nil_r; auto].
    eapply ISL in H; [|eapply fits_steps; eassumption]. destruct H. split; [eapply steps_trans; eassumption|]. apply Forall_app. auto. }
  assert (X5 : GRL (S f)).
  { intros pat ch once rp x s cx q s1 cx1 ks HF H. cbn [frep_loop snd] in H. lin H.
    destruct a as [[ok0 [q0 s0]] c0]. cbv beta iota in H. pose proof (IA _ _ _ _ _ _ _ _ _ _ HF E) as [W1 W2]. cbn [fst snd] in H.
    destruct ok0.
    - destruct (same s0 s); [fin H; rewrite app_nil_r; auto|]. destruct once; [fin H; rewrite app_nil_r; auto|].
      eapply IRL in H; [|eapply fits_steps; eassumption]. destruct H. split; [eapply steps_trans; eassumption|]. apply Forall_app. auto.
    - lin H. fin H. rewrite app_nil_r. auto. }
  assert (X6 : GAL (S f)).
  { intros pat ch ini na sp s cx ok q s1 cx1 sp' ks HF H. cbn [falt_loop] in H. lin H.
    destruct (a =? 124); [|fin H; split; constructor].
    lin H. destruct a0 as [[ok0 [q0 s0]] c0]. cbv beta iota in H. pose proof (IAA _ _ _ _ _ _ _ _ _ _ HF E0) as [W1 W2]. destruct ok0.
    - lin H. fin H. rewrite app_nil_r. auto.
    - lin H. eapply IAL in H; [|exact HF]. destruct H. split; [assumption|]. apply Forall_app. auto. }
  assert (X7 : GAA (S f)).
  { intros pat ch p s cx ok q s1 cx1 ks HF H. cbn [falt_atoms] in H. lin H.
    destruct a as [[ok0 [q0 s0]] c0]. cbv beta iota in H. pose proof (IA _ _ _ _ _ _ _ _ _ _ HF E) as [W1 W2]. destruct ok0.
    - lin H. destruct (_ || _); [fin H; rewrite app_nil_r; auto|].
      eapply IAA in H; [|eapply fits_steps; eassumption]. destruct H. split; [eapply steps_trans; eassumption|]. apply Forall_app. auto.
    - fin H. rewrite app_nil_r. auto. }
  auto 10.
Qed.

End Sound.

(** ** A failed match is reported as one *)

Section Fails.
Variables (L : lang) (P : policy).

Lemma atom_at_end f pat ch p s cx r : rdp pat p = Done 0 -> match_atom f L P pat ch (p, s) cx = Done r -> r = (true, (p, s), cx).
Proof.
  intros E H. destruct f as [|f]; [discriminate|]. cbn [match_atom] in H. inv H.
  destruct f as [|f]; [discriminate|]. cbn [match_switch] in E0. rewrite E in E0. cbn [rbind Z.eqb] in E0.
  assert (a = (true, (p, s), cx, p)) by congruence. subst a. cbv beta iota in H.
  unfold label_at in H. rewrite E in H. cbn [rbind Z.eqb fst] in H. congruence.
Qed.

Lemma alt_atoms_fail f pat ch p s cx st cx1 :
  alt_atoms f L P pat ch (p, s) cx = Done (false, st, cx1) -> rdp pat p <> Done 0.
Proof.
  intros H E. destruct f as [|f]; [discriminate|]. cbn [alt_atoms] in H. inv H.
  apply atom_at_end in E0; [|exact E]. subst a. cbv beta iota in H. cbn [fst] in H. rewrite E in H. cbn in H. discriminate.
Qed.

Lemma alt_loop_fail f : forall pat ch ini na sp s cx st cx1 sp', rdp pat sp <> Done 0 ->
  alt_loop f L P pat ch ini na sp s cx = Done (false, st, cx1, sp') -> rdp pat sp' <> Done 0.
Proof.
  induction f as [|f IH]; intros pat ch ini na sp s cx st cx1 sp' N H; [discriminate|]. cbn [alt_loop] in H. inv H.
  destruct (a =? 124).
  - inv H. destruct a0 as [[ok [q s1]] c1]. cbv beta iota in H. destruct ok; inv H; [discriminate|].
    eapply IH; [|exact H]. eapply alt_atoms_fail; eassumption.
  - assert (sp = sp') by congruence. subst. exact N.
Qed.

Lemma atom_fail f pat ch p s cx q s1 cx1 :
  match_atom f L P pat ch (p, s) cx = Done (false, (q, s1), cx1) -> rdp pat q <> Done 0.
Proof.
  intros H. destruct (rdp pat p) as [c| |] eqn:E.
  2, 3: destruct f as [|[|f]]; [discriminate|discriminate|]; cbn [match_atom match_switch] in H; rewrite E in H; discriminate.
  destruct (Z.eq_dec c 0) as [->|N].
  { apply atom_at_end in H; [|exact E]. discriminate. }
  destruct f as [|f]; [discriminate|]. cbn [match_atom] in H. inv H. destruct a as [[[m [q0 s0]] c0] sp]. cbv beta iota in H.
  destruct m; [inv H; destruct a as [[]]; discriminate|]. assert (sp = q) by congruence. subst sp. clear H.
  destruct (Z.eq_dec c 124) as [->|N1].
  { destruct f as [|f]; [discriminate|]. cbn [match_switch] in E0. rewrite E in E0. cbn [rbind Z.eqb Pos.eqb orb] in E0.
    apply alt_loop_fail in E0; [exact E0|]. rewrite E. congruence. }
  assert (q = p) as ->; [|rewrite E; congruence].
  destruct f as [|f]; [discriminate|]. cbn [match_switch] in E0. rewrite E in E0. cbn [rbind] in E0. cbv zeta in E0.
  destruct (Z.eqb_spec c 124) as [|_]; [contradiction|].
  repeat match type of E0 with
  | Done _ = Done _ => congruence
  | Undef = _ => discriminate
  | rbind _ _ = Done _ => apply rbind_done in E0; destruct E0 as (? & ? & E0); cbv beta in E0
  | (if ?b then _ else _) = _ => destruct b
  | match ?x with _ => _ end = _ => destruct x
  end.
Qed.

Lemma seq_fail f pat ch p s cx q s1 cx1 :
  match_sequence f L P pat ch (p, s) cx = Done (false, (q, s1), cx1) -> rdp pat q <> Done 0.
Proof.
  destruct f as [|f]; [discriminate|]. cbn [match_sequence]. intros H. inv H. destruct a as [[ok st0] c0]. cbv beta iota in H.
  destruct ok; [discriminate|]. assert (st0 = (q, s1)) by congruence. subst st0. clear H. revert p s cx E.
  induction f as [|f IH]; intros p s cx E; [discriminate|]. cbn [seq_loop fst] in E. inv E. destruct a; [discriminate|].
  inv E. destruct a as [[ok [q2 s2]] c2]. cbv beta iota in E. destruct ok; [eapply IH, E|].
  assert (q2 = q) by congruence. assert (s2 = s1) by congruence. subst. eapply atom_fail, E1.
Qed.
End Fails.

(** ** Recording *)

Lemma get_strict t c s s' : bytes t -> (exists n, s_rest s = skipn n t) -> get_char s = Done (c, s') -> at_eof s = false ->
  (len s' < len s)%nat.
Proof.
  intros HB [n Hn] H E. unfold get_char in H. rewrite E in H. inv H. destruct a as [ch k].
  destruct (UTF8Get (s_rest s ++ [0])) as [[ch' k']| |] eqn:EG; cbn in E0; try discriminate.
  assert (k' = k) by congruence. subst k'. apply get_advance in EG.
  - assert (s' = mksrc (skipn k (s_rest s)) (s_bytes s + Z.of_nat k) (if ch =? 10 then s_line s + 1 else s_line s) (if ch =? 10 then 1 else s_col s + 1)) by congruence.
    subst s'. unfold len. cbn [s_rest]. rewrite skipn_length. unfold at_eof in E. destruct (s_rest s); [discriminate|]. cbn [length]. lia.
  - apply Forall_app. split; [|repeat constructor; lia]. rewrite Hn. unfold bytes in *. rewrite Forall_forall in *. intros x Hx. apply HB.
    rewrite <- (firstn_skipn n t). apply in_or_app. right. exact Hx.
Qed.

Lemma steps_rest t s : steps (src_start t) s -> exists n, s_rest s = skipn n t.
Proof.
  intros H. remember (src_start t) as s0 eqn:E0. revert t E0. induction H as [a|a b c d H IH E]; intros t ->.
  - exists O. reflexivity.
  - destruct (IH t eq_refl) as [n Hn]. unfold get_char in E. destruct (at_eof b).
    { assert (b = d) by congruence. subst. eauto. }
    inv E. destruct a as [ch k]. assert (d = mksrc (skipn k (s_rest b)) (s_bytes b + Z.of_nat k) (if ch =? 10 then s_line b + 1 else s_line b) (if ch =? 10 then 1 else s_col b + 1)) by congruence.
    subst d. cbn [s_rest]. exists (n + k)%nat. rewrite Hn. clear. revert t. induction n as [|n IH]; intros t; [reflexivity|].
    destruct t; cbn [skipn Nat.add]; [apply skipn_nil|apply IH].
Qed.

(** Two places reached from the start that are equally far are the same. *)
Definition nx (s : src) : src := match get_char s with Done (_, s') => s' | _ => s end.
Lemma steps_iter a b : steps a b -> exists n, b = Nat.iter n nx a.
Proof.
  induction 1 as [a|a b c d H [n IH] E]; [exists O; reflexivity|]. exists (S n). change (Nat.iter (S n) nx a) with (nx (Nat.iter n nx a)). rewrite <- IH. unfold nx. rewrite E. reflexivity.
Qed.
Lemma nx_len s : (len (nx s) <= len s)%nat.
Proof. unfold nx. destruct (get_char s) as [[c s']| |] eqn:E; [apply get_len in E; exact E|lia|lia]. Qed.
Lemma nx_same t s : bytes t -> (exists n, s_rest s = skipn n t) -> len (nx s) = len s -> nx s = s.
Proof.
  intros HB HR. unfold nx. destruct (get_char s) as [[c s']| |] eqn:E; intros HL; [|reflexivity|reflexivity].
  destruct (at_eof s) eqn:EE.
  - unfold get_char in E. rewrite EE in E. congruence.
  - pose proof (get_strict _ _ _ _ HB HR E EE). lia.
Qed.
Lemma iter_same t s k : bytes t -> (exists n, s_rest s = skipn n t) -> len (Nat.iter k nx s) = len s -> Nat.iter k nx s = s.
Proof.
  intros HB HR. induction k as [|k IH]; [reflexivity|]. intros H.
  assert (M : (len (Nat.iter k nx s) <= len s)%nat).
  { clear. induction k as [|k IH]; [reflexivity|]. change (Nat.iter (S k) nx s) with (nx (Nat.iter k nx s)). pose proof (nx_len (Nat.iter k nx s)). lia. }
  change (Nat.iter (S k) nx s) with (nx (Nat.iter k nx s)) in *.
  pose proof (nx_len (Nat.iter k nx s)).
  pose proof (IH ltac:(lia)) as E. rewrite E in H |- *. apply (nx_same t); auto.
Qed.
Lemma iter_add {A} (f : A -> A) n m x : Nat.iter (n + m) f x = Nat.iter n f (Nat.iter m f x).
Proof. induction n; cbn; [reflexivity|]. f_equal. exact IHn. Qed.
Lemma steps_equal t a b : bytes t -> steps (src_start t) a -> steps (src_start t) b -> len a = len b -> a = b.
Proof.
  intros HB HA HC HL. pose proof (steps_rest _ _ HA) as RA. pose proof (steps_rest _ _ HC) as RB.
  apply steps_iter in HA, HC. destruct HA as [n Hn], HC as [m Hm].
  destruct (Nat.le_ge_cases n m) as [H|H].
  - replace m with ((m - n) + n)%nat in Hm by lia. rewrite iter_add, <- Hn in Hm. symmetry. rewrite Hm. apply (iter_same t); auto. congruence.
  - replace n with ((n - m) + m)%nat in Hn by lia. rewrite iter_add, <- Hm in Hn. rewrite Hn. apply (iter_same t); auto. congruence.
Qed.

Section Record.
Variables (rules : list rule) (top : nat) (t : list Z).
Hypothesis HT : bytes t.

Definition of_call (k : call) : failure :=
  mkfailure (k_rule k) (k_op k) (Z.of_nat (k_end k) - Z.of_nat (k_op k)) (k_path k).
Record recorded (ks : list call) (h : reach) : Prop := {
  d_reached : steps (src_start t) (h_far h);
  d_furthest : forall k, In k ks -> counts rules k -> (len (h_far h) <= len (k_loc k))%nat;
  d_none : h_fails h = [] -> h_far h = src_start t;
  d_all : forall k, In k ks -> counts rules k -> k_loc k = h_far h -> In (k_rule k, k_op k) (map atom_of (h_fails h));
  d_only : forall x, In x (h_fails h) -> exists k, In k ks /\ counts rules k /\ k_loc k = h_far h /\ x = of_call k;
  d_once : NoDup (map atom_of (h_fails h));
}.

Lemma called_steps o j ch : called rules top (src_start t) ((j, o) :: ch) -> steps (src_start t) o.
Proof.
  intros H. remember ((j, o) :: ch) as c eqn:E. revert j o ch E. induction H as [|j' o' ch' r n i s H IH H1 H2 H3 H4]; intros j o ch E.
  - assert (o = src_start t) by congruence. subst. constructor.
  - assert (s = o) by congruence. subst. eapply steps_trans; [eapply IH; reflexivity|exact H4].
Qed.

Lemma record_one k ks h : good rules top (src_start t) k -> Forall (good rules top (src_start t)) ks -> recorded ks h ->
  exists h', record_failure rules k h = Done h' /\ recorded (ks ++ [k]) h'.
Proof.
  intros [(ch & HC & HP) HS (r & c & HR & HD & HL)] HK [D1 D2 D3 D4 D5 D6].
  assert (KS : steps (src_start t) (k_loc k)) by (eapply steps_trans; [eapply called_steps, HC|exact HS]).
  assert (SKIP : ~ counts rules k -> recorded (ks ++ [k]) h).
  { intros N. split; auto.
    - intros x Hx. apply in_app_or in Hx. destruct Hx as [Hx|[<-|[]]]; [auto|contradiction].
    - intros x Hx. apply in_app_or in Hx. destruct Hx as [Hx|[<-|[]]]; [auto|contradiction].
    - intros x Hx. destruct (D5 x Hx) as (y & Y1 & Y2). exists y. split; [apply in_or_app; auto|exact Y2]. }
  unfold record_failure.
  assert (B1 : before (k_loc k) (k_origin k) = false).
  { unfold before. apply Nat.ltb_ge. exact (steps_len _ _ HS). }
  rewrite B1. destruct (Nat.eqb_spec (k_dis k) 0) as [E0|E0]; cbn [negb].
  2: { exists h. split; [reflexivity|]. apply SKIP. intros [X _]. contradiction. }
  rewrite HR, HD. cbn [rbind].
  destruct (existsb (Z.eqb c) peg_ops) eqn:EP.
  { exists h. split; [reflexivity|]. apply SKIP. intros [_ (r' & c' & X1 & X2 & X3)]. apply X3.
    assert (r' = r) by congruence. subst r'. assert (c' = c) by congruence. subst c'.
    apply existsb_exists in EP. destruct EP as (y & Y1 & Y2). apply Z.eqb_eq in Y2. subst. exact Y1. }
  assert (LC : literal c).
  { intros X. assert (existsb (Z.eqb c) peg_ops = true); [|congruence]. apply existsb_exists. exists c. split; [exact X|apply Z.eqb_refl]. }
  assert (CK : counts rules k) by (split; [exact E0|eauto 6]).
  unfold before. fold (len (k_loc k)) (len (h_far h)).
  destruct (Nat.ltb_spec (len (h_far h)) (len (k_loc k))) as [B2|B2].
  { exists h. split; [reflexivity|]. split; auto.
    - intros x Hx Cx. apply in_app_or in Hx. destruct Hx as [Hx|[<-|[]]]; [auto|lia].
    - intros x Hx Cx Lx. apply in_app_or in Hx. destruct Hx as [Hx|[<-|[]]]; [auto|]. rewrite Lx in B2. lia.
    - intros x Hx. destruct (D5 x Hx) as (y & Y1 & Y2). exists y. split; [apply in_or_app; auto|exact Y2]. }
  destruct (Nat.ltb_spec (len (k_loc k)) (len (h_far h))) as [B3|B3].
  { cbn [existsb]. eexists. split; [reflexivity|]. cbn [app]. split; cbn [h_far h_fails map]; auto.
    - intros x Hx Cx. apply in_app_or in Hx. destruct Hx as [Hx|[<-|[]]]; [|lia]. specialize (D2 x Hx Cx). lia.
    - discriminate.
    - intros x Hx Cx Lx. apply in_app_or in Hx. destruct Hx as [Hx|[<-|[]]]; [|left; reflexivity].
      specialize (D2 x Hx Cx). rewrite Lx in D2. lia.
    - intros x [<-|[]]. exists k. split; [apply in_or_app; right; left; reflexivity|]. auto.
    - repeat constructor. intros []. }
  assert (EL : h_far h = k_loc k) by (apply (steps_equal t); auto; lia).
  destruct (existsb _ (h_fails h)) eqn:EX.
  { exists (mkreach (h_far h) (h_fails h)). split; [reflexivity|].
    apply existsb_exists in EX. destruct EX as (x & X1 & X2). apply andb_prop in X2. destruct X2 as [X2 X3].
    apply Nat.eqb_eq in X2, X3. split; cbn [h_far h_fails]; auto.
    - intros y Hy Cy. apply in_app_or in Hy. destruct Hy as [Hy|[<-|[]]]; [auto|lia].
    - intros y Hy Cy Ly. apply in_app_or in Hy. destruct Hy as [Hy|[<-|[]]]; [auto|]. rewrite <- X2, <- X3.
      change (a_rule x, a_op x) with (atom_of x). apply in_map, X1.
    - intros y Hy. destruct (D5 y Hy) as (z & Z1 & Z2). exists z. split; [apply in_or_app; auto|exact Z2]. }
  eexists. split; [reflexivity|]. split; cbn [h_far h_fails]; auto.
  - intros y Hy Cy. apply in_app_or in Hy. rewrite <- EL. destruct Hy as [Hy|[<-|[]]]; [auto|lia].
  - intros X. destruct (h_fails h); discriminate.
  - intros y Hy Cy Ly. rewrite map_app. apply in_or_app. apply in_app_or in Hy. destruct Hy as [Hy|[<-|[]]].
    + left. apply D4; auto. congruence.
    + right. left. reflexivity.
  - intros y Hy. apply in_app_or in Hy. rewrite <- EL. destruct Hy as [Hy|[<-|[]]].
    + destruct (D5 y Hy) as (z & Z1 & Z2). exists z. split; [apply in_or_app; auto|exact Z2].
    + exists k. split; [apply in_or_app; right; left; reflexivity|]. auto.
  - rewrite map_app. cbn [map]. apply (Permutation_NoDup (l := (k_rule k, k_op k) :: map atom_of (h_fails h))).
    + apply (Permutation_app_comm [_]).
    + constructor; [|exact D6]. intros X. apply in_map_iff in X. destruct X as (x & X1 & X2).
      assert (existsb (fun x => (a_rule x =? k_rule k)%nat && (a_op x =? k_op k)%nat) (h_fails h) = true); [|congruence].
      apply existsb_exists. exists x. split; [exact X2|]. unfold atom_of in X1.
      assert (a_rule x = k_rule k) by congruence. assert (a_op x = k_op k) by congruence. rewrite H, H0, !Nat.eqb_refl. reflexivity.
Qed.

Lemma record_ok ks : forall ks0 h, Forall (good rules top (src_start t)) ks0 -> Forall (good rules top (src_start t)) ks -> recorded ks0 h ->
  exists h', record_all rules ks h = Done h' /\ recorded (ks0 ++ ks) h'.
Proof.
  induction ks as [|k ks IH]; intros ks0 h G0 G R.
  - exists h. rewrite app_nil_r. auto.
  - inversion_clear G. destruct (record_one k ks0 h H G0 R) as (h1 & H1 & R1). cbn [record_all]. rewrite H1. cbn [rbind].
    destruct (IH (ks0 ++ [k]) h1) as (h2 & H2 & R2); [apply Forall_app; auto|exact H0|exact R1|].
    exists h2. rewrite <- app_assoc in R2. auto.
Qed.

Lemma record_start ks : Forall (good rules top (src_start t)) ks ->
  exists h, record_all rules ks (mkreach (src_start t) []) = Done h /\ recorded ks h.
Proof.
  intros G. apply (record_ok ks [] _ (Forall_nil _) G). split; cbn; try tauto; try constructor.
Qed.
End Record.

(** ** Lookaheads *)

Section Ahead.
Variables (rules : list rule) (P : policy).

Definition deep (cx : ctx) (k : call) : Prop := (c_dis cx <= k_dis k)%nat.

Definition HA (f : nat) : Prop := forall pat ch st cx ok st1 cx1 ks,
  fmatch_atom f (Gram rules) P pat ch st cx = Done (ok, st1, cx1, ks) -> c_dis cx1 = c_dis cx /\ Forall (deep cx) ks.
Definition HSW (f : nat) : Prop := forall pat ch p s cx ok st1 cx1 sp ks,
  fmatch_switch f (Gram rules) P pat ch p s cx = Done (ok, st1, cx1, sp, ks) -> c_dis cx1 = c_dis cx /\ Forall (deep cx) ks.
Definition HSQ (f : nat) : Prop := forall pat ch st cx ok st1 cx1 ks,
  fmatch_sequence f (Gram rules) P pat ch st cx = Done (ok, st1, cx1, ks) -> c_dis cx1 = c_dis cx /\ Forall (deep cx) ks.
Definition HSL (f : nat) : Prop := forall pat ch st cx ok st1 cx1 ks,
  fseq_loop f (Gram rules) P pat ch st cx = Done (ok, st1, cx1, ks) -> c_dis cx1 = c_dis cx /\ Forall (deep cx) ks.
Definition HRL (f : nat) : Prop := forall pat ch once rp st cx st1 cx1 ks,
  frep_loop f (Gram rules) P pat ch once rp st cx = Done (st1, cx1, ks) -> c_dis cx1 = c_dis cx /\ Forall (deep cx) ks.
Definition HAL (f : nat) : Prop := forall pat ch ini na sp s cx ok st1 cx1 sp' ks,
  falt_loop f (Gram rules) P pat ch ini na sp s cx = Done (ok, st1, cx1, sp', ks) -> c_dis cx1 = c_dis cx /\ Forall (deep cx) ks.
Definition HAA (f : nat) : Prop := forall pat ch st cx ok st1 cx1 ks,
  falt_atoms f (Gram rules) P pat ch st cx = Done (ok, st1, cx1, ks) -> c_dis cx1 = c_dis cx /\ Forall (deep cx) ks.

Lemma roll_dis cx n : c_dis (roll P cx n) = c_dis cx.
Proof. unfold roll. destruct (pol_roll P (c_caps cx) n). reflexivity. Qed.
Lemma capture_dis cx nm v : c_dis (capture P cx nm v) = c_dis cx.
Proof. unfold capture. destruct (pol_keep P v); reflexivity. Qed.
Lemma deep_eq cx cx' ks : c_dis cx' = c_dis cx -> Forall (deep cx') ks -> Forall (deep cx) ks.
Proof. intros E. unfold deep. rewrite E. auto. Qed.

Ltac lin H :=
  match type of H with
  | lbind (llift _) _ = Done (_, _) =>
    apply lift_done in H; let a := fresh "a" in let E := fresh "E" in destruct H as (a & E & H); cbv beta in H
  | lbind _ _ = Done (_, _) =>
    apply lbind_done in H; let a := fresh "a" in let l1 := fresh "l" in let l2 := fresh "l" in let E := fresh "E" in
    destruct H as (a & l1 & l2 & E & H & ->); cbv beta in H
  end.
Ltac fin H :=
  unfold lret in H; cbn [fst snd] in H;
  match type of H with
  | Done (_, _, ?s, _, ?k) = Done (_, _, ?s', _, ?k') =>
    assert (s = s') by congruence; assert (k = k') by congruence; subst s' k'
  | Done (_, _, ?s, ?k) = Done (_, _, ?s', ?k') =>
    assert (s = s') by congruence; assert (k = k') by congruence; subst s' k'
  | Done (_, ?s, ?k) = Done (_, ?s', ?k') =>
    assert (s = s') by congruence; assert (k = k') by congruence; subst s' k'
  end.
Ltac triv := split; [reflexivity|constructor].

Lemma depth f : HA f /\ HSW f /\ HSQ f /\ HSL f /\ HRL f /\ HAL f /\ HAA f.
Proof.
  induction f as [|f (IA & ISW & ISQ & ISL & IRL & IAL & IAA)].
  { repeat split; intros; discriminate. }
  assert (X1 : HA (S f)).
  { intros pat ch [p s] cx ok st1 cx1 ks H. cbn [fmatch_atom] in H. lin H.
    destruct a as [[[m [q0 s0]] c0] sp]. cbv beta iota in H. apply ISW in E. destruct E as [E1 E2]. destruct m.
    - lin H. destruct a as [lb y]. cbn [fst snd] in H. destruct lb as [name|]; fin H; rewrite app_nil_r; split; auto.
      destruct (c_dis c0 =? 0)%nat; [rewrite capture_dis|]; exact E1.
    - lin H. fin H. rewrite roll_dis. split; [exact E1|]. apply Forall_app. split; [exact E2|].
      unfold failed. destruct ch as [|[i o] ch']; [constructor|]. destruct (composite a); [constructor|].
      constructor; [|constructor]. unfold deep. cbn [k_dis]. rewrite roll_dis. lia. }
  assert (X2 : HSW (S f)).
  { intros pat ch p s cx ok st1 cx1 sp ks H. cbn [fmatch_switch] in H. lin H.
    destruct (a =? 0); [fin H; triv|].
    destruct (a =? 41); [fin H; triv|].
    destruct (a =? 94); [fin H; triv|].
    destruct (a =? 36). { destruct (at_eof s); [|lin H]; fin H; triv. }
    destruct (a =? 46). { destruct (at_eof s); [|lin H]; fin H; triv. }
    destruct (a =? 92). { destruct (at_eof s); [|lin H; lin H]; fin H; triv. }
    destruct (a =? 91). { lin H; fin H; triv. }
    destruct ((a =? 63) || (a =? 42) || (a =? 43)).
    { cbv zeta in H. lin H. destruct a0 as [[ok0 st0] c0]. cbv beta iota in H. lin H. destruct a0 as [[m st2] c2].
      cbv beta iota in H. fin H. rewrite app_nil_r.
      assert (W : c_dis c0 = c_dis cx /\ Forall (deep cx) l).
      { destruct (a =? 43).
        - apply IA in E0. destruct E0 as [E2 E3]. destruct (a =? 63); auto.
        - fin E0. destruct (a =? 63); triv. }
      destruct W as [W1 W2].
      assert (W3 : c_dis c2 = c_dis cx /\ Forall (deep cx) l1).
      { destruct ok0; [|fin E1; split; auto]. lin E1. destruct a0 as [st4 c4]. cbn [fst snd] in E1. apply IRL in E2. fin E1.
        rewrite app_nil_r. destruct E2. split; [congruence|]. eapply deep_eq; eassumption. }
      destruct W3. split; [destruct (a =? 63); assumption|]. apply Forall_app. auto. }
    destruct (a =? 40).
    { lin H. destruct a0 as [[ok0 [q0 s0]] c0]. cbv beta iota in H. apply ISQ in E0.
      destruct ok0; [lin H|]; fin H; rewrite app_nil_r; exact E0. }
    destruct (a =? 124). { eapply IAL, H. }
    destruct ((a =? 38) || (a =? 33)).
    { lin H. destruct a0 as [[m st0] c0]. cbv beta iota zeta in H. apply IA in E0. cbn [c_dis set_dis] in E0. destruct E0 as [E1 E2].
      assert (E3 : Forall (deep cx) l).
      { eapply Forall_impl; [|exact E2]. intros k. unfold deep. cbn [c_dis set_dis]. lia. }
      destruct (if a =? 33 then negb m else m); [lin H|]; fin H; rewrite app_nil_r; (split; [|exact E3]); cbn [c_dis set_dis]; rewrite E1; lia. }
    destruct (extended a).
    - destruct (negb (a =? 60)).
      { lin H. fin H. triv. }
      lin H. destruct a0 as [[rn lb] ce]. cbv beta iota in H.
      destruct (lookup rules (skipn rn pat)) as [i|]; [|fin H; triv].
      destruct (nth_error rules i) as [sr|]; [|discriminate]. cbv zeta in H. lin H.
      destruct a0 as [[fl s2] sc]. cbv beta iota in H.
      assert (W : Forall (deep cx) l).
      { destruct (left_recursive ch i s).
        - lin E1. fin E1. constructor.
        - lin E1. destruct a0 as [[ok0 [q0 s0]] c0]. cbv beta iota in E1. lin E1. apply ISQ in E2. destruct E2 as [_ E2].
          destruct (ok0 && (a0 =? 0)); lin E1; fin E1; rewrite app_nil_r; exact E2. }
      destruct fl; [fin H; rewrite app_nil_r; split; [reflexivity|exact W]|].
      destruct (match lb with Some (lp, nm) => _ | None => _ end) as [lk ln]. cbv beta iota in H.
      destruct ch as [|[cur o] ch']; [discriminate|].
      destruct (nth_error rules cur) as [cr|]; [|discriminate].
      fin H. rewrite app_nil_r. split; [|exact W]. destruct (_ && _); [rewrite capture_dis|]; reflexivity.
    - destruct (at_eof s); [|lin H]; fin H; triv. }
  assert (X3 : HSQ (S f)).
  { intros pat ch st cx ok st1 cx1 ks H. cbn [fmatch_sequence] in H. lin H.
    destruct a as [[ok0 st0] c0]. cbv beta iota in H. apply ISL in E. fin H. rewrite app_nil_r.
    destruct ok0; [|rewrite roll_dis]; exact E. }
  assert (X4 : HSL (S f)).
  { intros pat ch st cx ok st1 cx1 ks H. cbn [fseq_loop] in H. lin H.
    destruct a; [fin H; triv|]. lin H. destruct a as [[ok0 st0] c0]. cbv beta iota in H. apply IA in E0. destruct E0 as [E1 E2].
    destruct ok0; [apply ISL in H|fin H; rewrite app_nil_r; auto]. destruct H. split; [congruence|]. apply Forall_app.
    split; [exact E2|]. eapply deep_eq; eassumption. }
  assert (X5 : HRL (S f)).
  { intros pat ch once rp st cx st1 cx1 ks H. cbn [frep_loop] in H. lin H.
    destruct a as [[ok0 st0] c0]. cbv beta iota in H. apply IA in E. destruct E as [E1 E2]. destruct ok0.
    - destruct (same (snd st0) (snd st)); [fin H; rewrite app_nil_r; auto|]. destruct once; [fin H; rewrite app_nil_r; auto|].
      apply IRL in H. destruct H. split; [congruence|]. apply Forall_app. split; [exact E2|]. eapply deep_eq; eassumption.
    - lin H. fin H. rewrite app_nil_r, roll_dis. auto. }
  assert (X6 : HAL (S f)).
  { intros pat ch ini na sp s cx ok st1 cx1 sp' ks H. cbn [falt_loop] in H. lin H.
    destruct (a =? 124); [|fin H; triv].
    lin H. destruct a0 as [[ok0 [q0 s0]] c0]. cbv beta iota in H. apply IAA in E0. destruct E0 as [E1 E2]. destruct ok0.
    - lin H. fin H. rewrite app_nil_r. auto.
    - lin H. apply IAL in H. rewrite roll_dis in H. destruct H. split; [congruence|]. apply Forall_app. split; [exact E2|].
      eapply deep_eq; [|eassumption]. rewrite roll_dis. exact E1. }
  assert (X7 : HAA (S f)).
  { intros pat ch st cx ok st1 cx1 ks H. cbn [falt_atoms] in H. lin H.
    destruct a as [[ok0 st0] c0]. cbv beta iota in H. apply IA in E. destruct E as [E1 E2]. destruct ok0.
    - lin H. destruct (_ || _); [fin H; rewrite app_nil_r; auto|].
      apply IAA in H. destruct H. split; [congruence|]. apply Forall_app. split; [exact E2|]. eapply deep_eq; eassumption.
    - fin H. rewrite app_nil_r. auto. }
  auto 10.
Qed.

(** A lookahead makes no call that counts. *)
Lemma ahead_quiet f pat ch st cx ok st1 cx1 ks : rdp pat (fst st) = Done 38 \/ rdp pat (fst st) = Done 33 ->
  fmatch_atom f (Gram rules) P pat ch st cx = Done (ok, st1, cx1, ks) -> Forall (fun k => (0 < k_dis k)%nat) ks.
Proof.
  intros E H. destruct f as [|[|f]]; [discriminate|destruct st; discriminate|]. destruct st as [p s]. cbn [fst] in E.
  cbn [fmatch_atom] in H. lin H. destruct a as [[[m [q0 s0]] c0] sp]. cbv beta iota in H.
  assert (W : Forall (fun k => (0 < k_dis k)%nat) l).
  { cbn [fmatch_switch] in E0. lin E0. assert (A : a = 38 \/ a = 33) by (destruct E; [left|right]; congruence).
    assert (X : exists a0 r, fmatch_atom f (Gram rules) P pat ch (S p, s) (set_dis cx (S (c_dis cx))) = Done (a0, l) /\ r = l).
    { destruct A as [-> | ->]; cbn [Z.eqb Pos.eqb orb] in E0; lin E0; destruct a as [[m1 st2] c2]; cbv beta iota zeta in E0.
      - destruct m1; [lin E0|]; fin E0; rewrite app_nil_r; eauto.
      - destruct (negb m1); [lin E0|]; fin E0; rewrite app_nil_r; eauto. }
    destruct X as ([[ok2 st2] c2] & _ & X & _). apply depth in X. destruct X as [_ X]. eapply Forall_impl; [|exact X].
    intros k. unfold deep. cbn [c_dis set_dis]. lia. }
  destruct m.
  - lin H. destruct a as [[nm|] y]; cbn [fst snd] in H; fin H; rewrite app_nil_r; exact W.
  - lin H. fin H. apply Forall_app. split; [exact W|]. unfold failed. destruct ch as [|[i o] ch']; [constructor|].
    assert (A : a = 38 \/ a = 33) by (destruct E; [left|right]; congruence).
    destruct A as [-> | ->]; constructor.
Qed.
End Ahead.

(** ** The whole parse *)

Lemma rdp_zero pat : rdp pat 0 <> Undef.
Proof. unfold rdp. destruct pat; discriminate. Qed.

Lemma fparse_good f rules text top tr x ks : fparse f rules text = Ok (top, tr, Done (x, ks)) ->
  lookup rules [84; 79; 80] = Some top /\ nth_error rules top = Some tr /\
  fmatch_sequence f (Gram rules) ast_policy (r_pat tr) [(top, src_start text)] (0%nat, src_start text) ctx0 = Done (x, ks) /\
  Forall (good rules top (src_start text)) ks.
Proof.
  unfold fparse. destruct (lookup rules [84; 79; 80]) as [i|]; [|discriminate].
  destruct (nth_error rules i) as [r|] eqn:EN; [|discriminate]. intros H.
  assert (i = top) by congruence. assert (r = tr) by congruence. subst i r.
  assert (E : fmatch_sequence f (Gram rules) ast_policy (r_pat tr) [(top, src_start text)] (0%nat, src_start text) ctx0 = Done (x, ks)) by congruence.
  repeat split; auto. destruct x as [[ok [q s]] cx].
  refine (proj2 (proj1 (proj2 (proj2 (sound rules ast_policy top (src_start text) f))) _ _ _ _ _ _ _ _ _ _ _ E)).
  exists top, (src_start text), [], tr. repeat split; auto; constructor.
Qed.

(** A Match that is no failure comes from match_result. *)
Lemma reported_success f rules text top tr x ks r : bytes text ->
  fparse f rules text = Ok (top, tr, Done (x, ks)) -> reported f rules text = Ok (Done r) -> t_failure r = false ->
  exists h, t_far r = Some (h_far h) /\ t_fails r = h_fails h /\ recorded rules text ks h.
Proof.
  intros HB HF HR HS. destruct (fparse_good _ _ _ _ _ _ _ HF) as (H1 & H2 & H3 & H4).
  unfold reported in HR. rewrite HF in HR. cbn [obind] in HR.
  assert (H := f_equal (fun o => match o with Ok x => x | _ => NoFuel end) HR). cbv beta iota in H. clear HR.
  cbn [rbind] in H. destruct x as [[ok [q s]] cx]. cbv beta iota in H. inv H.
  destruct (ok && (a =? 0)) eqn:EO.
  - inv H. destruct (record_start rules top text HB ks H4) as (h & Hh & R). rewrite Hh in E0.
    assert (a0 = h) by congruence. subst a0. assert (r = mktold false (Some (h_far h)) (h_fails h)) by congruence. subst r.
    exists h. auto.
  - exfalso. inv H. assert (r = mktold a0 (if a0 then None else Some s) []) by congruence. subst r. cbn [t_failure] in HS. subst a0.
    unfold is_failure in E0. cbn [fst snd] in E0. rewrite E in E0. cbn [rbind] in E0.
    destruct (Z.eqb_spec a 0) as [->|N].
    + rewrite andb_true_r in EO. subst ok.
      pose proof (proj1 (proj2 (proj2 (strip_all (Gram rules) ast_policy f))) (r_pat tr) [(top, src_start text)] (0%nat, src_start text) ctx0) as S.
      rewrite H3 in S. cbn in S. symmetry in S. apply seq_fail in S. contradiction.
    + unfold same in E0. rewrite !Nat.eqb_refl in E0. discriminate.
Qed.

Lemma lit_calls f rules P pat ch p s cx ok q s1 cx1 sp ks c :
  fmatch_switch f (Gram rules) P pat ch p s cx = Done (ok, (q, s1), cx1, sp, ks) ->
  rdp pat p = Done c -> literal c -> sp = p /\ ks = [] /\ cx1 = cx.
Proof.
  intros H Hc Hl. destruct f as [|f]; [discriminate|]. cbn [fmatch_switch] in H.
  apply lift_done in H. destruct H as (c' & Hc' & H). assert (c' = c) by congruence. subst c'. clear Hc'.
  assert (N : forall x, In x peg_ops -> (c =? x) = false).
  { intros x Hx. destruct (Z.eqb_spec c x) as [->|]; [contradiction|reflexivity]. }
  rewrite ?(N 0), ?(N 41), ?(N 94), ?(N 36), ?(N 46), ?(N 92), ?(N 63), ?(N 42), ?(N 43), ?(N 40), ?(N 124), ?(N 38), ?(N 33), ?(N 60) in H by (cbn; tauto). cbn [orb negb] in H. unfold lret in H.
  repeat match type of H with
  | Done _ = Done _ => fail 1
  | lbind (llift _) _ = _ => apply lift_done in H; destruct H as (? & ? & H); cbv beta in H
  | (if ?b then _ else _) = _ => destruct b
  end; (split; [congruence|split; congruence]).
Qed.

Lemma lit_atom f rules P pat i o ch p s cx st cx' ks c :
  rdp pat p = Done c -> literal c ->
  fmatch_atom f (Gram rules) P pat ((i, o) :: ch) (p, s) cx = Done (false, st, cx', ks) ->
  exists e, ks = [mkcall i p e s (c_dis cx) o (rev (i :: map fst ch))].
Proof.
  intros Hc Hl H. destruct f as [|f]; [discriminate|]. cbn [fmatch_atom] in H.
  apply lbind_done in H. destruct H as ([[[m [q0 s0]] c0] sp] & l1 & l2 & E & H & ->). cbv beta iota in H.
  destruct (lit_calls _ _ _ _ _ _ _ _ _ _ _ _ _ _ _ E Hc Hl) as (-> & -> & ->).
  destruct m.
  - apply lift_done in H. destruct H as (a & _ & H). destruct (fst a); unfold lret in H; congruence.
  - apply lift_done in H. destruct H as (a & Ha & H). assert (a = c) by congruence. subst a.
    assert (EC : composite c = false).
    { unfold composite. apply Bool.not_true_iff_false. intros X. apply existsb_exists in X. destruct X as (y & Y1 & Y2).
      apply Z.eqb_eq in Y2. subst y. apply Hl. cbn in Y1 |- *. tauto. }
    unfold failed in H. rewrite EC in H. rewrite roll_dis in H. exists q0. cbn [app map fst] in H |- *. congruence.
Qed.
