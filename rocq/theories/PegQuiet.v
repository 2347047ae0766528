(** A context whose rollback never complains: matching leaves the number of
    complaints alone. *)
From Verif Require Import Base UTF8Model PegModel PegTotal.

Definition quiet (P : policy) : Prop := forall l n, snd (pol_roll P l n) = false.

Section Quiet.
Variables (L : lang) (P : policy).
Hypothesis HQ : quiet P.

Lemma roll_msgs cx n : c_msgs (roll P cx n) = c_msgs cx.
Proof.
  unfold roll. pose proof (HQ (c_caps cx) n) as H. destruct (pol_roll P (c_caps cx) n) as [l m].
  cbn [snd] in H. subst m. reflexivity.
Qed.

Lemma capture_msgs cx nm v : c_msgs (capture P cx nm v) = c_msgs cx.
Proof. unfold capture. destruct (pol_keep P v); reflexivity. Qed.

Definition QA (f : nat) : Prop := forall pat ch st cx ok st1 cx1,
  match_atom f L P pat ch st cx = Done (ok, st1, cx1) -> c_msgs cx1 = c_msgs cx.
Definition QSW (f : nat) : Prop := forall pat ch p s cx ok st1 cx1 sp,
  match_switch f L P pat ch p s cx = Done (ok, st1, cx1, sp) -> c_msgs cx1 = c_msgs cx.
Definition QSQ (f : nat) : Prop := forall pat ch st cx ok st1 cx1,
  match_sequence f L P pat ch st cx = Done (ok, st1, cx1) -> c_msgs cx1 = c_msgs cx.
Definition QSL (f : nat) : Prop := forall pat ch st cx ok st1 cx1,
  seq_loop f L P pat ch st cx = Done (ok, st1, cx1) -> c_msgs cx1 = c_msgs cx.
Definition QRL (f : nat) : Prop := forall pat ch once rp st cx st1 cx1,
  rep_loop f L P pat ch once rp st cx = Done (st1, cx1) -> c_msgs cx1 = c_msgs cx.
Definition QAL (f : nat) : Prop := forall pat ch ini na sp s cx ok st1 cx1 sp',
  alt_loop f L P pat ch ini na sp s cx = Done (ok, st1, cx1, sp') -> c_msgs cx1 = c_msgs cx.
Definition QAA (f : nat) : Prop := forall pat ch st cx ok st1 cx1,
  alt_atoms f L P pat ch st cx = Done (ok, st1, cx1) -> c_msgs cx1 = c_msgs cx.

Ltac ctx H :=
  match type of H with
  | Done (_, _, ?c, _) = Done (_, _, ?c', _) => assert (c = c') by congruence; subst c'
  | Done (_, _, ?c) = Done (_, _, ?c') => assert (c = c') by congruence; subst c'
  | Done (_, ?c) = Done (_, ?c') => assert (c = c') by congruence; subst c'
  end.

Lemma quiet_msgs f : QA f /\ QSW f /\ QSQ f /\ QSL f /\ QRL f /\ QAL f /\ QAA f.
Proof.
  induction f as [|f (IA & ISW & ISQ & ISL & IRL & IAL & IAA)].
  { repeat split; intros; discriminate. }
  assert (X1 : QA (S f)).
  { intros pat ch [p s] cx ok st1 cx1 H. cbn [match_atom] in H. inv H.
    destruct a as [[[m [q0 s0]] c0] sp]. cbv beta iota in H. apply ISW in E. destruct m.
    - inv H. destruct a as [lb y]. cbn [fst snd] in H. destruct lb as [name|]; ctx H; [|exact E].
      destruct (c_dis c0 =? 0)%nat; [rewrite capture_msgs|]; exact E.
    - ctx H. rewrite roll_msgs. exact E. }
  assert (X2 : QSW (S f)).
  { intros pat ch p s cx ok st1 cx1 sp H. cbn [match_switch] in H. inv H.
    destruct (a =? 0); [ctx H; reflexivity|].
    destruct (a =? 41); [ctx H; reflexivity|].
    destruct (a =? 94); [ctx H; reflexivity|].
    destruct (a =? 36). { destruct (at_eof s); [|inv H]; ctx H; reflexivity. }
    destruct (a =? 46). { destruct (at_eof s); [|inv H]; ctx H; reflexivity. }
    destruct (a =? 92). { destruct (at_eof s); [|inv H]; ctx H; reflexivity. }
    destruct (a =? 91). { inv H; ctx H; reflexivity. }
    destruct ((a =? 63) || (a =? 42) || (a =? 43)).
    { inv H. destruct a0 as [[ok0 st0] c0]. cbv beta iota in H. inv H. destruct a0 as [[m st2] c2].
      cbv beta iota in H. ctx H.
      assert (W : c_msgs c0 = c_msgs cx).
      { destruct (a =? 43).
        - apply IA in E0. destruct (a =? 63); exact E0.
        - ctx E0. destruct (a =? 63); reflexivity. }
      assert (W2 : c_msgs c2 = c_msgs cx).
      { destruct ok0; [inv E1; destruct a0 as [st4 c4]; cbn [fst snd] in E1; apply IRL in E2|]; ctx E1; congruence. }
      destruct (a =? 63); exact W2. }
    destruct (a =? 40).
    { inv H. destruct a0 as [[ok0 [q0 s0]] c0]. cbv beta iota in H. apply ISQ in E0.
      destruct ok0; [inv H|]; ctx H; exact E0. }
    destruct (a =? 124). { eapply IAL, H. }
    destruct ((a =? 38) || (a =? 33)).
    { inv H. destruct a0 as [[m st0] c0]. cbv beta iota zeta in H. apply IA in E0. cbn in E0.
      destruct (if a =? 33 then negb m else m); [inv H|]; ctx H; exact E0. }
    destruct (extended a).
    - destruct L as [|rules] eqn:EL.
      { inv H. ctx H. reflexivity. }
      destruct (negb (a =? 60)).
      { inv H. ctx H. reflexivity. }
      inv H. destruct a0 as [[rn lb] ce]. cbv beta iota in H.
      destruct (lookup rules (skipn rn pat)) as [i|]; [|ctx H; reflexivity].
      destruct (nth_error rules i) as [sr|]; [|discriminate]. cbv zeta in H. inv H.
      destruct a0 as [[fl s2] sc]. cbv beta iota in H.
      assert (W : c_msgs sc = c_msgs cx).
      { destruct (left_recursive ch i s).
        - inv E1. ctx E1. reflexivity.
        - inv E1. destruct a0 as [[ok0 [q0 s0]] c0]. cbv beta iota in E1. inv E1. rewrite <- EL in E2. apply ISQ in E2.
          cbn in E2. destruct (ok0 && (a0 =? 0)); inv E1; ctx E1; exact E2. }
      destruct fl; [ctx H; exact W|].
      destruct (match lb with Some (lp, nm) => _ | None => _ end) as [lk ln]. cbv beta iota in H.
      destruct ch as [|[cur o] ch']; [discriminate|].
      destruct (nth_error rules cur) as [cr|]; [|discriminate].
      ctx H. destruct (_ && _); [rewrite capture_msgs|]; exact W.
    - destruct (at_eof s); [|inv H]; ctx H; reflexivity. }
  assert (X3 : QSQ (S f)).
  { intros pat ch st cx ok st1 cx1 H. cbn [match_sequence] in H. inv H.
    destruct a as [[ok0 st0] c0]. cbv beta iota in H. apply ISL in E. ctx H.
    destruct ok0; [|rewrite roll_msgs]; exact E. }
  assert (X4 : QSL (S f)).
  { intros pat ch st cx ok st1 cx1 H. cbn [seq_loop] in H. inv H.
    destruct a; [ctx H; reflexivity|]. inv H. destruct a as [[ok0 st0] c0]. cbv beta iota in H. apply IA in E0.
    destruct ok0; [apply ISL in H|ctx H]; congruence. }
  assert (X5 : QRL (S f)).
  { intros pat ch once rp st cx st1 cx1 H. cbn [rep_loop] in H. inv H.
    destruct a as [[ok0 st0] c0]. cbv beta iota in H. apply IA in E. destruct ok0.
    - destruct (same (snd st0) (snd st)); [ctx H; exact E|]. destruct once; [ctx H; exact E|]. apply IRL in H. congruence.
    - inv H. ctx H. rewrite roll_msgs. exact E. }
  assert (X6 : QAL (S f)).
  { intros pat ch ini na sp s cx ok st1 cx1 sp' H. cbn [alt_loop] in H. inv H.
    destruct (a =? 124); [|ctx H; reflexivity].
    inv H. destruct a0 as [[ok0 [q0 s0]] c0]. cbv beta iota in H. apply IAA in E0. destruct ok0.
    - inv H. ctx H. exact E0.
    - inv H. apply IAL in H. rewrite roll_msgs in H. congruence. }
  assert (X7 : QAA (S f)).
  { intros pat ch st cx ok st1 cx1 H. cbn [alt_atoms] in H. inv H.
    destruct a as [[ok0 st0] c0]. cbv beta iota in H. apply IA in E. destruct ok0.
    - inv H. destruct (_ || _); [ctx H; exact E|]. apply IAA in H. congruence.
    - ctx H. exact E. }
  auto 10.
Qed.

Lemma quiet_here f pat ch s cx x s1 cx1 :
  match_here f L P pat ch s cx = Done (x, s1, cx1) -> c_msgs cx1 = c_msgs cx.
Proof.
  unfold match_here. intros H. inv H. destruct a as [[ok [q s0]] c0]. cbv beta iota in H. inv H.
  apply quiet_msgs in E. destruct (ok && (a =? 0)); inv H; ctx H; exact E.
Qed.

End Quiet.
