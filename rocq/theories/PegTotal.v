(** The matcher always stops, on any pattern, grammar and text: an explicit
    number of steps is enough. *)
From Verif Require Import Base UTF8Model UTF8Spec UTF8Proofs PegModel.

Lemma rbind_done {A B} (x : res A) (k : A -> res B) b :
  rbind x k = Done b -> exists a, x = Done a /\ k a = Done b.
Proof. destruct x; cbn; try discriminate. eauto. Qed.

Ltac inv H :=
  match type of H with
  | rbind _ _ = Done _ =>
      let a := fresh "a" in let E := fresh "E" in
      apply rbind_done in H; destruct H as (a & E & H); cbv beta zeta in H; inv H
  | _ => idtac
  end.

(** ** Positions only grow *)

Lemma rdp_done pat p c : rdp pat p = Done c -> (p <= length pat)%nat.
Proof.
  unfold rdp. destruct (nth_error (pat ++ [0]) p) eqn:E; [|discriminate]. intros _.
  assert (H : (p < length (pat ++ [0%Z]))%nat) by (apply nth_error_Some; congruence).
  rewrite app_length in H. cbn in H. lia.
Qed.

Lemma rdp_nofuel pat p : rdp pat p <> NoFuel.
Proof. unfold rdp. destruct (nth_error _ _); discriminate. Qed.

Lemma u_digits_adv k : forall pat p rc c q, u_digits k pat p rc = Done (c, q) -> (p <= q)%nat.
Proof.
  induction k; intros pat p rc c q H; cbn [u_digits] in H; [assert (p = q) by congruence; lia|].
  inv H. destruct (a =? 0); [assert (p = q) by congruence; lia|].
  destruct (unhex a <? 0); [assert (p = q) by congruence; lia|]. apply IHk in H. lia.
Qed.

Lemma close_brace_adv pat b p q : close_brace pat b p = Done q -> (p <= q)%nat.
Proof.
  unfold close_brace. destruct b; intros H; [inv H|]; [|assert (p = q) by congruence; lia].
  destruct (a =? 125); [assert (S p = q) by congruence|assert (p = q) by congruence]; lia.
Qed.

Ltac done_eq H := match type of H with Done (_, ?x) = Done (_, ?y) => assert (x = y) by congruence end.

Lemma literal_adv pat p c q : literal_char pat p = Done (c, q) ->
  (p <= q)%nat /\ (rdp pat p <> Done 0 -> (p < q)%nat).
Proof.
  unfold literal_char. intros H. inv H.
  destruct (Z.eqb_spec a 0) as [->|N].
  { done_eq H. split; [lia|]. intros X. congruence. }
  assert (G : (p < q)%nat); [|lia]. clear E N.
  destruct (negb (a =? 92)); [done_eq H; lia|]. inv H.
  destruct (is_octal (u32 a0)).
  - inv H. destruct (is_octal a1); cbv beta iota in H; inv H;
      match type of H with context [is_octal ?x] => destruct (is_octal x) end; done_eq H; lia.
  - destruct (u32 a0 =? 120).
    + inv H. destruct (a1 =? 0); [done_eq H; lia|]. cbv zeta in H. inv H.
      destruct (a1 =? 123); destruct (0 <=? unhex a3); cbv beta iota in H; inv H; done_eq H;
        match goal with X : close_brace _ _ _ = _ |- _ => apply close_brace_adv in X; lia end.
    + destruct (u32 a0 =? 117).
      * inv H. done_eq H. destruct a2 as [x y]. cbn [fst snd] in *.
        match goal with X : close_brace _ _ _ = _ |- _ => apply close_brace_adv in X end.
        match goal with X : u_digits _ _ _ _ = _ |- _ => apply u_digits_adv in X end.
        destruct (a1 =? 123); lia.
      * done_eq H. lia.
Qed.

(** What needs no step count never runs out. *)
Lemma u_digits_nofuel k : forall pat p rc, u_digits k pat p rc <> NoFuel.
Proof.
  induction k; intros pat p rc; cbn [u_digits]; [discriminate|].
  destruct (rdp pat p) eqn:E; cbn [rbind]; [|discriminate|destruct (rdp_nofuel _ _ E)].
  destruct (a =? 0); [discriminate|]. destruct (unhex a <? 0); [discriminate|apply IHk].
Qed.

Lemma literal_nofuel pat p : literal_char pat p <> NoFuel.
Proof.
  unfold literal_char.
  destruct (rdp pat p) eqn:E0; cbn [rbind]; [|discriminate|destruct (rdp_nofuel _ _ E0)].
  destruct (a =? 0); [discriminate|]. destruct (negb _); [discriminate|].
  destruct (rdp pat (S p)) eqn:E1; cbn [rbind]; [|discriminate|destruct (rdp_nofuel _ _ E1)].
  destruct (is_octal (u32 a0)).
  { destruct (rdp pat (S (S p))) eqn:E2; cbn [rbind]; [|discriminate|destruct (rdp_nofuel _ _ E2)].
    destruct (is_octal a1); cbv beta iota;
    match goal with |- rbind ?x _ <> _ => destruct x eqn:E3; cbn [rbind]; [|discriminate|destruct (rdp_nofuel _ _ E3)] end;
    destruct (is_octal _); discriminate. }
  destruct (u32 a0 =? 120).
  { destruct (rdp pat (S (S p))) eqn:E2; cbn [rbind]; [|discriminate|destruct (rdp_nofuel _ _ E2)].
    destruct (a1 =? 0); [discriminate|]. cbv zeta.
    match goal with |- rbind ?x _ <> _ => destruct x eqn:E3; cbn [rbind]; [|discriminate|destruct (rdp_nofuel _ _ E3)] end.
    match goal with |- rbind ?x _ <> _ => destruct x eqn:E4; cbn [rbind]; [|discriminate|destruct (rdp_nofuel _ _ E4)] end.
    destruct (0 <=? unhex a3); cbv beta iota; unfold close_brace;
      (destruct (a1 =? 123); cbn [rbind]; [|discriminate]);
      match goal with |- rbind (rbind ?x _) _ <> _ => destruct x eqn:E5; cbn [rbind]; [discriminate|discriminate|destruct (rdp_nofuel _ _ E5)] end. }
  destruct (u32 a0 =? 117); [|discriminate].
  destruct (rdp pat (S (S p))) eqn:E2; cbn [rbind]; [|discriminate|destruct (rdp_nofuel _ _ E2)].
  match goal with |- rbind ?x _ <> _ => destruct x eqn:E3; cbn [rbind]; [|discriminate|destruct (u_digits_nofuel _ _ _ _ E3)] end.
  unfold close_brace. destruct (a1 =? 123); cbn [rbind]; [|discriminate].
  match goal with |- rbind (rbind ?x _) _ <> _ => destruct x eqn:E5; cbn [rbind]; [discriminate|discriminate|destruct (rdp_nofuel _ _ E5)] end.
Qed.

Lemma ctype_nofuel b c : ctype b c <> NoFuel.
Proof. unfold ctype. destruct (_ && _); discriminate. Qed.

Lemma property_nofuel pat p ch : char_property pat p ch <> NoFuel.
Proof.
  unfold char_property.
  destruct (rdp pat p) eqn:E0; cbn [rbind]; [|discriminate|destruct (rdp_nofuel _ _ E0)].
  repeat match goal with
  | |- (if ?b then _ else _) <> NoFuel => destruct b
  | |- rbind (ctype ?b ?c) _ <> NoFuel =>
      let E := fresh in destruct (ctype b c) eqn:E; cbn [rbind]; [discriminate|discriminate|destruct (ctype_nofuel _ _ E)]
  end.
  destruct (literal_char pat (p - 1)) eqn:E1; cbn [rbind]; [discriminate|discriminate|destruct (literal_nofuel _ _ E1)].
Qed.

Lemma property_adv pat p ch b q : char_property pat (S p) ch = Done (b, q) -> rdp pat p <> Done 0 -> (p < q)%nat.
Proof.
  unfold char_property. intros H N. inv H.
  repeat match type of H with
  | (if ?b then _ else _) = _ => destruct b; [solve [inv H; done_eq H; lia]|]
  end.
  inv H. destruct a0 as [x y]. cbn [fst snd] in *. done_eq H. subst y.
  replace (S p - 1)%nat with p in * by lia. apply literal_adv in E0. apply E0, N.
Qed.

Lemma get_nofuel s : get_char s <> NoFuel.
Proof.
  unfold get_char. destruct (at_eof s); [discriminate|].
  destruct (UTF8Get (s_rest s ++ [0])) as [[c k]| |]; cbn; discriminate.
Qed.

Definition len (s : src) : nat := length (s_rest s).

Lemma get_len s c s' : get_char s = Done (c, s') -> (len s' <= len s)%nat.
Proof.
  unfold get_char. destruct (at_eof s).
  - intros H. assert (s' = s) by congruence. subst. lia.
  - destruct (UTF8Get (s_rest s ++ [0])) as [[c' k]| |]; cbn; try discriminate. intros H.
    match type of H with Done (_, ?x) = Done (_, ?y) => assert (E : y = x) by congruence end.
    rewrite E. unfold len. cbn. rewrite skipn_length. lia.
Qed.

(** *** Skipping *)
Lemma scan_adv f : forall pat p q, scan_name f pat p = Done q -> (p <= q)%nat.
Proof.
  induction f; intros pat p q H; cbn [scan_name] in H; [discriminate|]. inv H.
  destruct (_ || _); [apply IHf in H; lia|]. assert (p = q) by congruence. lia.
Qed.

Lemma label_adv f pat p l q : label_at f pat p = Done (l, q) -> (p <= q)%nat.
Proof.
  unfold label_at. intros H. inv H. destruct (a =? 58); [|done_eq H; lia].
  inv H. apply scan_adv in E0. destruct (a1 =? 58); done_eq H; lia.
Qed.

Lemma skip_call_adv f : forall pat p q, skip_call f pat p = Done q -> (p <= q)%nat.
Proof.
  induction f; intros pat p q H; cbn [skip_call] in H; [discriminate|]. inv H.
  destruct (a =? 0); [assert (p = q) by congruence; lia|].
  destruct (a =? 62); [assert (S p = q) by congruence; lia|]. apply IHf in H. lia.
Qed.

Lemma skip_extended_adv f L pat p q : skip_extended f L pat p = Done q -> (p < q)%nat.
Proof.
  unfold skip_extended. destruct L; intros H; [assert (S p = q) by congruence; lia|]. inv H.
  destruct (a =? 60); [apply skip_call_adv in H; lia|assert (S p = q) by congruence; lia].
Qed.

Lemma skip_class_adv f : forall pat p q, skip_class f pat p = Done q -> (p <= q)%nat.
Proof.
  induction f; intros pat p q H; cbn [skip_class] in H; [discriminate|]. inv H.
  destruct (_ || _); [assert (p = q) by congruence; lia|]. inv H. destruct a0 as [x y]. cbn [snd] in *.
  apply literal_adv in E0. destruct (a1 =? 45).
  - inv H. destruct a0 as [x' y']. cbn [snd] in *. apply literal_adv in E2. apply IHf in H. lia.
  - apply IHf in H. lia.
Qed.

Lemma skip_adv f L pat :
  (forall p q, skip_atom f L pat p = Done q -> (p < q)%nat) /\
  (forall alt p q, skip_until f L pat alt p = Done q -> (p <= q)%nat).
Proof.
  induction f as [|f [IH1 IH2]]; [split; intros; discriminate|]. split.
  - intros p q H. cbn [skip_atom] in H. inv H. destruct a1 as [lb y]. cbn [snd] in H.
    assert (y = q) by congruence. subst y.
    match goal with X : label_at _ _ _ = _ |- _ => apply label_adv in X end.
    assert (G : (p < a0)%nat); [|lia].
    destruct (Z.eqb_spec a 92) as [->|].
    { inv E0. match goal with X : literal_char _ _ = Done ?z |- _ => destruct z as [x y]; rename X into El end.
      cbn [snd] in E0. assert (y = a0) by congruence. subst y.
      apply literal_adv in El. apply El. congruence. }
    destruct (a =? 91).
    { inv E0. apply skip_class_adv in E3.
      destruct (a1 =? 94), (a3 =? 93); assert (X := f_equal (fun z => match z with Done z => z | _ => O end) E0); cbn in X; lia. }
    destruct (a =? 40).
    { inv E0. apply IH2 in E2. destruct (a2 =? 0); assert (X := f_equal (fun z => match z with Done z => z | _ => O end) E0); cbn in X; lia. }
    destruct (a =? 124); [apply IH2 in E0; lia|].
    destruct (_ || _); [apply IH1 in E0; lia|].
    destruct (extended a); [apply skip_extended_adv in E0; lia|]. assert (S p = a0) by congruence. lia.
  - intros alt p q H. cbn [skip_until] in H. inv H.
    destruct (_ || _); [assert (p = q) by congruence; lia|]. inv H. apply IH1 in E0. apply IH2 in H. lia.
Qed.

Lemma skip_alternates_adv f L pat : forall p q, skip_alternates f L pat p = Done q -> (p <= q)%nat.
Proof.
  induction f; intros p q H; cbn [skip_alternates] in H; [discriminate|]. inv H.
  destruct (a =? 124); [|assert (p = q) by congruence; lia]. inv H.
  apply skip_adv in E0. apply IHf in H. lia.
Qed.

Lemma class_items_adv f pat : forall p ch acc b q, class_items f pat p ch acc = Done (b, q) -> (p <= q)%nat.
Proof.
  induction f; intros p ch acc b q H; cbn [class_items] in H; [discriminate|]. inv H.
  destruct (Z.eqb_spec a 0); cbn [orb] in H; [done_eq H; lia|].
  destruct (a =? 93); [done_eq H; lia|]. inv H.
  assert (N : rdp pat p <> Done 0) by congruence.
  destruct (_ && _).
  - inv H. destruct a2 as [x y]. cbn [fst snd] in *. apply property_adv in E2; auto. apply IHf in H. lia.
  - inv H. destruct a2 as [x y]. cbv beta iota in H. inv H. apply literal_adv in E2.
    destruct (a2 =? 45).
    + inv H. destruct a3 as [x' y']. cbv beta iota in H. apply literal_adv in E4. apply IHf in H. lia.
    + apply IHf in H. lia.
Qed.

Lemma char_class_adv f pat p s b q s' : char_class f pat p s = Done (b, (q, s')) -> (p <= q)%nat /\ (len s' <= len s)%nat.
Proof.
  unfold char_class. destruct (at_eof s).
  - intros H. assert (p = q) by congruence. assert (s = s') by congruence. subst. lia.
  - intros H. inv H. destruct a0 as [c s1]. cbv beta iota in H. inv H. destruct a0 as [x y]. cbv beta iota in H. inv H.
    apply get_len in E0. apply class_items_adv in E1.
    match type of H with Done (_, (?x, ?y)) = _ => assert (x = q) by congruence; assert (y = s') by congruence end.
    subst s'. destruct (a =? 94), (a0 =? 93); lia.
Qed.

Lemma match_literal_adv pat p s b q s' : match_literal pat (p, s) = Done (b, (q, s')) ->
  (p <= q)%nat /\ (b = true -> (p < q)%nat) /\ (len s' <= len s)%nat.
Proof.
  unfold match_literal. destruct (at_eof s).
  - intros H. assert (p = q) by congruence. assert (s = s') by congruence. assert (b = false) by congruence. subst. repeat split; try lia; try discriminate.
  - intros H. inv H. destruct a0 as [c s1]. cbv beta iota in H. apply get_len in E0.
    destruct (_ =? _).
    + assert (S p = q) by congruence. assert (s1 = s') by congruence. subst. repeat split; lia.
    + assert (p = q) by congruence. assert (s1 = s') by congruence. assert (b = false) by congruence. subst. repeat split; try lia; try discriminate.
Qed.

Lemma parse_call_adv f pat p rn l q : parse_call f pat p = Done (rn, l, q) -> (p < q)%nat.
Proof.
  unfold parse_call. intros H. inv H. destruct (a =? 58).
  - inv H. apply scan_adv in E0. assert (q = if a1 =? 58 then S a0 else a0) by congruence.
    destruct (a1 =? 58); lia.
  - assert (q = S p + find_brangle (skipn (S p) pat))%nat by congruence. lia.
Qed.

(** *** Matching *)
Definition adv (pat : list Z) (p q : nat) : Prop := (p < q)%nat \/ (rdp pat p = Done 0 /\ q = p).

Section Mono.
Variables (L : lang) (P : policy).

Definition MA (f : nat) : Prop := forall pat ch p s cx ok q s1 cx1,
  match_atom f L P pat ch (p, s) cx = Done (ok, (q, s1), cx1) ->
  if ok then (len s1 <= len s)%nat /\ adv pat p q else s1 = s /\ (p <= q)%nat.
Definition MSW (f : nat) : Prop := forall pat ch p s cx ok q s1 cx1 sp,
  match_switch f L P pat ch p s cx = Done (ok, (q, s1), cx1, sp) ->
  (p <= sp)%nat /\ (ok = true -> (len s1 <= len s)%nat /\ adv pat p q).
Definition MSQ (f : nat) : Prop := forall pat ch p s cx ok q s1 cx1,
  match_sequence f L P pat ch (p, s) cx = Done (ok, (q, s1), cx1) -> (len s1 <= len s)%nat /\ (p <= q)%nat.
Definition MSL (f : nat) : Prop := forall pat ch p s cx ok q s1 cx1,
  seq_loop f L P pat ch (p, s) cx = Done (ok, (q, s1), cx1) -> (len s1 <= len s)%nat /\ (p <= q)%nat.
Definition MRL (f : nat) : Prop := forall pat ch once rp x s cx q s1 cx1,
  rep_loop f L P pat ch once rp (x, s) cx = Done ((q, s1), cx1) -> (len s1 <= len s)%nat /\ (rp <= q)%nat.
Definition MAL (f : nat) : Prop := forall pat ch ini na sp s cx ok q s1 cx1 sp',
  alt_loop f L P pat ch ini na sp s cx = Done (ok, (q, s1), cx1, sp') -> (sp <= na)%nat ->
  (sp <= sp')%nat /\ (ok = true -> (len s1 <= len s)%nat /\ (na < q)%nat).
Definition MAA (f : nat) : Prop := forall pat ch p s cx ok q s1 cx1,
  alt_atoms f L P pat ch (p, s) cx = Done (ok, (q, s1), cx1) -> (len s1 <= len s)%nat /\ (p <= q)%nat.

Lemma adv_le pat p q : adv pat p q -> (p <= q)%nat.
Proof. intros [|[_ ->]]; lia. Qed.

(** Take apart an equation between results. *)
Ltac parts H :=
  match type of H with
  | Done (?a, (?b, ?c), ?d, ?e) = Done (?a', (?b', ?c'), ?d', ?e') =>
      assert (a = a') by congruence; assert (b = b') by congruence; assert (c = c') by congruence;
      assert (d = d') by congruence; assert (e = e') by congruence; clear H
  | Done (?a, ?b, ?d, ?e) = Done (?a', ?b', ?d', ?e') =>
      assert (a = a') by congruence; assert (b = b') by congruence;
      assert (d = d') by congruence; assert (e = e') by congruence; clear H
  | Done (?a, (?b, ?c), ?d) = Done (?a', (?b', ?c'), ?d') =>
      assert (a = a') by congruence; assert (b = b') by congruence; assert (c = c') by congruence;
      assert (d = d') by congruence; clear H
  | Done (?a, ?b, ?d) = Done (?a', ?b', ?d') =>
      assert (a = a') by congruence; assert (b = b') by congruence;
      assert (d = d') by congruence; clear H
  end.

Lemma mono f : MA f /\ MSW f /\ MSQ f /\ MSL f /\ MRL f /\ MAL f /\ MAA f.
Proof.
  induction f as [|f (IA & ISW & ISQ & ISL & IRL & IAL & IAA)].
  { repeat split; intros; discriminate. }
  assert (X1 : MA (S f)).
  { intros pat ch p s cx ok q s1 cx1 H. cbn [match_atom] in H. inv H.
    destruct a as [[[m [q0 s0]] c0] sp]. cbv beta iota in H. apply ISW in E. destruct E as [Hsp Hm].
    destruct m.
    - inv H. destruct a as [lb y]. cbn [fst snd] in H. apply label_adv in E. destruct (Hm eq_refl) as [H1 H2].
      destruct lb as [name|]; parts H; subst.
      + split; [exact H1|]. destruct H2 as [H2|[H2 ->]]; [left; lia|].
        destruct (Nat.eq_dec q p) as [->|]; [right; auto|left; lia].
      + auto.
    - parts H; subst. auto. }
  assert (X2 : MSW (S f)).
  { intros pat ch p s cx ok q s1 cx1 sp H. cbn [match_switch] in H. inv H.
    destruct (Z.eqb_spec a 0) as [->|N0].
    { parts H; subst. split; [lia|]. intros _. split; [lia|]. right. auto. }
    assert (G : (p <= sp)%nat /\ (ok = true -> (len s1 <= len s)%nat /\ (p < q)%nat)).
    2:{ destruct G as [G1 G2]. split; [exact G1|]. intros Ho. destruct (G2 Ho). split; [assumption|left; assumption]. }
    destruct (a =? 41). { parts H; subst; split; [lia|intros _; lia]. }
    destruct (a =? 94). { parts H; subst; split; [lia|intros _; lia]. }
    destruct (a =? 36).
    { destruct (at_eof s); [|inv H]; parts H; subst; split; [lia|intros _; lia|lia|intros _; lia]. }
    destruct (a =? 46).
    { destruct (at_eof s); [|inv H]; [parts H; subst; split; [lia|discriminate]|].
      destruct a0 as [c s0]. cbn [fst snd] in *. apply get_len in E0. parts H; subst; split; [lia|intros _; lia]. }
    destruct (a =? 92).
    { destruct (at_eof s); [|inv H]; [parts H; subst; split; [lia|discriminate]|].
      destruct a0 as [c s0], a1 as [b0 q0]. cbn [fst snd] in *. apply get_len in E0. parts H; subst; split; [lia|].
      intros _. split; [lia|]. apply property_adv in E1; [lia|]. congruence. }
    destruct (a =? 91).
    { inv H. destruct a0 as [b [q0 s0]]. cbn [fst snd] in *. apply char_class_adv in E0. parts H; subst; split; [lia|intros _; lia]. }
    destruct ((a =? 63) || (a =? 42) || (a =? 43)).
    { inv H. destruct a0 as [[ok0 [q0 s0]] c0]. cbv beta iota in H. inv H. destruct a0 as [[m [q2 s2]] c2].
      cbv beta iota in H. parts H; subst. split; [lia|]. intros ->.
      assert (W : ok0 = true -> (len s0 <= len s)%nat).
      { destruct (a =? 43).
        - apply IA in E0. destruct ok0; [tauto|discriminate].
        - assert (s0 = s) by congruence. subst; lia. }
      destruct ok0; [|congruence]. inv E1. destruct a0 as [[q4 s4] c4]. cbn [fst snd] in E1.
      apply IRL in E2. parts E1; subst. specialize (W eq_refl). lia. }
    destruct (a =? 40).
    { inv H. destruct a0 as [[ok0 [q0 s0]] c0]. cbv beta iota in H. apply ISQ in E0. destruct ok0.
      - inv H. parts H; subst. split; [lia|]. intros _. destruct (a0 =? 0); lia.
      - parts H; subst. split; [lia|discriminate]. }
    destruct (a =? 124).
    { apply IAL in H. specialize (H ltac:(lia)). tauto. }
    destruct ((a =? 38) || (a =? 33)).
    { inv H. destruct a0 as [[m st0] c0]. cbv beta iota zeta in H.
      destruct (if a =? 33 then negb m else m).
      - inv H. apply skip_adv in E1. parts H; subst. split; [lia|intros _; lia].
      - parts H; subst. split; [lia|discriminate]. }
    destruct (extended a).
    - destruct L as [|rules] eqn:EL.
      { inv H. destruct a0 as [b [q0 s0]]. cbn [fst snd] in H. apply match_literal_adv in E0. parts H; subst. split; [lia|]. intros ->. split; [lia|apply E0; reflexivity]. }
      destruct (negb (a =? 60)).
      { inv H. destruct a0 as [b [q0 s0]]. cbn [fst snd] in H. apply match_literal_adv in E0. parts H; subst. split; [lia|]. intros ->. split; [lia|apply E0; reflexivity]. }
      inv H. destruct a0 as [[rn lb] ce]. cbv beta iota in H. apply parse_call_adv in E0.
      destruct (lookup rules (skipn rn pat)) as [i|]; [|parts H; subst; split; [lia|discriminate]].
      destruct (nth_error rules i) as [sr|]; [|discriminate]. cbv zeta in H. inv H.
      destruct a0 as [[fl s2] sc]. cbv beta iota in H.
      assert (W : (len s2 <= len s)%nat).
      { destruct (left_recursive ch i s).
        - inv E1. assert (s = s2) by congruence. subst; lia.
        - inv E1. destruct a0 as [[ok0 [q0 s0]] c0]. cbv beta iota in E1. inv E1. rewrite <- EL in E2. apply ISQ in E2.
          destruct (ok0 && (a0 =? 0)); inv E1; [assert (s0 = s2) by congruence|assert (s = s2) by congruence]; subst; lia. }
      destruct fl; [parts H; subst; split; [lia|discriminate]|].
      destruct (match lb with Some (lp, nm) => _ | None => _ end) as [lk ln]. cbv beta iota in H.
      destruct ch as [|[cur o] ch']; [discriminate|].
      destruct (nth_error rules cur) as [cr|]; [|discriminate].
      parts H; subst. split; [lia|intros _; lia].
    - destruct (at_eof s); [|inv H]; [parts H; subst; split; [lia|discriminate]|].
      destruct a0 as [c s0]. cbn [fst snd] in *. apply get_len in E0. parts H; subst; split; [lia|intros _; lia]. }
  assert (X3 : MSQ (S f)).
  { intros pat ch p s cx ok q s1 cx1 H. cbn [match_sequence] in H. inv H.
    destruct a as [[ok0 [q0 s0]] c0]. cbv beta iota in H. apply ISL in E. parts H; subst. exact E. }
  assert (X4 : MSL (S f)).
  { intros pat ch p s cx ok q s1 cx1 H. cbn [seq_loop fst] in H. inv H.
    destruct a; [parts H; subst; lia|]. inv H. destruct a as [[ok0 [q0 s0]] c0]. cbv beta iota in H. apply IA in E0.
    destruct ok0.
    - apply ISL in H. destruct E0 as [A1 A2]. apply adv_le in A2. lia.
    - parts H. destruct E0 as [-> A2]. subst. lia. }
  assert (X5 : MRL (S f)).
  { intros pat ch once rp x s cx q s1 cx1 H. cbn [rep_loop snd] in H. inv H.
    destruct a as [[ok0 [q0 s0]] c0]. cbv beta iota in H. apply IA in E. destruct ok0.
    - destruct E as [A1 A2]. apply adv_le in A2. cbn [snd] in H.
      destruct (same s0 s); [|destruct once].
      + assert (q0 = q) by congruence. assert (s0 = s1) by congruence. subst; lia.
      + assert (q0 = q) by congruence. assert (s0 = s1) by congruence. subst; lia.
      + apply IRL in H. lia.
    - destruct E as [-> A2]. inv H. cbn [fst snd] in *. apply skip_adv in E.
      assert (a = q) by congruence. assert (s = s1) by congruence. subst. lia. }
  assert (X6 : MAL (S f)).
  { intros pat ch ini na sp s cx ok q s1 cx1 sp' H Hs. cbn [alt_loop] in H. inv H.
    destruct (a =? 124).
    - inv H. destruct a0 as [[ok0 [q0 s0]] c0]. cbv beta iota in H. destruct ok0.
      + inv H. apply IAA in E0. apply skip_alternates_adv in E1. parts H; subst. split; [lia|intros _; lia].
      + inv H. apply skip_adv in E1. apply IAL in H. specialize (H ltac:(lia)). destruct H as [H1 H2]. split; [lia|].
        intros Ho. destruct (H2 Ho). lia.
    - parts H; subst. split; [lia|discriminate]. }
  assert (X7 : MAA (S f)).
  { intros pat ch p s cx ok q s1 cx1 H. cbn [alt_atoms] in H. inv H.
    destruct a as [[ok0 [q0 s0]] c0]. cbv beta iota in H. apply IA in E. destruct ok0.
    - destruct E as [A1 A2]. apply adv_le in A2. inv H. destruct (_ || _).
      + parts H; subst. lia.
      + apply IAA in H. lia.
    - destruct E as [-> A2]. parts H; subst. lia. }
  auto 10.
Qed.
End Mono.

(** ** Enough steps *)

(** With [b] steps or more the result is always the same, and it is not that
    steps are lacking. *)
Definition settled {A} (b : nat) (g : nat -> res A) : Prop :=
  exists r, r <> NoFuel /\ forall f, (b <= f)%nat -> g f = r.

Lemma set_const {A} b (r : res A) : r <> NoFuel -> settled b (fun _ => r).
Proof. intros H. exists r. auto. Qed.

Lemma set_done {A} b (a : A) : settled b (fun _ => Done a).
Proof. apply set_const. discriminate. Qed.

Lemma set_le {A} b b' (g : nat -> res A) : settled b g -> (b <= b')%nat -> settled b' g.
Proof. intros (r & N & H) L. exists r. split; [exact N|]. intros f Hf. apply H. lia. Qed.

Lemma set_S {A} b (g : nat -> res A) : settled b (fun f => g (S f)) -> settled (S b) g.
Proof.
  intros (r & N & H). exists r. split; [exact N|]. intros f Hf. destruct f; [lia|]. apply H. lia.
Qed.

Lemma set_bind {A B} b (g : nat -> res A) (k : A -> nat -> res B) :
  settled b g -> (forall a f, g f = Done a -> settled b (k a)) ->
  settled b (fun f => rbind (g f) (fun x => k x f)).
Proof.
  intros (r & N & H) K. destruct r as [a| |]; [| |contradiction].
  - destruct (K a b (H b (le_n b))) as (r' & N' & H'). exists r'. split; [exact N'|].
    intros f Hf. rewrite H by exact Hf. cbn. apply H'. exact Hf.
  - exists Undef. split; [discriminate|]. intros f Hf. rewrite H by exact Hf. reflexivity.
Qed.

Lemma set_pure {A B} b (x : res A) (k : A -> nat -> res B) :
  x <> NoFuel -> (forall a, x = Done a -> settled b (k a)) ->
  settled b (fun f => rbind x (fun y => k y f)).
Proof.
  intros N K. destruct x as [a| |]; [|apply (set_const b (@Undef B)); discriminate|contradiction].
  cbn. apply K. reflexivity.
Qed.

Ltac rd := eapply set_pure; [apply rdp_nofuel|intros ? ?]; cbv beta zeta.
Ltac lit := eapply set_pure; [apply literal_nofuel|intros ? ?]; cbv beta zeta.

Definition kk (pat : list Z) (p : nat) : nat := (length pat + 2 - p)%nat.

Lemma kk_rd pat p c : rdp pat p = Done c -> (2 <= kk pat p)%nat.
Proof. intros H. apply rdp_done in H. unfold kk. lia. Qed.

Lemma kk_lt pat p q c : rdp pat p = Done c -> (p < q)%nat -> (kk pat q < kk pat p)%nat.
Proof. intros H. apply rdp_done in H. unfold kk. lia. Qed.

Lemma kk_le pat p q : (p <= q)%nat -> (kk pat q <= kk pat p)%nat.
Proof. unfold kk. lia. Qed.

Lemma scan_set pat : forall k p, (kk pat p <= k)%nat -> settled (S k) (fun f => scan_name f pat p).
Proof.
  induction k as [k IH] using lt_wf_ind; intros p Hk. apply set_S. cbn [scan_name]. rd.
  eapply set_pure; [apply ctype_nofuel|]. intros b _. destruct (_ || _); [|apply set_done].
  pose proof (kk_lt _ _ (S p) _ H ltac:(lia)). pose proof (kk_rd _ _ _ H).
  eapply set_le; [apply (IH (k - 1)%nat); lia|lia].
Qed.

Lemma label_set pat p : settled (S (kk pat p)) (fun f => label_at f pat p).
Proof.
  unfold label_at. rd. destruct (a =? 58); [|apply set_done].
  eapply set_bind; [eapply set_le; [apply scan_set, le_n|]|].
  - pose proof (kk_le pat p (S p)). lia.
  - intros q f _. rd. apply set_done.
Qed.

Lemma skip_call_set pat : forall k p, (kk pat p <= k)%nat -> settled (S k) (fun f => skip_call f pat p).
Proof.
  induction k as [k IH] using lt_wf_ind; intros p Hk. apply set_S. cbn [skip_call]. rd.
  destruct (a =? 0); [apply set_done|]. destruct (a =? 62); [apply set_done|].
  pose proof (kk_lt _ _ (S p) _ H ltac:(lia)). pose proof (kk_rd _ _ _ H).
  eapply set_le; [apply (IH (k - 1)%nat); lia|lia].
Qed.

Lemma skip_extended_set L pat p : settled (S (kk pat p)) (fun f => skip_extended f L pat p).
Proof.
  unfold skip_extended. destruct L; [apply set_done|]. rd. destruct (a =? 60); [|apply set_done].
  eapply set_le; [apply skip_call_set, le_n|]. pose proof (kk_le pat p (S p)). lia.
Qed.

Lemma skip_class_set pat : forall k p, (kk pat p <= k)%nat -> settled (S k) (fun f => skip_class f pat p).
Proof.
  induction k as [k IH] using lt_wf_ind; intros p Hk. apply set_S. cbn [skip_class]. rd.
  destruct (Z.eqb_spec a 0) as [->|N]; cbn [orb]; [apply set_done|].
  destruct (a =? 93); [apply set_done|].
  assert (N0 : rdp pat p <> Done 0) by congruence. lit. destruct a0 as [c q]. cbn [snd].
  apply literal_adv in H0. destruct H0 as [_ H0]. specialize (H0 N0). rd.
  pose proof (kk_rd _ _ _ H).
  destruct (a0 =? 45).
  - lit. destruct a1 as [c' q']. cbn [snd]. apply literal_adv in H3. destruct H3 as [H3 _].
    pose proof (kk_lt _ _ q' _ H ltac:(lia)). eapply set_le; [apply (IH (k - 1)%nat); lia|lia].
  - pose proof (kk_lt _ _ q _ H ltac:(lia)). eapply set_le; [apply (IH (k - 1)%nat); lia|lia].
Qed.

Lemma skip_set L pat : forall k p, (kk pat p <= k)%nat ->
  settled (2 * k + 2) (fun f => skip_atom f L pat p) /\
  forall alt, settled (2 * k + 3) (fun f => skip_until f L pat alt p).
Proof.
  induction k as [k IH] using lt_wf_ind; intros p Hk.
  assert (HA : settled (2 * k + 2) (fun f => skip_atom f L pat p)).
  { replace (2 * k + 2)%nat with (S (2 * k + 1)) by lia. apply set_S. cbn [skip_atom]. rd.
    pose proof (kk_rd _ _ _ H) as K2. pose proof (kk_lt _ _ (S p) _ H ltac:(lia)) as K1.
    destruct (IH (k - 1)%nat ltac:(lia) (S p) ltac:(lia)) as [HA HU].
    assert (LB : forall q, (p <= q)%nat -> settled (2 * k + 1) (fun f => rbind (label_at f pat q) (fun lb => Done (snd lb)))).
    { intros q Hq. eapply set_bind; [eapply set_le; [apply label_set|pose proof (kk_le pat p q Hq); lia]|].
      intros; apply set_done. }
    eapply set_bind with (g := fun f =>
      if a =? 92 then run lp <- literal_char pat p; Done (snd lp)
      else if a =? 91 then
         run c <- rdp pat (S p);
         let p1 := if c =? 94 then S (S p) else S p in
         run q <- skip_class f pat p1;
         run c <- rdp pat q;
         Done (if c =? 93 then S q else q)
       else if a =? 40 then
         run q <- skip_until f L pat false (S p);
         run c <- rdp pat q;
         Done (if c =? 0 then q else S q)
       else if a =? 124 then skip_until f L pat true (S p)
       else if (a =? 38) || (a =? 33) then skip_atom f L pat (S p)
       else if extended a then skip_extended f L pat p
       else Done (S p)).
    - destruct (a =? 92); [lit; apply set_done|].
      destruct (a =? 91).
      { rd. eapply set_bind.
        - eapply set_le; [apply skip_class_set, le_n|].
          pose proof (kk_le pat (S p) (S (S p))). destruct (_ =? 94); lia.
        - intros q f _. rd. apply set_done. }
      destruct (a =? 40).
      { eapply set_bind; [eapply set_le; [apply HU|lia]|]. intros q f _. rd. apply set_done. }
      destruct (a =? 124); [eapply set_le; [apply HU|lia]|].
      destruct (_ || _); [eapply set_le; [apply HA|lia]|].
      destruct (extended a); [eapply set_le; [apply skip_extended_set|lia]|apply set_done].
    - intros q f Hq. apply LB.
      destruct (Z.eqb_spec a 92) as [->|].
      { inv Hq. destruct a as [c y]. cbn [snd] in Hq. apply literal_adv in E. assert (y = q) by congruence. lia. }
      destruct (a =? 91).
      { inv Hq. apply skip_class_adv in E0. destruct (a0 =? 94), (a2 =? 93); assert (X := f_equal (fun z => match z with Done z => z | _ => O end) Hq); cbn in X; lia. }
      destruct (a =? 40).
      { inv Hq. apply skip_adv in E. destruct (a1 =? 0); assert (X := f_equal (fun z => match z with Done z => z | _ => O end) Hq); cbn in X; lia. }
      destruct (a =? 124); [apply skip_adv in Hq; lia|].
      destruct (_ || _); [apply skip_adv in Hq; lia|].
      destruct (extended a); [apply skip_extended_adv in Hq; lia|]. assert (S p = q) by congruence. lia. }
  split; [exact HA|]. intros alt. replace (2 * k + 3)%nat with (S (2 * k + 2)) by lia. apply set_S. cbn [skip_until]. rd.
  destruct (_ || _); [apply set_done|].
  pose proof (kk_rd _ _ _ H) as K2.
  eapply set_bind; [exact HA|]. intros q f Hq. apply skip_adv in Hq.
  pose proof (kk_lt _ _ q _ H ltac:(lia)) as K1.
  destruct (IH (k - 1)%nat ltac:(lia) q ltac:(lia)) as [_ HU]. eapply set_le; [apply HU|lia].
Qed.

Lemma skip_atom_set L pat p : settled (2 * kk pat p + 2) (fun f => skip_atom f L pat p).
Proof. apply (skip_set L pat (kk pat p) p). lia. Qed.

Lemma skip_alternates_set L pat : forall k p, (kk pat p <= k)%nat ->
  settled (2 * k + 3) (fun f => skip_alternates f L pat p).
Proof.
  induction k as [k IH] using lt_wf_ind; intros p Hk.
  replace (2 * k + 3)%nat with (S (2 * k + 2)) by lia. apply set_S. cbn [skip_alternates]. rd.
  destruct (a =? 124); [|apply set_done].
  eapply set_bind; [eapply set_le; [apply skip_atom_set|lia]|]. intros q f Hq. apply skip_adv in Hq.
  pose proof (kk_lt _ _ q _ H ltac:(lia)). pose proof (kk_rd _ _ _ H).
  eapply set_le; [apply (IH (k - 1)%nat); lia|lia].
Qed.

Lemma class_items_set pat : forall k p ch acc, (kk pat p <= k)%nat ->
  settled (S k) (fun f => class_items f pat p ch acc).
Proof.
  induction k as [k IH] using lt_wf_ind; intros p ch acc Hk. apply set_S. cbn [class_items]. rd.
  destruct (Z.eqb_spec a 0) as [->|N]; cbn [orb]; [apply set_done|].
  destruct (a =? 93); [apply set_done|]. rd.
  assert (N0 : rdp pat p <> Done 0) by congruence.
  pose proof (kk_rd _ _ _ H) as K2.
  assert (GO : forall q ch acc, (p < q)%nat -> settled k (fun f => class_items f pat q ch acc)).
  { intros q ch' acc' Hq. pose proof (kk_lt _ _ q _ H Hq). eapply set_le; [apply (IH (k - 1)%nat); lia|lia]. }
  eapply set_pure; [destruct (a =? 92); [apply ctype_nofuel|discriminate]|]. intros al _.
  destruct (_ && _).
  - eapply set_pure; [apply property_nofuel|]. intros [b q] Hb. cbn [fst snd].
    apply GO. eapply property_adv; eauto.
  - lit. destruct a1 as [c1 q]. cbv beta iota. apply literal_adv in H1. destruct H1 as [_ H1]. specialize (H1 N0). rd.
    destruct (_ =? 45); [|apply GO, H1]. lit. destruct a2 as [c2 q2]. cbv beta iota. apply literal_adv in H3.
    apply GO. lia.
Qed.

Lemma char_class_set pat p s : settled (S (S (kk pat p))) (fun f => char_class f pat p s).
Proof.
  unfold char_class. destruct (at_eof s); [apply set_done|]. rd.
  eapply set_pure; [apply get_nofuel|]. intros [c s1] _. cbv beta iota.
  eapply set_bind.
  - eapply set_le; [apply class_items_set, le_n|]. pose proof (kk_le pat p (S p)). destruct (_ =? 94); lia.
  - intros [acc q] f _. cbv beta iota. rd. apply set_done.
Qed.

Lemma match_literal_nofuel pat st : match_literal pat st <> NoFuel.
Proof.
  unfold match_literal. destruct st as [p s]. destruct (at_eof s); [discriminate|].
  destruct (rdp pat p) eqn:E; cbn [rbind]; [|discriminate|destruct (rdp_nofuel _ _ E)].
  destruct (get_char s) as [[c s1]| |] eqn:E1; cbn [rbind]; [|discriminate|destruct (get_nofuel _ E1)].
  destruct (_ =? _); discriminate.
Qed.

Lemma parse_call_set pat p : settled (S (kk pat p)) (fun f => parse_call f pat p).
Proof.
  unfold parse_call. cbv zeta. rd. destruct (a =? 58); [|apply set_done].
  eapply set_bind; [eapply set_le; [apply scan_set, le_n|]|].
  - pose proof (kk_le pat p (S (S p + find_brangle (skipn (S p) pat)))). lia.
  - intros q f _. rd. apply set_done.
Qed.

Lemma is_failure_nofuel pat a b : is_failure pat a b <> NoFuel.
Proof.
  unfold is_failure. destruct (rdp pat (fst a)) eqn:E; cbn [rbind]; [discriminate|discriminate|destruct (rdp_nofuel _ _ E)].
Qed.

Section Total.
Variables (L : lang) (P : policy) (M : nat).
Hypothesis HM : match L with
                | Plain => True
                | Gram rules => Forall (fun r => (length (r_pat r) <= M)%nat) rules
                end.

Definition nrules : nat := match L with Plain => O | Gram rules => length rules end.

(** Rules that could still be entered at this position. *)
Definition unused (ch : chain) (s : src) : nat :=
  length (filter (fun i => negb (left_recursive ch i s)) (List.seq 0 nrules)).

Definition idx (pat : list Z) (ch : chain) (p : nat) (s : src) : nat :=
  (len s * (nrules + 1) + unused ch s) * (M + 3) + kk pat p.

Lemma unused_le ch s : (unused ch s <= nrules)%nat.
Proof.
  unfold unused. rewrite <- (seq_length nrules 0) at 2.
  generalize (List.seq 0 nrules). induction l as [|x l IH]; cbn; [lia|].
  destruct (negb _); cbn; lia.
Qed.

Lemma left_recursive_len ch i s s' : len s' = len s -> left_recursive ch i s' = left_recursive ch i s.
Proof.
  intros E. induction ch as [|[r o] ch IH]; cbn [left_recursive]; [reflexivity|].
  unfold before. unfold len in E. rewrite E, IH. reflexivity.
Qed.

Lemma unused_len ch s s' : len s' = len s -> unused ch s' = unused ch s.
Proof.
  intros E. unfold unused. f_equal. apply filter_ext. intros i. rewrite (left_recursive_len ch i s s' E). reflexivity.
Qed.

Lemma filter_less {A} (f g : A -> bool) l x : (forall y, g y = true -> f y = true) ->
  In x l -> f x = true -> g x = false -> (length (filter g l) < length (filter f l))%nat.
Proof.
  intros H. induction l as [|y l IH]; [intros []|]. intros Hx Hf Hg. cbn.
  assert (LE : (length (filter g l) <= length (filter f l))%nat).
  { clear - H. induction l as [|z l IH]; cbn; [lia|]. specialize (H z). destruct (g z), (f z); cbn; try lia;
    specialize (H eq_refl); discriminate. }
  destruct Hx as [->|Hx].
  - rewrite Hf, Hg. cbn. lia.
  - specialize (IH Hx Hf Hg). specialize (H y). destruct (g y), (f y); cbn; try lia; specialize (H eq_refl); discriminate.
Qed.

Lemma unused_call ch i s : (i < nrules)%nat -> left_recursive ch i s = false ->
  (unused ((i, s) :: ch) s < unused ch s)%nat.
Proof.
  intros Hi Hl. unfold unused. apply (filter_less _ _ _ i).
  - intros j. cbn [left_recursive]. unfold before. rewrite Nat.ltb_irrefl.
    destruct (i =? j)%nat; cbn; [discriminate|]. auto.
  - apply in_seq. lia.
  - rewrite Hl. reflexivity.
  - cbn [left_recursive]. unfold before. rewrite Nat.ltb_irrefl, Nat.eqb_refl. reflexivity.
Qed.

Lemma kk_max pat p : (length pat <= M)%nat -> (kk pat p <= M + 2)%nat.
Proof. unfold kk. lia. Qed.

(** The order of the measure. *)
Lemma idx_input pat ch p s pat' ch' p' s' : (length pat' <= M)%nat -> (len s' < len s)%nat ->
  (idx pat' ch' p' s' < idx pat ch p s)%nat.
Proof.
  intros Hp Hs. unfold idx. pose proof (kk_max pat' p' Hp). pose proof (unused_le ch' s').
  assert (X : (len s' * (nrules + 1) + unused ch' s' + 1 <= len s * (nrules + 1) + unused ch s)%nat) by nia.
  nia.
Qed.

Lemma idx_unused pat ch p s pat' ch' p' s' : (length pat' <= M)%nat -> len s' = len s ->
  (unused ch' s' < unused ch s)%nat -> (idx pat' ch' p' s' < idx pat ch p s)%nat.
Proof.
  intros Hp Hs Hu. unfold idx. pose proof (kk_max pat' p' Hp). rewrite Hs.
  assert (X : (len s * (nrules + 1) + unused ch' s' + 1 <= len s * (nrules + 1) + unused ch s)%nat) by lia.
  nia.
Qed.

Lemma idx_pat pat ch p s p' s' : (length pat <= M)%nat -> (len s' <= len s)%nat ->
  (kk pat p' < kk pat p)%nat -> (idx pat ch p' s' < idx pat ch p s)%nat.
Proof.
  intros Hp Hs Hk. destruct (Nat.eq_dec (len s') (len s)) as [E|N]; [|apply idx_input; [exact Hp|lia]].
  unfold idx. rewrite E, (unused_len ch s s' E). lia.
Qed.

Definition H0 : nat := (2 * M + 20)%nat.
Definition bound (i rank : nat) : nat := (8 * i + H0 + rank)%nat.

Definition All (i : nat) (pat : list Z) (ch : chain) (p : nat) (s : src) : Prop :=
  (forall ini sp cx, (sp <= p)%nat -> settled (bound i 0) (fun f => alt_loop f L P pat ch ini p sp s cx)) /\
  (forall cx, settled (bound i 1) (fun f => match_switch f L P pat ch p s cx)) /\
  (forall cx, settled (bound i 2) (fun f => match_atom f L P pat ch (p, s) cx)) /\
  (forall once x cx, settled (bound i 3) (fun f => rep_loop f L P pat ch once p (x, s) cx)) /\
  (forall cx, settled (bound i 3) (fun f => seq_loop f L P pat ch (p, s) cx)) /\
  (forall cx, settled (bound i 3) (fun f => alt_atoms f L P pat ch (p, s) cx)) /\
  (forall cx, settled (bound i 4) (fun f => match_sequence f L P pat ch (p, s) cx)).

Lemma all_settled i : forall pat ch p s, (length pat <= M)%nat -> (idx pat ch p s <= i)%nat -> All i pat ch p s.
Proof.
  induction i as [i IH] using lt_wf_ind. intros pat ch p s Hpat Hi.
  pose proof (kk_max pat) as KM.
  (* helpers fit *)
  assert (HL : forall b q, (H0 - 4 <= b)%nat -> settled b (fun f => label_at f pat q)).
  { intros b q Hb. eapply set_le; [apply label_set|]. specialize (KM q Hpat). unfold H0 in *. lia. }
  assert (HSK : forall b q, (H0 - 4 <= b)%nat -> settled b (fun f => skip_atom f L pat q)).
  { intros b q Hb. eapply set_le; [apply skip_atom_set|]. specialize (KM q Hpat). unfold H0 in *. lia. }
  assert (HSA : forall b q, (H0 - 4 <= b)%nat -> settled b (fun f => skip_alternates f L pat q)).
  { intros b q Hb. eapply set_le; [apply skip_alternates_set, le_n|]. specialize (KM q Hpat). unfold H0 in *. lia. }
  assert (HCC : forall b q s, (H0 - 4 <= b)%nat -> settled b (fun f => char_class f pat q s)).
  { intros b q s' Hb. eapply set_le; [apply char_class_set|]. specialize (KM q Hpat). unfold H0 in *. lia. }
  assert (HPC : forall b q, (H0 - 4 <= b)%nat -> settled b (fun f => parse_call f pat q)).
  { intros b q Hb. eapply set_le; [apply parse_call_set|]. specialize (KM q Hpat). unfold H0 in *. lia. }
  (* later in the pattern, or less input *)
  assert (NX : forall c q s', rdp pat p = Done c -> (p < q)%nat -> (len s' <= len s)%nat -> All (i - 1) pat ch q s' /\ (1 <= i)%nat).
  { intros c q s' Hc Hq Hs'. pose proof (kk_lt _ _ q _ Hc Hq) as K.
    pose proof (idx_pat pat ch p s q s' Hpat Hs' K) as X. split; [|lia]. apply IH; [lia|exact Hpat|lia]. }
  assert (XA : forall ini sp cx, (sp <= p)%nat -> settled (bound i 0) (fun f => alt_loop f L P pat ch ini p sp s cx)).
  { intros ini sp cx Hsp. unfold bound. replace (8 * i + H0 + 0)%nat with (S (8 * i + H0 - 1)) by (unfold H0; lia).
    apply set_S. cbn [alt_loop]. rd. destruct (a =? 124); [|apply set_done].
    destruct (NX _ (S p) s H ltac:(lia) (le_n _)) as [(_ & _ & _ & _ & _ & HA & _) Hi1].
    eapply set_bind; [eapply set_le; [apply HA|unfold bound, H0; lia]|].
    intros [[ok [q s1]] cx1] f HE. cbv beta iota. apply mono in HE. destruct ok.
    - eapply set_bind; [apply HSA; unfold H0; lia|]. intros q' f' _. apply set_done.
    - eapply set_bind; [apply HSK; unfold H0; lia|]. intros q' f' Hq'. apply skip_adv in Hq'.
      destruct (NX _ q' s H ltac:(lia) (le_n _)) as [(HAL & _) _].
      eapply set_le; [apply HAL; lia|unfold bound, H0; lia]. }
  assert (XS : forall cx, settled (bound i 1) (fun f => match_switch f L P pat ch p s cx)).
  { intros cx. unfold bound. replace (8 * i + H0 + 1)%nat with (S (8 * i + H0)) by lia.
    apply set_S. cbn [match_switch]. rd.
    destruct (a =? 0); [apply set_done|]. destruct (a =? 41); [apply set_done|]. destruct (a =? 94); [apply set_done|].
    destruct (a =? 36).
    { destruct (at_eof s); [apply set_done|]. eapply set_pure; [apply get_nofuel|]. intros; apply set_done. }
    destruct (a =? 46).
    { destruct (at_eof s); [apply set_done|]. eapply set_pure; [apply get_nofuel|]. intros; apply set_done. }
    destruct (a =? 92).
    { destruct (at_eof s); [apply set_done|]. eapply set_pure; [apply get_nofuel|]. intros.
      eapply set_pure; [apply property_nofuel|]. intros; apply set_done. }
    destruct (a =? 91).
    { eapply set_bind; [apply HCC; unfold H0; lia|]. intros; apply set_done. }
    destruct ((a =? 63) || (a =? 42) || (a =? 43)).
    { destruct (NX _ (S p) s H ltac:(lia) (le_n _)) as [(_ & _ & HMA & _) Hi1].
      eapply set_bind with (g := fun f => if a =? 43 then match_atom f L P pat ch (S p, s) (if a =? 63 then cx else set_rep cx (S (c_rep cx)))
          else Done (true, (S p, s), if a =? 63 then cx else set_rep cx (S (c_rep cx)))).
      { destruct (a =? 43); [|apply set_done]. eapply set_le; [apply HMA|unfold bound, H0; lia]. }
      intros [[ok [q s1]] cx1] f HE. cbv beta iota.
      assert (W : ok = true -> (len s1 <= len s)%nat).
      { destruct (a =? 43).
        - apply mono in HE. intros ->. apply HE.
        - intros _. assert (s1 = s) by congruence. subst. lia. }
      eapply set_bind with (g := fun f => if ok then run sc <- rep_loop f L P pat ch (a =? 63) (S p) (q, s1) cx1; Done (true, fst sc, snd sc)
                                  else Done (false, (q, s1), cx1)).
      { destruct ok; [|apply set_done].
        destruct (NX _ (S p) s1 H ltac:(lia) (W eq_refl)) as [(_ & _ & _ & HRL & _) _].
        eapply set_bind; [eapply set_le; [apply HRL|unfold bound, H0; lia]|]. intros; apply set_done. }
      intros [[m st2] cx3] f' _. cbv beta iota. apply set_done. }
    destruct (a =? 40).
    { destruct (NX _ (S p) s H ltac:(lia) (le_n _)) as [(_ & _ & _ & _ & _ & _ & HMS) Hi1].
      eapply set_bind; [eapply set_le; [apply HMS|unfold bound, H0; lia]|].
      intros [[ok [q s1]] cx1] f HE. cbv beta iota. destruct ok; [|apply set_done]. rd. apply set_done. }
    destruct (a =? 124).
    { eapply set_le; [apply XA; lia|unfold bound; lia]. }
    destruct ((a =? 38) || (a =? 33)).
    { destruct (NX _ (S p) s H ltac:(lia) (le_n _)) as [(_ & _ & HMA & _) Hi1].
      eapply set_bind; [eapply set_le; [apply HMA|unfold bound, H0; lia]|].
      intros [[m st1] cx1] f HE. cbv beta iota zeta.
      destruct (if a =? 33 then negb m else m); [|apply set_done].
      eapply set_bind; [apply HSK; unfold H0; lia|]. intros; apply set_done. }
    destruct (extended a).
    2:{ destruct (at_eof s); [apply set_done|]. eapply set_pure; [apply get_nofuel|]. intros; apply set_done. }
    destruct L as [|rules] eqn:EL.
    { eapply set_pure; [apply match_literal_nofuel|]. intros; apply set_done. }
    destruct (negb (a =? 60)).
    { eapply set_pure; [apply match_literal_nofuel|]. intros; apply set_done. }
    eapply set_bind; [apply HPC; unfold H0; lia|]. intros [[rn lb] ce] f _. cbv beta iota.
    destruct (lookup rules (skipn rn pat)) as [j|]; [|apply set_done].
    destruct (nth_error rules j) as [sr|] eqn:Ej; [|apply set_const; discriminate]. cbv zeta.
    eapply set_bind.
    - destruct (left_recursive ch j s) eqn:LR.
      { eapply set_pure; [apply is_failure_nofuel|]. intros; apply set_done. }
      assert (Hj : (j < nrules)%nat) by (unfold nrules; rewrite EL; apply nth_error_Some; congruence).
      assert (Hsr : (length (r_pat sr) <= M)%nat).
      { rewrite Forall_forall in HM. apply HM. eapply nth_error_In; eauto. }
      pose proof (unused_call ch j s Hj LR) as HU.
      pose proof (idx_unused pat ch p s (r_pat sr) ((j, s) :: ch) 0 s Hsr eq_refl HU) as X.
      destruct (IH (i - 1)%nat ltac:(lia) (r_pat sr) ((j, s) :: ch) 0%nat s Hsr ltac:(lia)) as (_ & _ & _ & _ & _ & _ & HMS).
      rewrite EL in HMS.
      eapply set_bind; [eapply set_le; [apply HMS|unfold bound, H0; lia]|].
      intros [[ok [q s1]] cx1] f' HE. cbv beta iota. rd.
      destruct (_ && _); (eapply set_pure; [apply is_failure_nofuel|]; intros; apply set_done).
    - intros [[fl s1] scx1] f' _. cbv beta iota. destruct fl; [apply set_done|].
      destruct (match lb with Some (lp, nm) => _ | None => _ end) as [lk ln]. cbv beta iota.
      destruct ch as [|[cur o] ch']; [apply set_const; discriminate|].
      destruct (nth_error rules cur); [apply set_done|apply set_const; discriminate]. }
  assert (XM : forall cx, settled (bound i 2) (fun f => match_atom f L P pat ch (p, s) cx)).
  { intros cx. unfold bound. replace (8 * i + H0 + 2)%nat with (S (8 * i + H0 + 1)) by lia.
    apply set_S. cbn [match_atom]. eapply set_bind; [apply XS|].
    intros [[[m [q s1]] cx1] sp] f _. cbv beta iota. destruct m; [|apply set_done].
    eapply set_bind; [apply HL; unfold H0; lia|]. intros [lb q'] f' _. cbn [fst snd]. destruct lb; apply set_done. }
  assert (XR : forall once x cx, settled (bound i 3) (fun f => rep_loop f L P pat ch once p (x, s) cx)).
  { intros once x cx. unfold bound. replace (8 * i + H0 + 3)%nat with (S (8 * i + H0 + 2)) by lia.
    apply set_S. cbn [rep_loop snd]. eapply set_bind; [apply XM|].
    intros [[ok [q s1]] cx1] f HE. cbv beta iota. apply mono in HE. cbn [fst snd]. destruct ok.
    - destruct (same s1 s) eqn:ES; [apply set_done|]. destruct once; [apply set_done|].
      assert (Hlt : (len s1 < len s)%nat).
      { unfold same in ES. apply Nat.eqb_neq in ES. unfold len in *. lia. }
      pose proof (idx_input pat ch p s pat ch p s1 Hpat Hlt) as X.
      destruct (IH (i - 1)%nat ltac:(lia) pat ch p s1 Hpat ltac:(lia)) as (_ & _ & _ & HRL & _).
      eapply set_le; [apply HRL|unfold bound, H0; lia].
    - eapply set_bind; [apply HSK; unfold H0; lia|]. intros; apply set_done. }
  assert (XL : forall cx, settled (bound i 3) (fun f => seq_loop f L P pat ch (p, s) cx)).
  { intros cx. unfold bound. replace (8 * i + H0 + 3)%nat with (S (8 * i + H0 + 2)) by lia.
    apply set_S. cbn [seq_loop fst]. unfold at_expr_end.
    eapply set_pure; [destruct (rdp pat p) eqn:E; cbn; [discriminate|discriminate|destruct (rdp_nofuel _ _ E)]|].
    intros e He. inv He. destruct e; [apply set_done|].
    eapply set_bind; [apply XM|]. intros [[ok [q s1]] cx1] f HE. cbv beta iota. destruct ok; [|apply set_done].
    apply mono in HE. destruct HE as [H1 H2].
    destruct H2 as [H2|[H2 _]].
    - destruct (NX _ q s1 E H2 H1) as [(_ & _ & _ & _ & HSL & _) Hi1]. eapply set_le; [apply HSL|unfold bound, H0; lia].
    - assert (a = 0) by congruence. subst a. discriminate. }
  assert (XT : forall cx, settled (bound i 3) (fun f => alt_atoms f L P pat ch (p, s) cx)).
  { intros cx. unfold bound. replace (8 * i + H0 + 3)%nat with (S (8 * i + H0 + 2)) by lia.
    apply set_S. cbn [alt_atoms].
    eapply set_bind; [apply XM|]. intros [[ok [q s1]] cx1] f HE. cbv beta iota. destruct ok; [|apply set_done].
    cbn [fst]. rd. destruct (_ || _) eqn:EO; [apply set_done|].
    assert (NP : exists c, rdp pat p = Done c).
    { destruct (rdp pat p) eqn:E; [eauto| |destruct (rdp_nofuel _ _ E)].
      exfalso. destruct f as [|f]; [discriminate|]. cbn [match_atom] in HE. inv HE.
      destruct f as [|f]; [discriminate|]. cbn [match_switch] in E0. rewrite E in E0. discriminate. }
    destruct NP as [c Hc].
    apply mono in HE. destruct HE as [H1 H2].
    destruct H2 as [H2|[H2 ->]].
    - destruct (NX _ q s1 Hc H2 H1) as [(_ & _ & _ & _ & _ & HAA & _) Hi1]. eapply set_le; [apply HAA|unfold bound, H0; lia].
    - assert (a = 0) by congruence. subst a. discriminate. }
  unfold All. split; [exact XA|]. split; [exact XS|]. split; [exact XM|]. split; [exact XR|].
  split; [exact XL|]. split; [exact XT|].
  intros cx. unfold bound. replace (8 * i + H0 + 4)%nat with (S (8 * i + H0 + 3)) by lia.
  apply set_S. cbn [match_sequence]. eapply set_bind; [apply XL|].
  intros [[ok st1] cx1] f _. cbv beta iota. apply set_done.
Qed.
End Total.
