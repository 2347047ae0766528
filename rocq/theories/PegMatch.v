(** The matcher does what the meaning of a spelled expression says. *)
From Coq Require Import Sorting.Sorted.
From Verif Require Import Base UTF8Model UTF8Spec UTF8Proofs PegModel PegSpec PegText PegSrc PegEval PegSkip.

(** ** One step of the switch, by the character it finds *)
Section Steps.
Variables (L : lang) (P : policy) (pat : list Z) (ch : chain) (p : nat) (s0 : src) (cx : ctx).

Lemma sw_bol f : rdp pat p = Done 94 ->
  match_switch (S f) L P pat ch p s0 cx = Done (at_bol s0, (S p, s0), cx, p).
Proof. intros H. cbn [match_switch]. rewrite H. reflexivity. Qed.

Lemma sw_eol f : rdp pat p = Done 36 ->
  match_switch (S f) L P pat ch p s0 cx =
    if at_eof s0 then Done (true, (S p, s0), cx, p)
    else run cs <- get_char s0; Done (fst cs =? 10, (S p, s0), cx, p).
Proof. intros H. cbn [match_switch]. rewrite H. reflexivity. Qed.

Lemma sw_any f : rdp pat p = Done 46 ->
  match_switch (S f) L P pat ch p s0 cx =
    if at_eof s0 then Done (false, (S p, s0), cx, p)
    else run cs <- get_char s0; Done (true, (S p, snd cs), cx, p).
Proof. intros H. cbn [match_switch]. rewrite H. reflexivity. Qed.

Lemma sw_escape f : rdp pat p = Done 92 ->
  match_switch (S f) L P pat ch p s0 cx =
    if at_eof s0 then Done (false, (S p, s0), cx, p)
    else run cs <- get_char s0;
         run bp <- char_property pat (S p) (fst cs);
         Done (fst bp, (snd bp, snd cs), cx, p).
Proof. intros H. cbn [match_switch]. rewrite H. reflexivity. Qed.

Lemma sw_class f : rdp pat p = Done 91 ->
  match_switch (S f) L P pat ch p s0 cx =
    run bs <- char_class f pat (S p) s0; Done (fst bs, snd bs, cx, p).
Proof. intros H. cbn [match_switch]. rewrite H. reflexivity. Qed.

Lemma sw_opt f : rdp pat p = Done 63 ->
  match_switch (S f) L P pat ch p s0 cx =
    run sc <- rep_loop f L P pat ch true (S p) (S p, s0) cx;
    Done (true, fst sc, snd sc, p).
Proof.
  intros H. cbn [match_switch]. rewrite H. cbn [rbind]. change (63 =? 0) with false.
  change (63 =? 41) with false. change (63 =? 94) with false. change (63 =? 36) with false.
  change (63 =? 46) with false. change (63 =? 92) with false. change (63 =? 91) with false.
  change (63 =? 63) with true. change (63 =? 43) with false. cbv zeta. cbn [orb]. cbv iota. cbn [rbind].
  cbv iota beta. destruct (rep_loop f L P pat ch true (S p) (S p, s0) cx) as [[a b]| |]; reflexivity.
Qed.

Lemma sw_star f : rdp pat p = Done 42 ->
  match_switch (S f) L P pat ch p s0 cx =
    run sc <- rep_loop f L P pat ch false (S p) (S p, s0) (set_rep cx (S (c_rep cx)));
    Done (true, fst sc, set_rep (snd sc) (c_rep (snd sc) - 1), p).
Proof.
  intros H. cbn [match_switch]. rewrite H. cbn [rbind]. change (42 =? 0) with false.
  change (42 =? 41) with false. change (42 =? 94) with false. change (42 =? 36) with false.
  change (42 =? 46) with false. change (42 =? 92) with false. change (42 =? 91) with false.
  change (42 =? 63) with false. change (42 =? 42) with true.
  change (42 =? 43) with false. cbv zeta. cbn [orb]. cbv iota. cbn [rbind].
  cbv iota beta. destruct (rep_loop f L P pat ch false (S p) (S p, s0) _) as [[a b]| |]; reflexivity.
Qed.

Lemma sw_plus f : rdp pat p = Done 43 ->
  match_switch (S f) L P pat ch p s0 cx =
    run r1 <- match_atom f L P pat ch (S p, s0) (set_rep cx (S (c_rep cx)));
    let '(ok, st1, cx2) := r1 in
    if ok then
      run sc <- rep_loop f L P pat ch false (S p) st1 cx2;
      Done (true, fst sc, set_rep (snd sc) (c_rep (snd sc) - 1), p)
    else Done (false, st1, set_rep cx2 (c_rep cx2 - 1), p).
Proof.
  intros H. cbn [match_switch]. rewrite H. cbn [rbind]. change (43 =? 0) with false.
  change (43 =? 41) with false. change (43 =? 94) with false. change (43 =? 36) with false.
  change (43 =? 46) with false. change (43 =? 92) with false. change (43 =? 91) with false.
  change (43 =? 63) with false. change (43 =? 42) with false.
  change (43 =? 43) with true. cbv zeta. cbn [orb]. cbv iota.
  destruct (match_atom f L P pat ch (S p, s0) _) as [[[[] a] b]| |]; cbn [rbind]; cbv iota beta; try reflexivity.
  destruct (rep_loop f L P pat ch false (S p) a b) as [[x y]| |]; reflexivity.
Qed.

Lemma sw_group f : rdp pat p = Done 40 ->
  match_switch (S f) L P pat ch p s0 cx =
    run r1 <- match_sequence f L P pat ch (S p, s0) cx;
    let '(ok, (q, s1), cx1) := r1 in
    if ok then run c <- rdp pat q; Done (true, (if c =? 0 then q else S q, s1), cx1, p)
    else Done (false, (q, s1), cx1, p).
Proof. intros H. cbn [match_switch]. rewrite H. reflexivity. Qed.

Lemma sw_alt f : rdp pat p = Done 124 ->
  match_switch (S f) L P pat ch p s0 cx = alt_loop f L P pat ch (count cx) p p s0 cx.
Proof. intros H. cbn [match_switch]. rewrite H. reflexivity. Qed.

Lemma sw_ahead f c : rdp pat p = Done c -> c = 38 \/ c = 33 ->
  match_switch (S f) L P pat ch p s0 cx =
    run r1 <- match_atom f L P pat ch (S p, s0) (set_dis cx (S (c_dis cx)));
    let '(m, _, cx1) := r1 in
    let cx1 := set_dis cx1 (c_dis cx1 - 1) in
    if (if c =? 33 then negb m else m) then run q <- skip_atom f L pat p; Done (true, (q, s0), cx1, p)
    else Done (false, (p, s0), cx1, p).
Proof. intros H [-> | ->]; cbn [match_switch]; rewrite H; reflexivity. Qed.

Lemma sw_plain_eq f c : rdp pat p = Done c -> ~ In c (0 :: operators) ->
  (c = 60 -> L = Plain) -> 0 <= c <= 127 ->
  match_switch (S f) L P pat ch p s0 cx =
    if at_eof s0 then Done (false, (if extended c then p else S p, s0), cx, p)
    else run cs <- get_char s0;
         Done (fst cs =? c, (if fst cs =? c then S p else if extended c then p else S p, snd cs), cx, p).
Proof.
  intros H N Nc Hc. unfold operators in N. cbn in N.
  assert (E : forall x, x <> c -> (c =? x) = false) by (intros; apply Z.eqb_neq; congruence).
  assert (S1 : match_switch (S f) L P pat ch p s0 cx =
    if extended c then run r1 <- match_literal pat (p, s0); Done (fst r1, snd r1, cx, p)
    else if at_eof s0 then Done (false, (S p, s0), cx, p)
       else run cs <- get_char s0; Done (u32 c =? fst cs, (S p, snd cs), cx, p)).
  { cbn [match_switch]. rewrite H. cbn [rbind]. cbv zeta.
    rewrite (E 0), (E 41), (E 94), (E 36), (E 46), (E 92), (E 91), (E 63), (E 42), (E 43), (E 40), (E 124),
      (E 38), (E 33) by lia. cbn [orb]. cbv iota.
    destruct (extended c) eqn:X; [|reflexivity].
    destruct L; [reflexivity|]. rewrite (E 60); [reflexivity|]. intros X1. symmetry in X1. apply Nc in X1. discriminate. }
  rewrite S1. destruct (extended c).
  - unfold match_literal. destruct (at_eof s0); [reflexivity|].
    rewrite H. cbn [rbind]. destruct (get_char s0) as [[x y]| |]; cbn [rbind fst snd]; try reflexivity.
    rewrite (u32_id c) by lia. rewrite (Z.eqb_sym x c). destruct (c =? x); reflexivity.
  - destruct (at_eof s0); [reflexivity|].
    destruct (get_char s0) as [[x y]| |]; cbn [rbind fst snd]; try reflexivity.
    rewrite (u32_id c) by lia. rewrite (Z.eqb_sym x c). destruct (c =? x); reflexivity.
Qed.
End Steps.

(** ** Names and captures *)

Definition prefix (a b : list Z) : Prop := exists t, b = a ++ t.

Lemma strncmp_prefix c : Forall (fun x => 0 < x) c -> forall key,
  (strncmp key c =? 0) = true <-> prefix c key.
Proof.
  induction 1 as [|x c Hx _ IH]; intros key.
  - split; [intros _; exists key; reflexivity|destruct key; reflexivity].
  - destruct key as [|k key]; cbn [strncmp].
    + split; [rewrite Z.eqb_eq; lia|intros [t Ht]; discriminate].
    + destruct (Z.eqb_spec k x) as [->|N].
      * rewrite IH. split; intros [t Ht].
        -- exists t. cbn. congruence.
        -- exists t. cbn in Ht. congruence.
      * split; [rewrite Z.eqb_eq; lia|]. intros [t Ht]. cbn in Ht. congruence.
Qed.

Lemma namech_pos c : Forall namech c -> Forall (fun x => 0 < x) c.
Proof. apply Forall_impl. unfold namech, letter. lia. Qed.

(** The labels that the calls of an expression use. *)
Fixpoint used (e : pe) : list (list Z) :=
  match e with
  | Bol | Eol | Char _ | Eps => []
  | Opt e | Star e | Plus e | Group e | Ahead e | Not e | Label e _ => used e
  | Seq a b | Or a b => used a ++ used b
  | Call name lb => [match lb with Some x => x | None => name end]
  end.

(** The captured names [w] are names, and none is a proper beginning of a used
    label. *)
Definition calls_ok (w : list (list Z)) (e : pe) : Prop :=
  Forall (Forall namech) w /\
  forall c lb, In c w -> In lb (used e) -> prefix c lb -> c = lb.

Lemma calls_ok_sub w e e' : incl (used e') (used e) -> calls_ok w e -> calls_ok w e'.
Proof. intros H [A B]. split; auto. Qed.

Lemma mem_in x l : mem x l = true <-> In x l.
Proof.
  unfold mem. rewrite existsb_exists. split.
  - intros (y & Hy & E). destruct (list_eq_dec Z.eq_dec x y); [congruence|discriminate].
  - intros H. exists x. split; [exact H|]. destruct (list_eq_dec Z.eq_dec x x); congruence.
Qed.

Lemma prefix_name c lb r : Forall namech c -> Forall namech lb -> not_first namech r ->
  prefix c (lb ++ r) -> prefix c lb.
Proof.
  intros Hc. revert lb. induction Hc as [|x c Hx Hc IH]; intros lb Hl N [t Ht].
  - exists lb. reflexivity.
  - destruct lb as [|y lb]; cbn in Ht.
    + subst r. cbn in N. contradiction.
    + apply Forall_cons_iff in Hl. destruct Hl as [_ Hl].
      destruct (IH lb Hl N) as [t' Ht']; [exists t; congruence|].
      exists t'. cbn. congruence.
Qed.

Lemma captured_ok r lb k e : calls_ok (r_captures r) e -> In lb (used e) ->
  Forall namech lb -> not_first namech k -> is_captured r (lb ++ k) = mem lb (r_captures r).
Proof.
  intros [Hw Hp] Hu Hl Nk. apply Bool.eq_iff_eq_true. rewrite mem_in. unfold is_captured.
  rewrite existsb_exists. split.
  - intros (c & Hc & E).
    assert (Hn : Forall namech c) by (rewrite Forall_forall in Hw; auto).
    apply strncmp_prefix in E; [|apply namech_pos, Hn].
    assert (c = lb) by (apply Hp; auto; apply (prefix_name c lb k); auto). congruence.
  - intros H. exists lb. split; [exact H|]. apply strncmp_prefix; [apply namech_pos, Hl|exists k; reflexivity].
Qed.

Lemma find_brangle_name name : Forall namech name -> forall t, find_brangle (name ++ 62 :: t) = S (length name).
Proof.
  induction 1 as [|c name Hc _ IH]; intros t; cbn; [reflexivity|].
  unfold namech, letter in Hc. rewrite (proj2 (Z.eqb_neq c 62)) by lia. rewrite IH. reflexivity.
Qed.

(** ** The refinement *)
Section Match.
Variables (D : dialect) (L : lang) (P : policy) (G : grammar) (keep : sval -> bool) (tx cs : list Z).
Variable C : Prop.   (* whether the claims are about captures too *)

Notation peval := (peval G keep cs).
Notation sn := (snth tx).

Fixpoint vof (v : sval) : value :=
  match v with
  | SText i j => text_value (sn i) (sn j)
  | SNode l => VNode (map (fun x => let '(nm, v, b) := x in (nm, vof v, b)) l)
  end.
Definition vcaps (l : list scap) : list cap := map (fun x => let '(nm, v, b) := x in (nm, vof v, b)) l.

Definition grammar_ok (rules : list rule) : Prop := forall name t, Forall namech name ->
  match assoc G name with
  | None => lookup rules (name ++ 62 :: t) = None
  | Some (e, w) => exists i r,
      lookup rules (name ++ 62 :: t) = Some i /\ nth_error rules i = Some r /\ r_name r = name /\
      r_captures r = w /\ Forall ascii (r_pat r) /\ spells D e (r_pat r) /\ (C -> calls_ok w e)
  end.

Hypothesis HL : lang_ok D L.
Hypothesis HD : d_kinds D = true -> Forall (fun c => 0 <= c <= 255) cs.
Hypothesis Htx : textb tx.
Hypothesis Hcs : decode_all tx = Ok cs.
Hypothesis HG : match L with Plain => True | Gram rules => grammar_ok rules /\ NoDup (map r_name rules) end.
Hypothesis Hroll : C -> forall a b, pol_roll P (a ++ b) (length a) = (a, false) \/
                                    snd (pol_roll P (a ++ b) (length a)) = true.
Hypothesis Hkeep_text : C -> forall i j, (i <= j)%nat -> (j <= length cs)%nat ->
  pol_keep P (text_value (sn i) (sn j)) = keep (SText i j).
Hypothesis Hkeep_node : C -> forall l, l <> [] -> pol_keep P (VNode (vcaps l)) = keep (SNode l).
Hypothesis Hlabel : C -> d_labels D = true -> forall b l x y, pol_text P b l x y = text_value x y.
Hypothesis Hcall : C -> d_calls D = true -> forall l x y,
  pol_text P false l x y = match l with [] => text_value x y | _ => VNode l end.

Definition cxgrow (cx cx' : ctx) : Prop :=
  c_dis cx' = c_dis cx /\ c_rep cx' = c_rep cx /\ (c_msgs cx <= c_msgs cx')%nat /\
  (C -> c_msgs cx' = c_msgs cx -> exists x, c_caps cx' = c_caps cx ++ x).
Definition cxok (cx cx' : ctx) (l : list scap) : Prop :=
  c_dis cx' = c_dis cx /\ c_rep cx' = c_rep cx /\ (c_msgs cx <= c_msgs cx')%nat /\
  (C -> c_msgs cx' = c_msgs cx ->
   c_caps cx' = c_caps cx ++ (if (c_dis cx =? 0)%nat then vcaps l else [])).

Lemma ok_grow cx cx' l : cxok cx cx' l -> cxgrow cx cx'.
Proof. intros (A & B & E & F). repeat split; auto. intros H1 H2. eexists. apply F; auto. Qed.

Lemma ok_refl cx : cxok cx cx [].
Proof. repeat split; auto. intros _ _. destruct (c_dis cx =? 0)%nat; rewrite app_nil_r; reflexivity. Qed.

Lemma ok_trans a b c l l' : cxok a b l -> cxok b c l' -> cxok a c (l ++ l').
Proof.
  intros (A & B & E & F) (A' & B' & E' & F'). repeat split; try congruence; try lia.
  intros H1 H2. rewrite F', F by (auto; lia). rewrite A.
  destruct (c_dis a =? 0)%nat; [unfold vcaps; rewrite map_app, app_assoc|rewrite !app_nil_r]; reflexivity.
Qed.

Lemma ok_grow_trans a b c l : cxok a b l -> cxgrow b c -> cxgrow a c.
Proof.
  intros (A & B & E & F) (A' & B' & E' & F'). repeat split; try congruence; try lia.
  intros H1 H2. destruct (F' H1 ltac:(lia)) as [x Hx]. rewrite Hx, F by (auto; lia).
  rewrite <- app_assoc. eexists. reflexivity.
Qed.

Lemma roll_ok cx cx' : cxgrow cx cx' -> cxok cx (roll P cx' (count cx)) [].
Proof.
  intros (A & B & E & F). unfold roll, count.
  destruct (pol_roll P (c_caps cx') (length (c_caps cx))) as [l m] eqn:R.
  repeat split; cbn [c_dis c_rep c_msgs c_caps]; auto; [destruct m; lia|].
  intros H1 H2. destruct m; [lia|].
  destruct (F H1 H2) as [x Hx]. rewrite Hx in R.
  destruct (Hroll H1 (c_caps cx) x) as [X|X]; rewrite R in X; [|discriminate].
  assert (l = c_caps cx) by congruence. subst l. destruct (c_dis cx =? 0)%nat; rewrite app_nil_r; reflexivity.
Qed.

Lemma ok_dis cx cx' l : cxok (set_dis cx (S (c_dis cx))) cx' l ->
  cxok cx (set_dis cx' (c_dis cx' - 1)) [].
Proof.
  intros (A & B & E & F). cbn [set_dis c_dis c_rep c_msgs c_caps] in *.
  repeat split; cbn [set_dis c_dis c_rep c_msgs c_caps]; auto; [rewrite A; lia|].
  intros H1 H2. rewrite F by auto. cbn. destruct (c_dis cx =? 0)%nat; reflexivity.
Qed.

Lemma ok_rep cx cx' l : cxok (set_rep cx (S (c_rep cx))) cx' l ->
  cxok cx (set_rep cx' (c_rep cx' - 1)) l.
Proof.
  intros (A & B & E & F). cbn [set_rep c_dis c_rep c_msgs c_caps] in *.
  repeat split; cbn [set_rep c_dis c_rep c_msgs c_caps]; auto. rewrite B; lia.
Qed.

(** The chain of rules being matched at position [n], and the list of [w]. *)
Definition entry_ok (rules : list rule) (x : nat * src) (a : list Z * nat) : Prop :=
  snd x = sn (snd a) /\ exists r, nth_error rules (fst x) = Some r /\ r_name r = fst a.

Definition chain_ok (n : nat) (w : env) (ch : chain) : Prop :=
  match L with
  | Plain => True
  | Gram rules => exists acts, active w = Some acts /\
    (exists cur o rest r, ch = (cur, o) :: rest /\ nth_error rules cur = Some r /\ r_captures r = wanted w) /\
    Forall2 (entry_ok rules) ch acts /\
    StronglySorted (fun a b => (b <= a)%nat) (n :: map snd acts)
  end.

(** A rule that calls another one has a pattern. *)
Definition chain_full (ch : chain) : Prop :=
  match L with
  | Plain => True
  | Gram rules => Forall (fun x => forall r, nth_error rules (fst x) = Some r -> r_pat r <> []) ch
  end.

Lemma chain_mono n n' w ch : (n <= n')%nat -> chain_ok n w ch -> chain_ok n' w ch.
Proof.
  intros Hn. unfold chain_ok. destruct L; [auto|]. intros (acts & A & B & E & S). exists acts.
  split; [exact A|]. split; [exact B|]. split; [exact E|]. apply StronglySorted_inv in S. destruct S as [S F].
  constructor; [exact S|]. eapply Forall_impl; [|exact F]. cbn. lia.
Qed.

Lemma left_recursive_spec rules i r n : (n <= length cs)%nat -> NoDup (map r_name rules) ->
  nth_error rules i = Some r -> forall ch acts, Forall2 (entry_ok rules) ch acts ->
  StronglySorted (fun a b => (b <= a)%nat) (n :: map snd acts) ->
  left_recursive ch i (sn n) = if in_dec act_dec (r_name r, n) acts then true else false.
Proof.
  intros Hn Hd Hi. induction 1 as [|[i' o] [name' n'] ch acts (E & r' & Hr' & Nr') _ IH]; intros S; [reflexivity|].
  cbn [left_recursive fst snd map] in *. subst o. apply StronglySorted_inv in S. destruct S as [S F].
  apply Forall_cons_iff in F. destruct F as [F1 F].
  rewrite (snth_before tx cs Htx Hcs) by lia. destruct (Nat.ltb_spec n' n) as [Lt|Ge].
  - destruct (in_dec act_dec (r_name r, n) ((name', n') :: acts)) as [I|I]; [|reflexivity]. exfalso. cbn in I. destruct I as [I|I]; [injection I as _ I; lia|].
    apply StronglySorted_inv in S. destruct S as [_ S]. rewrite Forall_forall in S.
    specialize (S n (in_map snd _ _ I)). lia.
  - assert (n' = n) by lia. subst n'. destruct (Nat.eqb_spec i' i) as [->|N].
    + assert (r' = r) by congruence. subst r'. destruct (in_dec act_dec (r_name r, n) ((name', n) :: acts)) as [I|I]; [reflexivity|].
      exfalso. apply I. left. congruence.
    + assert (Nn : name' <> r_name r).
      { intros X. apply N. assert (Li : (i' < length rules)%nat) by (apply nth_error_Some; congruence).
        apply (proj1 (NoDup_nth_error (map r_name rules)) Hd); [rewrite map_length; exact Li|].
        rewrite !nth_error_map, Hr', Hi. cbn. congruence. }
      rewrite IH by (constructor; [apply StronglySorted_inv in S; apply S|exact F]).
      destruct (in_dec act_dec (r_name r, n) acts) as [I|I], (in_dec act_dec (r_name r, n) ((name', n) :: acts)) as [J|J];
        try reflexivity.
      * exfalso. apply J. right. exact I.
      * exfalso. destruct J as [J|J]; [congruence|contradiction].
Qed.

Lemma left_recursive_in ch i s : left_recursive ch i s = true -> exists o, In (i, o) ch.
Proof.
  induction ch as [|[i' o] ch IH]; cbn [left_recursive]; [discriminate|]. destruct (before o s); [discriminate|].
  destruct (Nat.eqb_spec i' i) as [->|N]; [exists o; left; reflexivity|]. intros H. destruct (IH H) as [o' I]. exists o'. right. exact I.
Qed.

(** *** The claims, at height [h] *)
Definition pre (h : nat) (pat : list Z) (p : nat) (ch : chain) (w : env) (e : pe) (n : nat) (s : list Z) : Prop :=
  At pat p s /\ (n <= length cs)%nat /\ chain_ok n w ch /\ (C -> calls_ok (wanted w) e) /\
  (used e <> [] -> chain_full ch).

Definition rp (cx : ctx) : bool := (0 <? c_rep cx)%nat.

(** bare: the switch. *)
Definition BareRun (h : nat) : Prop := forall e s t, bare D e s t ->
  forall pat p ch w n cx r, pre h pat p ch w e n s -> peval h w (rp cx) e n = Some r ->
  match r with
  | Some (m, l) => exists q cx', At pat q t /\ cxok cx cx' l /\
      evt (fun f => match_switch f L P pat ch p (sn n) cx) (true, (q, sn m), cx', p)
  | None => exists st' cx', cxgrow cx cx' /\
      evt (fun f => match_switch f L P pat ch p (sn n) cx) (false, st', cx', p)
  end.

Definition atom_run (h : nat) (e : pe) (s t : list Z) : Prop :=
  forall pat p ch w n cx r, pre h pat p ch w e n s -> peval h w (rp cx) e n = Some r ->
  match r with
  | Some (m, l) => exists q cx', At pat q t /\ cxok cx cx' l /\
      evt (fun f => match_atom f L P pat ch (p, sn n) cx) (true, (q, sn m), cx')
  | None => exists cx', cxok cx cx' [] /\
      evt (fun f => match_atom f L P pat ch (p, sn n) cx) (false, (p, sn n), cx')
  end.
Definition PrimRun (h : nat) : Prop := forall e s t, prim D e s t -> atom_run h e s t.
Definition AtomRun (h : nat) : Prop := forall e s t, atom D e s t -> atom_run h e s t.

Definition RepRun (h : nat) : Prop := forall e s t, prim D e s t ->
  forall pat p ch w n cx m l x b, pre h pat p ch w e n s -> rp cx = true ->
  peval h w b (Star e) n = Some (Some (m, l)) ->
  exists q cx', At pat q t /\ cxok cx cx' l /\
    evt (fun f => rep_loop f L P pat ch false p (x, sn n) cx) ((q, sn m), cx').

Definition BranchRun (h : nat) : Prop := forall e s t, branch D e s t -> ends t \/ first t = 124 ->
  forall pat p ch w n cx r, pre h pat p ch w e n s -> peval h w (rp cx) e n = Some r ->
  match r with
  | Some (m, l) => exists q cx', At pat q t /\ cxok cx cx' l /\
      evt (fun f => alt_atoms f L P pat ch (p, sn n) cx) (true, (q, sn m), cx')
  | None => exists st' cx', cxgrow cx cx' /\
      evt (fun f => alt_atoms f L P pat ch (p, sn n) cx) (false, st', cx')
  end.

Definition AltsRun (h : nat) : Prop := forall e s t, alts D e s t ->
  forall pat p ch w n cx cx0 sp r, pre h pat p ch w e n s -> cxok cx0 cx [] ->
  peval h w (rp cx) e n = Some r ->
  match r with
  | Some (m, l) => exists q cx' sp', At pat q t /\ cxok cx0 cx' l /\
      evt (fun f => alt_loop f L P pat ch (count cx0) p sp (sn n) cx) (true, (q, sn m), cx', sp')
  | None => exists sp' st' cx', cxok cx0 cx' [] /\ (exists s', At pat sp' s' /\ first s' <> 0) /\
      evt (fun f => alt_loop f L P pat ch (count cx0) p sp (sn n) cx) (false, st', cx', sp')
  end.

Definition ExprRun (h : nat) : Prop := forall e s t, expr D e s t ->
  forall pat p ch w n cx r, pre h pat p ch w e n s -> peval h w (rp cx) e n = Some r ->
  match r with
  | Some (m, l) => exists q cx', At pat q t /\ cxok cx cx' l /\
      evt (fun f => seq_loop f L P pat ch (p, sn n) cx) (true, (q, sn m), cx')
  | None => exists q s1 cx', cxgrow cx cx' /\ (exists s', At pat q s' /\ first s' <> 0) /\
      evt (fun f => seq_loop f L P pat ch (p, sn n) cx) (false, (q, s1), cx')
  end.


Definition Below (h : nat) : Prop := forall h', (h' < h)%nat ->
  BareRun h' /\ PrimRun h' /\ AtomRun h' /\ RepRun h' /\ BranchRun h' /\ AltsRun h' /\ ExprRun h'.

Lemma pre_to h h' pat p ch w e n s p' e' n' s' : pre h pat p ch w e n s ->
  (h' <= h)%nat -> (n <= n' <= length cs)%nat -> At pat p' s' -> incl (used e') (used e) ->
  pre h' pat p' ch w e' n' s'.
Proof.
  intros (A & B & E & F & U) Hh Hn Ha Hi. split; [exact Ha|]. split; [lia|].
  split; [eapply chain_mono; [|exact E]; lia|].
  split; [intros HC; eapply calls_ok_sub; [exact Hi|auto]|].
  intros N. apply U. intros X. rewrite X in Hi. apply incl_l_nil in Hi. contradiction.
Qed.

Lemma rp_ok cx cx' l : cxok cx cx' l -> rp cx' = rp cx.
Proof. intros (_ & B & _). unfold rp. rewrite B. reflexivity. Qed.

(** Reading one character. *)
Lemma get_cases n : (n <= length cs)%nat ->
  (nth_error cs n = None /\ at_eof (sn n) = true) \/
  (exists c, nth_error cs n = Some c /\ at_eof (sn n) = false /\ get_char (sn n) = Done (c, sn (S n))).
Proof.
  intros Hn. pose proof (snth_eof tx cs Htx Hcs n Hn) as E.
  destruct (nth_error cs n) as [c|] eqn:X; [right|left; auto].
  exists c. repeat split; auto. apply (snth_get tx cs Htx Hcs); exact X.
Qed.

Lemma class_run pat p s l t neg n : At pat p (91 :: s) -> (n <= length cs)%nat ->
  (items D l s t /\ not_first (eq 94) s /\ neg = false \/ exists s', s = 94 :: s' /\ items D l s' t /\ neg = true) ->
  match nth_error cs n with
  | None => exists st', evt (fun f => char_class f pat (S p) (sn n)) (false, st')
  | Some c => exists q, At pat q t /\
     evt (fun f => char_class f pat (S p) (sn n)) (in_set (Class neg l) c, (q, sn (S n)))
  end.
Proof.
  intros Hp Hn H. unfold char_class.
  destruct (get_cases n Hn) as [[-> ->]|(c & Ec & -> & ->)]; [eexists; apply evt_const|]. rewrite Ec.
  rewrite (At_rd _ _ _ (At_cons _ _ _ _ Hp)). cbn [rbind].
  assert (X : exists s' : list Z, At pat (if neg then S (S p) else S p) s' /\ items D l s' t /\ (first s =? 94) = neg).
  { pose proof (At_cons _ _ _ _ Hp) as Hp1. destruct H as [(Hi & N & ->)|(s' & -> & Hi & ->)].
    - exists s. split; [exact Hp1|]. split; [exact Hi|]. destruct s; cbn [first not_first] in *; apply Z.eqb_neq; lia.
    - exists s'. split; [eapply At_cons; eauto|]. split; [exact Hi|reflexivity]. }
  destruct X as (s' & Hs' & Hi & Eb). rewrite Eb. cbv zeta.
  assert (Hk : d_kinds D = true -> 0 <= c <= 255).
  { intros Hd. apply HD in Hd. rewrite Forall_forall in Hd. apply Hd. eapply nth_error_In; eauto. }
  destruct (class_items_ok D l s' t Hi pat _ c false Hk Hs') as (q & He & Hq).
  exists (S q). split; [eapply At_cons; eauto|].
  eapply evt_bind; [exact He|]. cbv iota beta. rewrite (At_rd _ _ _ Hq). cbn [rbind first orb].
  change (93 =? 93) with true. cbv iota. cbn [in_set].
  destruct neg; cbn [xorb]; destruct (existsb _ l); apply evt_const.
Qed.

Lemma bare_run h : Below h -> BareRun h.
Proof.
  intros B e s t H pat p ch w n cx r Hpre Hr.
  destruct h as [|h]; [discriminate|]. cbn [PegEval.peval] in Hr.
  destruct Hpre as (Hp & Hn & Hc & Hu).
  pose proof (At_rd _ _ _ Hp) as Hrd.
  destruct H as [r0|r0|r0|c r0 Hc1 Ho Hk|al c s r0 He|k r0 Hd|l s r0 Hi N|l s r0 Hi|e s r0 Hx];
    cbn [pstep] in Hr; cbn [first] in Hrd.
  - assert (r = if line_start cs n then Some (n, []) else None) by congruence. subst r.
    pose proof (snth_bol tx cs Htx Hcs n Hn) as E.
    destruct (line_start cs n).
    + exists (S p), cx. split; [eapply At_cons; eauto|]. split; [apply ok_refl|].
      apply evt_S, evt_eq. intros f. rewrite sw_bol, E by exact Hrd. reflexivity.
    + eexists _, cx. split; [eapply ok_grow, ok_refl|].
      apply evt_S, evt_eq. intros f. rewrite sw_bol, E by exact Hrd. reflexivity.
  - assert (r = if line_end cs n then Some (n, []) else None) by congruence. subst r. unfold line_end.
    destruct (get_cases n Hn) as [[E1 E2]|(c & E1 & E2 & E3)]; rewrite E1.
    + exists (S p), cx. split; [eapply At_cons; eauto|]. split; [apply ok_refl|].
      apply evt_S, evt_eq. intros f. rewrite sw_eol, E2 by exact Hrd. reflexivity.
    + destruct (c =? 10) eqn:E.
      * exists (S p), cx. split; [eapply At_cons; eauto|]. split; [apply ok_refl|].
        apply evt_S, evt_eq. intros f. rewrite sw_eol, E2, E3 by exact Hrd. cbn [rbind fst]. rewrite E. reflexivity.
      * eexists _, cx. split; [eapply ok_grow, ok_refl|].
        apply evt_S, evt_eq. intros f. rewrite sw_eol, E2, E3 by exact Hrd. cbn [rbind fst]. rewrite E. reflexivity.
  - destruct (get_cases n Hn) as [[E1 E2]|(c & E1 & E2 & E3)]; rewrite E1 in Hr.
    + assert (r = None) by congruence. subst r. eexists _, cx. split; [eapply ok_grow, ok_refl|].
      apply evt_S, evt_eq. intros f. rewrite sw_any, E2 by exact Hrd. reflexivity.
    + cbn [in_set] in Hr. assert (r = Some (S n, [])) by congruence. subst r.
      exists (S p), cx. split; [eapply At_cons; eauto|]. split; [apply ok_refl|].
      apply evt_S, evt_eq. intros f. rewrite sw_any, E2, E3 by exact Hrd. reflexivity.
  - assert (Hpl : ~ In c (0 :: operators)) by (intros [<-|X]; [lia|auto]).
    assert (HP : c = 60 -> L = Plain).
    { intros ->. unfold lang_ok in HL. destruct L; [reflexivity|]. exfalso. apply Hk; auto. }
    assert (SW : exists st', forall f, match_switch (S f) L P pat ch p (sn n) cx =
       if at_eof (sn n) then Done (false, (st', sn n), cx, p)
       else run cs <- get_char (sn n);
         Done (fst cs =? c, (if fst cs =? c then S p else st', snd cs), cx, p)).
    { exists (if extended c then p else S p). intros f. apply sw_plain_eq; auto; lia. }
    destruct SW as (st' & SW).
    destruct (get_cases n Hn) as [[E1 E2]|(x & E1 & E2 & E3)]; rewrite E1 in Hr.
    + assert (r = None) by congruence. subst r. eexists _, cx. split; [eapply ok_grow, ok_refl|].
      apply evt_S, evt_eq. intros f. rewrite SW, E2. reflexivity.
    + cbn [in_set] in Hr. destruct (x =? c) eqn:E; injection Hr as <-.
      * exists (S p), cx. split; [eapply At_cons; eauto|]. split; [apply ok_refl|].
        apply evt_S, evt_eq. intros f. rewrite SW, E2, E3. cbn [rbind fst snd]. rewrite E. reflexivity.
      * eexists _, cx. split; [eapply ok_grow, ok_refl|].
        apply evt_S, evt_eq. intros f. rewrite SW, E2, E3. cbn [rbind fst snd]. rewrite E. reflexivity.
  - assert (F : first s = 92) by (inversion He; reflexivity). rewrite F in Hrd.
    destruct (get_cases n Hn) as [[E1 E2]|(x & E1 & E2 & E3)]; rewrite E1 in Hr.
    + assert (r = None) by congruence. subst r. eexists _, cx. split; [eapply ok_grow, ok_refl|].
      apply evt_S, evt_eq. intros f. rewrite sw_escape, E2 by exact Hrd. reflexivity.
    + destruct (prop_escape _ _ _ _ _ _ x He Hp) as (q & Eq & Hq).
      cbn [in_set] in Hr. destruct (x =? c) eqn:E; injection Hr as <-.
      * exists q, cx. split; [exact Hq|]. split; [apply ok_refl|].
        apply evt_S, evt_eq. intros f. rewrite sw_escape, E2, E3 by exact Hrd. cbn [rbind fst snd]. rewrite Eq. reflexivity.
      * eexists _, cx. split; [eapply ok_grow, ok_refl|].
        apply evt_S, evt_eq. intros f. rewrite sw_escape, E2, E3 by exact Hrd. cbn [rbind fst snd]. rewrite Eq. reflexivity.
  - destruct (get_cases n Hn) as [[E1 E2]|(x & E1 & E2 & E3)]; rewrite E1 in Hr.
    + assert (r = None) by congruence. subst r. eexists _, cx. split; [eapply ok_grow, ok_refl|].
      apply evt_S, evt_eq. intros f. rewrite sw_escape, E2 by exact Hrd. reflexivity.
    + assert (Hx : 0 <= x <= 255).
      { apply HD in Hd. rewrite Forall_forall in Hd. apply Hd. eapply nth_error_In; eauto. }
      pose proof (prop_kind _ _ _ _ x (At_cons _ _ _ _ Hp) Hx) as Eq.
      cbn [in_set] in Hr. destruct (has k x) eqn:E; injection Hr as <-.
      * exists (S (S p)), cx. split; [do 2 eapply At_cons; exact Hp|]. split; [apply ok_refl|].
        apply evt_S, evt_eq. intros f. rewrite sw_escape, E2, E3 by exact Hrd. cbn [rbind fst snd]. rewrite Eq. reflexivity.
      * eexists _, cx. split; [eapply ok_grow, ok_refl|].
        apply evt_S, evt_eq. intros f. rewrite sw_escape, E2, E3 by exact Hrd. cbn [rbind fst snd]. rewrite Eq. reflexivity.
  - pose proof (class_run pat p s l r0 false n Hp Hn ltac:(left; auto)) as K.
    destruct (nth_error cs n) as [x|].
    + destruct K as (q & Hq & K). destruct (in_set (Class false l) x) eqn:E; injection Hr as <-.
      * exists q, cx. split; [exact Hq|]. split; [apply ok_refl|].
        apply evt_S. eapply evt_ext; [intros f; symmetry; apply sw_class, Hrd|].
        eapply evt_bind; [exact K|apply evt_const].
      * eexists _, cx. split; [eapply ok_grow, ok_refl|].
        apply evt_S. eapply evt_ext; [intros f; symmetry; apply sw_class, Hrd|].
        eapply evt_bind; [exact K|apply evt_const].
    + destruct K as (st' & K). injection Hr as <-. eexists _, cx. split; [eapply ok_grow, ok_refl|].
      apply evt_S. eapply evt_ext; [intros f; symmetry; apply sw_class, Hrd|].
      eapply evt_bind; [exact K|apply evt_const].
  - pose proof (class_run pat p (94 :: s) l r0 true n Hp Hn ltac:(right; eauto)) as K.
    destruct (nth_error cs n) as [x|].
    + destruct K as (q & Hq & K). destruct (in_set (Class true l) x) eqn:E; injection Hr as <-.
      * exists q, cx. split; [exact Hq|]. split; [apply ok_refl|].
        apply evt_S. eapply evt_ext; [intros f; symmetry; apply sw_class, Hrd|].
        eapply evt_bind; [exact K|apply evt_const].
      * eexists _, cx. split; [eapply ok_grow, ok_refl|].
        apply evt_S. eapply evt_ext; [intros f; symmetry; apply sw_class, Hrd|].
        eapply evt_bind; [exact K|apply evt_const].
    + destruct K as (st' & K). injection Hr as <-. eexists _, cx. split; [eapply ok_grow, ok_refl|].
      apply evt_S. eapply evt_ext; [intros f; symmetry; apply sw_class, Hrd|].
      eapply evt_bind; [exact K|apply evt_const].
  - destruct (B h ltac:(lia)) as (_ & _ & _ & _ & _ & _ & XR).
    assert (Hpre' : pre h pat (S p) ch w e n s).
    { eapply (pre_to (S h)); [split; [exact Hp|split; [exact Hn|split; [exact Hc|exact Hu]]]|lia|lia| |]; [eapply At_cons; eauto|apply incl_refl]. }
    specialize (XR e s _ Hx pat (S p) ch w n cx r Hpre' Hr).
    destruct r as [[m l]|].
    + destruct XR as (q & cx' & Hq & Hok & K). exists (S q), cx'. split; [eapply At_cons; eauto|]. split; [exact Hok|].
      apply evt_S. eapply evt_ext; [intros f; symmetry; apply sw_group, Hrd|].
      eapply evt_bind with (a := (true, (q, sn m), cx')).
      * apply evt_S. cbn [match_sequence]. eapply evt_bind; [exact K|]. cbv iota beta. apply evt_const.
      * cbv iota beta. rewrite (At_rd _ _ _ Hq). apply evt_const.
    + destruct XR as (q & s1 & cx' & Hgr & _ & K).
      eexists _, (roll P cx' (count cx)). split; [eapply ok_grow, roll_ok, Hgr|].
      apply evt_S. eapply evt_ext; [intros f; symmetry; apply sw_group, Hrd|].
      eapply evt_bind with (a := (false, (q, s1), roll P cx' (count cx))).
      * apply evt_S. cbn [match_sequence]. eapply evt_bind; [exact K|]. cbv iota beta. apply evt_const.
      * cbv iota beta. apply evt_const.
Qed.


(** From the switch to the atom. *)
Lemma atom_plain pat ch p n cx q t s1 cx1 sp : At pat q t -> not_first (eq 58) t ->
  evt (fun f => match_switch f L P pat ch p (sn n) cx) (true, (q, s1), cx1, sp) ->
  evt (fun f => match_atom f L P pat ch (p, sn n) cx) (true, (q, s1), cx1).
Proof.
  intros Hq N K. apply evt_S. cbn [match_atom]. eapply evt_bind; [exact K|]. cbv iota beta.
  eapply evt_bind; [apply evt_eq, (label_none _ _ _ Hq N)|]. apply evt_const.
Qed.

Lemma atom_fails pat ch p n cx st' cx1 sp :
  evt (fun f => match_switch f L P pat ch p (sn n) cx) (false, st', cx1, sp) ->
  evt (fun f => match_atom f L P pat ch (p, sn n) cx) (false, (sp, sn n), roll P cx1 (count cx)).
Proof.
  intros K. apply evt_S. cbn [match_atom]. eapply evt_bind; [exact K|]. destruct st'. cbv iota beta. apply evt_const.
Qed.

Lemma capture_ok cx cx1 name v sv l : cxok cx cx1 l ->
  (C -> v = vof sv /\ pol_keep P v = keep sv) ->
  cxok cx (if (c_dis cx1 =? 0)%nat then capture P cx1 name v else cx1) (l ++ record keep name sv (rp cx)).
Proof.
  intros (A & B & E & F) Hv.
  assert (X : cxok cx1 (if (c_dis cx1 =? 0)%nat then capture P cx1 name v else cx1) (record keep name sv (rp cx))).
  { unfold capture. destruct (c_dis cx1 =? 0)%nat eqn:Ed.
    - destruct (pol_keep P v) eqn:Ek.
      + repeat split; cbn [c_dis c_rep c_msgs c_caps]; auto. intros HC _. rewrite Ed.
        destruct (Hv HC) as [-> Hk]. unfold record. rewrite <- Hk. cbn. unfold rp. rewrite B. reflexivity.
      + repeat split; auto. intros HC _. rewrite Ed. destruct (Hv HC) as [_ Hk]. unfold record. rewrite <- Hk.
        cbn. rewrite app_nil_r. reflexivity.
    - repeat split; auto. intros _ _. rewrite Ed, app_nil_r. reflexivity. }
  eapply ok_trans; [|exact X]. repeat split; auto.
Qed.

Lemma prim_skips e s t pat p : prim D e s t -> At pat p s ->
  heads s /\ not_first (eq 58) t /\ exists q, At pat q t /\ evt (fun f => skip_atom f L pat p) q.
Proof.
  intros H. destruct (skip_all D L HL) as (_ & K & _). apply (K _ _ _ H).
Qed.

Lemma atom_heads e s t pat p : atom D e s t -> At pat p s -> heads s.
Proof.
  intros H Hp. destruct (skip_all D L HL) as (_ & _ & K & _). apply (K _ _ _ H _ _ Hp).
Qed.

(** A call. *)
Lemma spells_empty e : spells D e [] -> used e = [].
Proof.
  intros H. unfold spells in H. inversion H; subst; [reflexivity| |inversion H0].
  exfalso. destruct (atom_heads _ _ _ [] 0 H0 (At_start [] (Forall_nil _))) as (X & _). apply X. reflexivity.
Qed.

Lemma call_run h name lbo lab pat p ch w n cx r t0 t q :
  Below (S h) -> pre (S h) pat p ch w (Call name lbo) n (60 :: name ++ 62 :: t0) ->
  d_calls D = true -> Forall namech name -> At pat q t ->
  evt (fun f => parse_call f pat p) (S p, lab, q) ->
  (lab = None /\ lbo = None \/
   exists lp lb k, lab = Some (lp, lb) /\ lbo = Some lb /\ skipn lp pat = lb ++ k /\
     Forall namech lb /\ not_first namech k) ->
  peval (S h) w (rp cx) (Call name lbo) n = Some r ->
  match r with
  | Some (m, l) => exists cx', cxok cx cx' l /\
      evt (fun f => match_switch f L P pat ch p (sn n) cx) (true, (q, sn m), cx', p)
  | None => exists st' cx', cxgrow cx cx' /\
      evt (fun f => match_switch f L P pat ch p (sn n) cx) (false, st', cx', p)
  end.
Proof.
  intros B Hpre Hd Hname Hq Hcl Hlab Hr. destruct Hpre as (Hp & Hn & Hch & Hu & Hfull).
  pose proof (At_rd _ _ _ Hp) as Hrd. cbn [first] in Hrd.
  assert (EL : exists rules, L = Gram rules).
  { unfold lang_ok in HL. destruct L as [|rules]; [congruence|eauto]. }
  destruct EL as [rules EL].
  assert (HGr : grammar_ok rules /\ NoDup (map r_name rules)) by (clear - HG EL; rewrite EL in HG; exact HG).
  destruct HGr as [HGr Hdist].
  specialize (HGr name t0 Hname).
  pose proof (At_skipn _ _ _ (At_cons _ _ _ _ Hp)) as Esk.
  (* unfold one step of the switch *)
  set (rest := fun (call : nat * option (nat * list Z) * nat) f =>
           let '(rn, label, call_end) := call in
           match lookup rules (skipn rn pat) with
           | None => Done (false, (p, sn n), cx, p)
           | Some i =>
             match nth_error rules i with
             | None => Undef
             | Some sub_rule =>
               let spat := r_pat sub_rule in
               let scx := mkctx [] (c_dis cx) 0 (c_msgs cx) in
               run r1 <-
                 (if left_recursive ch i (sn n)
                  then run fl <- is_failure spat (0%nat, sn n) (0%nat, sn n);
                       Done (fl, sn n, scx)
                  else
                    run r <- match_sequence f L P spat ((i, sn n) :: ch) (0%nat, sn n) scx;
                    let '(ok, (q, s1), scx1) := r in
                    run c <- rdp spat q;
                    if ok && (c =? 0)
                    then run fl <- is_failure spat (0%nat, sn n) (q, s1); Done (fl, s1, scx1)
                    else run fl <- is_failure spat (q, s1) (q, s1); Done (fl, sn n, scx1));
               let '(fl, s1, scx1) := r1 in
               let cx1 := mkctx (c_caps cx) (c_dis cx) (c_rep cx) (c_msgs scx1) in
               if fl then Done (false, (call_end, s1), cx1, p)
               else
                 let '(lkey, lname) :=
                   match label with
                   | Some (lp, nm) => (skipn lp pat, nm)
                   | None => (r_name sub_rule, r_name sub_rule)
                   end in
                 match ch with
                 | [] => Undef
                 | (cur, _) :: _ =>
                   match nth_error rules cur with
                   | None => Undef
                   | Some cur_rule =>
                     let cx2 :=
                       if (c_dis cx =? 0)%nat && is_captured cur_rule lkey
                       then capture P cx1 lname (pol_text P false (c_caps scx1) (sn n) s1)
                       else cx1 in
                     Done (true, (call_end, s1), cx2, p)
                   end
                 end
             end
           end).
  assert (SW : forall f, match_switch (S f) L P pat ch p (sn n) cx = rbind (parse_call f pat p) (fun c => rest c f)).
  { intros f. cbn [match_switch]. rewrite Hrd. cbn [rbind]. unfold rest. rewrite EL. reflexivity. }
  assert (EV : forall res, evt (rest (S p, lab, q)) res -> evt (fun f => match_switch f L P pat ch p (sn n) cx) res).
  { intros res0 K. apply evt_S. eapply evt_ext; [intros f; symmetry; apply SW|].
    eapply evt_bind; [exact Hcl|exact K]. }
  clear SW. cbn [PegEval.peval pstep] in Hr.
  destruct (assoc G name) as [[e w']|] eqn:Ea.
  2:{ injection Hr as <-. eexists _, cx. split; [eapply ok_grow, ok_refl|].
      apply EV. unfold rest. rewrite Esk, HGr. apply evt_const. }
  destruct HGr as (i & sr & Hlk & Hi & Hnm & Hcap & Hasc & Hsp & Hco).
  unfold chain_ok in Hch. rewrite EL in Hch. destruct Hch as (acts & Eact & Hcur & Hent & Hsort).
  pose proof (left_recursive_spec rules i sr n Hn Hdist Hi ch acts Hent Hsort) as LR.
  rewrite Hnm in LR.
  assert (Hbz : busyb w name n = left_recursive ch i (sn n)) by (rewrite LR; unfold busyb; rewrite Eact; reflexivity).
  specialize (Hfull ltac:(discriminate)). unfold chain_full in Hfull. rewrite EL in Hfull.
  rewrite Hbz in Hr. destruct (left_recursive ch i (sn n)) eqn:NLR.
  { assert (r = None) by congruence. subst r.
    destruct (left_recursive_in _ _ _ NLR) as [o Io].
    assert (Hne : r_pat sr <> []).
    { rewrite Forall_forall in Hfull. apply (Hfull _ Io sr). exact Hi. }
    eexists _, (mkctx (c_caps cx) (c_dis cx) (c_rep cx) (c_msgs cx)). split; [assert (Ecx : mkctx (c_caps cx) (c_dis cx) (c_rep cx) (c_msgs cx) = cx) by (clear; destruct cx; reflexivity); rewrite Ecx; eapply ok_grow, ok_refl|].
    apply EV. unfold rest. rewrite Esk, Hlk, Hi. cbv zeta. rewrite NLR.
    eapply evt_bind with (a := (true, sn n, mkctx [] (c_dis cx) 0 (c_msgs cx))).
    - unfold is_failure. cbn [fst snd]. rewrite (At_rd _ _ _ (At_start _ Hasc)). cbn [rbind].
      assert (N0 : first (r_pat sr) <> 0).
      { destruct (r_pat sr); [congruence|]. apply Forall_cons_iff in Hasc. cbn. unfold ascii in Hasc. lia. }
      rewrite (proj2 (Z.eqb_neq _ _) N0). unfold same. rewrite !Nat.eqb_refl. apply evt_const.
    - cbv iota beta. apply evt_const. }
  set (we := enter w w' name n) in *.
  destruct (peval h we false e n) as [r1|] eqn:E1; [|discriminate].
  assert (Hch' : chain_ok n we ((i, sn n) :: ch)).
  { unfold chain_ok. rewrite EL. exists ((name, n) :: acts). unfold we, enter. cbn [active wanted]. rewrite Eact.
    split; [reflexivity|]. split; [exists i, (sn n), ch, sr; auto|]. split.
    - constructor; [|exact Hent]. split; [reflexivity|]. exists sr. auto.
    - cbn [map snd]. constructor; [exact Hsort|]. constructor; [lia|]. apply StronglySorted_inv in Hsort. apply Hsort. }
  set (scx := mkctx [] (c_dis cx) 0 (c_msgs cx)).
  destruct (B h ltac:(lia)) as (_ & _ & _ & _ & _ & _ & XR).
  assert (Hpre' : pre h (r_pat sr) 0 ((i, sn n) :: ch) we e n (r_pat sr)).
  { split; [apply At_start, Hasc|]. split; [exact Hn|]. split; [exact Hch'|]. split; [exact Hco|].
    intros Hue. unfold chain_full. rewrite EL. apply Forall_cons; [|exact Hfull].
    intros r2 H2 X. cbn [fst] in H2. assert (r2 = sr) by congruence. subst r2.
    apply Hue. rewrite X in Hsp. apply (spells_empty _ Hsp). }
  specialize (XR e (r_pat sr) [] Hsp (r_pat sr) O _ we n scx r1 Hpre' E1).
  destruct Hcur as (cur & o & rs & cr & Ech & Ecr & Ecw).
  destruct r1 as [[m l]|].
  - destruct XR as (q1 & scx1 & Hq1 & (A1 & B1 & M1 & F1) & K).
    cbn [scx c_dis c_rep c_msgs c_caps] in A1, B1, M1, F1.
    set (label := match lbo with Some x => x | None => name end) in *.
    assert (Hkey : exists k, match lab with Some (lp, nm) => (skipn lp pat, nm) | None => (name, name) end = (label ++ k, label)
                     /\ Forall namech label /\ not_first namech k).
    { destruct Hlab as [[-> Elb]|(lp & lb & k & -> & Elb & Esl & Hlb & Nk)]; unfold label; rewrite Elb.
      - exists []. rewrite app_nil_r. cbn. auto.
      - exists k. rewrite Esl. auto. }
    destruct Hkey as (k & Hkey & Hlbl & Nk).
    assert (Fl : is_failure (r_pat sr) (0%nat, sn n) (q1, sn m) = Done false).
    { unfold is_failure. cbn [fst snd]. rewrite (At_rd _ _ _ (At_start _ Hasc)). cbn [rbind].
      destruct (Z.eqb_spec (first (r_pat sr)) 0); [reflexivity|].
      destruct (Nat.eqb_spec 0 q1) as [<-|]; [|reflexivity].
      exfalso. destruct Hq1 as [_ (pr & E & El)]. destruct pr; [|discriminate]. rewrite E in n0. cbn in n0. congruence. }
    set (cx1 := mkctx (c_caps cx) (c_dis cx) (c_rep cx) (c_msgs scx1)).
    set (v := pol_text P false (c_caps scx1) (sn n) (sn m)).
    set (cx2 := if (c_dis cx =? 0)%nat && is_captured cr (label ++ k) then capture P cx1 label v else cx1).
    assert (Hm : (n <= m <= length cs)%nat).
    { destruct (peval_bounds G keep cs h we false e n m l E1); lia. }
    set (sv := match l with [] => SText n m | _ => SNode l end) in *.
    injection Hr as <-. exists cx2. split.
    + assert (X1 : cxok cx cx1 []).
      { unfold cx1. repeat split; cbn [c_dis c_rep c_msgs c_caps]; auto.
        intros _ _. destruct (c_dis cx =? 0)%nat; rewrite app_nil_r; reflexivity. }
      assert (X2 : C -> is_captured cr (label ++ k) = mem label (wanted w)).
      { intros HC. rewrite <- Ecw. eapply (captured_ok cr label k (Call name lbo)); auto; [rewrite Ecw; auto|left; reflexivity]. }
      unfold cx2. unfold capture. change (c_caps cx1) with (c_caps cx). change (c_rep cx1) with (c_rep cx).
      destruct ((c_dis cx =? 0)%nat && is_captured cr (label ++ k)) eqn:Ec.
      * apply andb_true_iff in Ec. destruct Ec as [Ec1 Ec2].
        assert (Hv : C -> c_msgs scx1 = c_msgs cx -> v = vof sv /\ pol_keep P v = keep sv).
        { intros HC HM. specialize (F1 HC HM). rewrite Ec1 in F1. cbn [app] in F1.
          unfold v. rewrite Hcall by auto. rewrite F1. unfold sv. destruct l as [|x l].
          - cbn [vcaps map]. split; [reflexivity|]. apply Hkeep_text; auto; lia.
          - split; [reflexivity|]. rewrite <- Hkeep_node by (auto; discriminate). reflexivity. }
        destruct (pol_keep P v) eqn:Ek.
        -- repeat split; cbn [c_dis c_rep c_msgs c_caps cx1]; auto. intros HC HM.
           destruct (Hv HC HM) as [Hv1 Hv2]. rewrite Ec1, <- (X2 HC), Ec2. unfold record.
           rewrite <- Hv2. rewrite Hv1. reflexivity.
        -- repeat split; cbn [c_dis c_rep c_msgs c_caps cx1]; auto. intros HC HM.
           destruct (Hv HC HM) as [Hv1 Hv2]. rewrite Ec1, <- (X2 HC), Ec2. unfold record.
           rewrite <- Hv2. cbn. rewrite app_nil_r. reflexivity.
      * repeat split; cbn [c_dis c_rep c_msgs c_caps cx1]; auto. intros HC HM.
        destruct (c_dis cx =? 0)%nat; cbn [andb] in Ec; [|rewrite app_nil_r; reflexivity].
        rewrite <- (X2 HC), Ec. cbn. rewrite app_nil_r. reflexivity.
    + apply EV. unfold rest. rewrite Esk, Hlk, Hi. cbv zeta. rewrite NLR.
      eapply evt_bind with (a := (false, sn m, scx1)).
      * eapply evt_bind with (a := (true, (q1, sn m), scx1)).
        { apply evt_S. cbn [match_sequence]. eapply evt_bind; [exact K|]. apply evt_const. }
        cbv iota beta. rewrite (At_rd _ _ _ Hq1). cbn [rbind first]. change (0 =? 0) with true. cbn [andb]. cbv iota.
        rewrite Fl. apply evt_const.
      * cbv iota beta. rewrite Hnm, Hkey, Ech, Ecr. apply evt_const.
  - destruct XR as (q1 & s1 & scx1 & (A1 & B1 & M1 & F1) & (s' & Hs' & N0) & K).
    cbn [scx c_dis c_rep c_msgs c_caps] in A1, B1, M1.
    injection Hr as <-.
    assert (Fl : is_failure (r_pat sr) (q1, s1) (q1, s1) = Done true).
    { unfold is_failure. cbn [fst snd]. rewrite (At_rd _ _ _ Hs'). cbn [rbind].
      rewrite (proj2 (Z.eqb_neq _ _) N0), Nat.eqb_refl. unfold same. rewrite Nat.eqb_refl. reflexivity. }
    set (scx2 := roll P scx1 (count scx)).
    eexists _, (mkctx (c_caps cx) (c_dis cx) (c_rep cx) (c_msgs scx2)). split.
    + repeat split; cbn [c_dis c_rep c_msgs c_caps]; auto.
      * unfold scx2, roll. destruct (pol_roll P (c_caps scx1) (count scx)) as [? []]; cbn; lia.
      * intros _ _. exists []. rewrite app_nil_r. reflexivity.
    + apply EV. unfold rest. rewrite Esk, Hlk, Hi. cbv zeta. rewrite NLR.
      eapply evt_bind with (a := (true, sn n, scx2)).
      * eapply evt_bind with (a := (false, (q1, s1), scx2)).
        { apply evt_S. cbn [match_sequence]. eapply evt_bind; [exact K|]. apply evt_const. }
        cbv iota beta. rewrite (At_rd _ _ _ Hs'). cbn [rbind andb]. cbv iota.
        rewrite Fl. apply evt_const.
      * cbv iota beta. apply evt_const.
Qed.


Lemma prim_run h : Below h -> BareRun h -> PrimRun h.
Proof.
  intros B BR e s t H pat p ch w n cx r Hpre Hr.
  destruct H as [e s r0 Hb N|e s name r' r0 Hdl Hb Hname Hle|e s r0 Hx|e s r0 Hx|name r0 Hdc Hname Hne N|name lb r' r0 Hdc Hname Hne Hlb Hle].
  - specialize (BR _ _ _ Hb pat p ch w n cx r Hpre Hr). destruct r as [[m l]|].
    + destruct BR as (q & cx' & Hq & Hok & K). exists q, cx'. split; [exact Hq|]. split; [exact Hok|].
      eapply atom_plain; eauto.
    + destruct BR as (st' & cx' & Hg & K). exists (roll P cx' (count cx)). split; [apply roll_ok, Hg|].
      eapply atom_fails; eauto.
  - destruct h as [|h]; [discriminate|]. cbn [PegEval.peval pstep] in Hr.
    destruct (peval h w (rp cx) e n) as [r1|] eqn:E1; [|discriminate].
    destruct (B h ltac:(lia)) as (BR' & _).
    assert (Hpre' : pre h pat p ch w e n s).
    { eapply (pre_to (S h)); [exact Hpre|lia|destruct Hpre as (_ & ? & _); lia|apply Hpre|apply incl_refl]. }
    specialize (BR' _ _ _ Hb pat p ch w n cx r1 Hpre' E1). destruct r1 as [[m l]|].
    + assert (r = Some (m, l ++ record keep name (SText n m) (rp cx))) by congruence. subst r. clear Hr.
      destruct BR' as (q & cx' & Hq & Hok & K).
      destruct (label_some _ _ _ _ _ Hname Hle Hq) as (q' & El & Hq').
      exists q'. eexists. split; [exact Hq'|]. split.
      2:{ apply evt_S. cbn [match_atom]. eapply evt_bind; [exact K|]. cbv iota beta.
          eapply evt_bind; [exact El|]. cbn [fst snd]. apply evt_const. }
      assert (Hm : (n <= m <= length cs)%nat) by (destruct (peval_bounds G keep cs h w (rp cx) e n m l E1); lia || (destruct Hpre as (_ & ? & _); lia)).
      apply capture_ok; [exact Hok|]. intros HC. rewrite Hlabel by auto.
      split; [reflexivity|]. apply Hkeep_text; auto; lia.
    + assert (r = None) by congruence. subst r. clear Hr.
      destruct BR' as (st' & cx' & Hg & K). exists (roll P cx' (count cx)). split; [apply roll_ok, Hg|].
      eapply atom_fails; eauto.
  - destruct h as [|h]; [discriminate|]. cbn [PegEval.peval pstep] in Hr.
    assert (Hp : At pat p (38 :: s)) by apply Hpre.
    destruct (prim_skips _ _ _ pat p (p_ahead D e s r0 Hx) Hp) as (_ & N & q & Hq & Ks).
    destruct (peval h w (rp cx) e n) as [r1|] eqn:E1; [|discriminate].
    destruct (B h ltac:(lia)) as (_ & PR & _).
    assert (Hpre' : pre h pat (S p) ch w e n s).
    { eapply (pre_to (S h)); [exact Hpre|lia|destruct Hpre as (_ & ? & _); lia|eapply At_cons; exact Hp|apply incl_refl]. }
    specialize (PR _ _ _ Hx pat (S p) ch w n (set_dis cx (S (c_dis cx))) r1 Hpre' E1).
    pose proof (At_rd _ _ _ Hp) as Hrd. cbn [first] in Hrd.
    destruct r1 as [[m l]|].
    + assert (r = Some (n, [])) by congruence. subst r. clear Hr.
      destruct PR as (q1 & cx' & _ & Hok & K). exists q, (set_dis cx' (c_dis cx' - 1)).
      split; [exact Hq|]. split; [eapply ok_dis, Hok|].
      eapply (atom_plain _ _ _ _ _ _ _ _ _ p); [exact Hq|exact N|]. apply evt_S.
      eapply evt_ext; [intros f; symmetry; apply (sw_ahead _ _ _ _ _ _ _ _ 38 Hrd); auto|].
      eapply evt_bind; [exact K|]. cbv iota beta zeta. change (38 =? 33) with false. cbv iota.
      eapply evt_bind; [exact Ks|apply evt_const].
    + assert (r = None) by congruence. subst r. clear Hr.
      destruct PR as (cx' & Hok & K).
      exists (roll P (set_dis cx' (c_dis cx' - 1)) (count cx)). split; [eapply roll_ok, ok_grow, ok_dis, Hok|].
      eapply (atom_fails _ _ _ _ _ (p, sn n)). apply evt_S.
      eapply evt_ext; [intros f; symmetry; apply (sw_ahead _ _ _ _ _ _ _ _ 38 Hrd); auto|].
      eapply evt_bind; [exact K|]. cbv iota beta zeta. change (38 =? 33) with false. cbv iota. apply evt_const.
  - destruct h as [|h]; [discriminate|]. cbn [PegEval.peval pstep] in Hr.
    assert (Hp : At pat p (33 :: s)) by apply Hpre.
    destruct (prim_skips _ _ _ pat p (p_not D e s r0 Hx) Hp) as (_ & N & q & Hq & Ks).
    destruct (peval h w (rp cx) e n) as [r1|] eqn:E1; [|discriminate].
    destruct (B h ltac:(lia)) as (_ & PR & _).
    assert (Hpre' : pre h pat (S p) ch w e n s).
    { eapply (pre_to (S h)); [exact Hpre|lia|destruct Hpre as (_ & ? & _); lia|eapply At_cons; exact Hp|apply incl_refl]. }
    specialize (PR _ _ _ Hx pat (S p) ch w n (set_dis cx (S (c_dis cx))) r1 Hpre' E1).
    pose proof (At_rd _ _ _ Hp) as Hrd. cbn [first] in Hrd.
    destruct r1 as [[m l]|].
    + assert (r = None) by congruence. subst r. clear Hr.
      destruct PR as (q1 & cx' & _ & Hok & K).
      exists (roll P (set_dis cx' (c_dis cx' - 1)) (count cx)). split; [eapply roll_ok, ok_grow, ok_dis, Hok|].
      eapply (atom_fails _ _ _ _ _ (p, sn n)). apply evt_S.
      eapply evt_ext; [intros f; symmetry; apply (sw_ahead _ _ _ _ _ _ _ _ 33 Hrd); auto|].
      eapply evt_bind; [exact K|]. cbv iota beta zeta. change (33 =? 33) with true. cbn [negb]. cbv iota. apply evt_const.
    + assert (r = Some (n, [])) by congruence. subst r. clear Hr.
      destruct PR as (cx' & Hok & K). exists q, (set_dis cx' (c_dis cx' - 1)).
      split; [exact Hq|]. split; [eapply ok_dis, Hok|].
      eapply (atom_plain _ _ _ _ _ _ _ _ _ p); [exact Hq|exact N|]. apply evt_S.
      eapply evt_ext; [intros f; symmetry; apply (sw_ahead _ _ _ _ _ _ _ _ 33 Hrd); auto|].
      eapply evt_bind; [exact K|]. cbv iota beta zeta. change (33 =? 33) with true. cbn [negb]. cbv iota.
      eapply evt_bind; [exact Ks|apply evt_const].
  - destruct h as [|h]; [discriminate|].
    assert (Hp : At pat p (60 :: name ++ 62 :: r0)) by apply Hpre.
    pose proof (At_cons _ _ _ _ Hp) as Hp1. pose proof (At_cons _ _ _ _ (At_app _ _ _ _ Hp1)) as Hq.
    assert (Hpc : evt (fun f => parse_call f pat p) (S p, None, S (S p + length name))).
    { apply evt_eq. intros f. unfold parse_call. rewrite (At_skipn _ _ _ Hp1), (find_brangle_name _ Hname).
      replace (S p + S (length name))%nat with (S (S p + length name)) by lia.
      rewrite (At_rd _ _ _ Hq). cbn [rbind]. destruct r0 as [|c r0]; cbn [first not_first] in *; [reflexivity|].
      rewrite (proj2 (Z.eqb_neq c 58)) by lia. reflexivity. }
    pose proof (call_run h name None None pat p ch w n cx r r0 r0 _ B Hpre Hdc Hname Hq Hpc ltac:(left; auto) Hr) as K.
    destruct r as [[m l]|].
    + destruct K as (cx' & Hok & K). exists (S (S p + length name)), cx'. split; [exact Hq|]. split; [exact Hok|].
      eapply atom_plain; eauto.
    + destruct K as (st' & cx' & Hg & K). exists (roll P cx' (count cx)). split; [apply roll_ok, Hg|].
      eapply atom_fails; eauto.
  - destruct h as [|h]; [discriminate|].
    assert (Hp : At pat p (60 :: name ++ 62 :: 58 :: lb ++ r')) by apply Hpre.
    pose proof (At_cons _ _ _ _ Hp) as Hp1. pose proof (At_cons _ _ _ _ (At_app _ _ _ _ Hp1)) as Hq.
    destruct (label_end_split _ _ Hle) as (Nk & _ & N58).
    destruct (label_some _ _ _ _ _ Hlb Hle Hq) as (q & El & Hq').
    assert (Hpc : evt (fun f => parse_call f pat p) (S p, Some (S (S (S p + length name)), lb), q)).
    { unfold parse_call. rewrite (At_skipn _ _ _ Hp1), (find_brangle_name _ Hname).
      replace (S p + S (length name))%nat with (S (S p + length name)) by lia.
      rewrite (At_rd _ _ _ Hq). cbn [rbind first]. change (58 =? 58) with true. cbv iota.
      destruct El as [f0 El]. exists f0. intros f Hf. specialize (El f Hf). unfold label_at in El.
      rewrite (At_rd _ _ _ Hq) in El. cbn [rbind first] in El. change (58 =? 58) with true in El. cbv iota in El.
      destruct (scan_name f pat _) as [q1| |]; cbn [rbind] in *; try discriminate.
      destruct (rdp pat q1) as [c2| |]; cbn [rbind] in *; try discriminate. 
      assert (X1 : sub pat (S (S (S p + length name))) q1 = lb) by congruence.
      assert (X2 : (if c2 =? 58 then S q1 else q1) = q) by congruence. rewrite X1, X2. reflexivity. }
    assert (Hlab : Some (S (S (S p + length name)), lb) = None /\ Some lb = None \/
       exists lp lb0 k, Some (S (S (S p + length name)), lb) = Some (lp, lb0) /\ Some lb = Some lb0 /\
         skipn lp pat = lb0 ++ k /\ Forall namech lb0 /\ not_first namech k).
    { right. exists (S (S (S p + length name))), lb, r'. repeat split; auto. apply (At_skipn _ _ _ (At_cons _ _ _ _ Hq)). }
    pose proof (call_run h name (Some lb) _ pat p ch w n cx r _ r0 q B Hpre Hdc Hname Hq' Hpc Hlab Hr) as K.
    destruct r as [[m l]|].
    + destruct K as (cx' & Hok & K). exists q, cx'. split; [exact Hq'|]. split; [exact Hok|].
      eapply atom_plain; eauto.
    + destruct K as (st' & cx' & Hg & K). exists (roll P cx' (count cx)). split; [apply roll_ok, Hg|].
      eapply atom_fails; eauto.
Qed.

Lemma rep_run h : Below h -> RepRun h.
Proof.
  intros B e s t H pat p ch w n cx m l x b Hpre Hrep Hr.
  destruct h as [|h]; [discriminate|]. cbn [PegEval.peval pstep] in Hr.
  destruct (peval h w true e n) as [r1|] eqn:E1; [|discriminate].
  destruct (B h ltac:(lia)) as (_ & PR & _ & RR & _).
  assert (Hp : At pat p s) by apply Hpre. assert (Hn : (n <= length cs)%nat) by apply Hpre.
  destruct (prim_skips _ _ _ pat p H Hp) as (_ & _ & q0 & Hq0 & Ks).
  assert (Hpre' : pre h pat p ch w e n s) by (eapply (pre_to (S h)); [exact Hpre|lia|lia|exact Hp|apply incl_refl]).
  specialize (PR _ _ _ H pat p ch w n cx r1 Hpre'). rewrite Hrep in PR. specialize (PR E1).
  destruct r1 as [[k l1]|].
  - destruct PR as (q & cx1 & Hq & Hok & K).
    assert (Hk : (n <= k <= length cs)%nat) by (destruct (peval_bounds G keep cs h w true e n k l1 E1); lia).
    destruct (Nat.eqb_spec k n) as [->|Nk].
    + assert (m = n) by congruence. assert (l1 = l) by congruence. subst m l1.
      exists q, cx1. split; [exact Hq|]. split; [exact Hok|].
      apply evt_S. cbn [rep_loop snd]. eapply evt_bind; [exact K|]. cbv iota beta. cbn [snd].
      rewrite (snth_same tx cs Htx Hcs) by lia. rewrite Nat.eqb_refl. apply evt_const.
    + destruct (peval h w b (Star e) k) as [[[m' l']|]|] eqn:E2; try discriminate.
      assert (m' = m) by congruence. assert (l1 ++ l' = l) by congruence. subst m' l.
      assert (Hpre2 : pre h pat p ch w e k s) by (eapply (pre_to (S h)); [exact Hpre|lia|lia|exact Hp|apply incl_refl]).
      destruct (RR _ _ _ H pat p ch w k cx1 m l' q b Hpre2) as (q2 & cx2 & Hq2 & Hok2 & K2); [rewrite (rp_ok _ _ _ Hok); exact Hrep|exact E2|].
      exists q2, cx2. split; [exact Hq2|]. split; [eapply ok_trans; eauto|].
      apply evt_S. cbn [rep_loop snd]. eapply evt_bind; [exact K|]. cbv iota beta. cbn [snd].
      rewrite (snth_same tx cs Htx Hcs) by lia. rewrite (proj2 (Nat.eqb_neq k n) Nk). exact K2.
  - destruct PR as (cx1 & Hok & K). assert (m = n) by congruence. assert (l = []) by congruence. subst m l.
    exists q0, (roll P cx1 (count cx)). split; [exact Hq0|]. split; [eapply roll_ok, ok_grow, Hok|].
    apply evt_S. cbn [rep_loop snd]. eapply evt_bind; [exact K|]. cbv iota beta. cbn [fst snd].
    eapply evt_bind; [exact Ks|apply evt_const].
Qed.

Lemma atoms_run h : Below h -> PrimRun h -> AtomRun h.
Proof.
  intros B PR0 e s t H. destruct H as [e s r0 Hx|e s r0 Hx|e s r0 Hx|e s r0 Hx]; [apply PR0, Hx| | |];
    intros pat p ch w n cx r Hpre Hr; (destruct h as [|h]; [discriminate|]); cbn [PegEval.peval pstep] in Hr;
    pose proof (proj1 Hpre) as Hp; pose proof (proj1 (proj2 Hpre)) as Hn;
    pose proof (At_rd _ _ _ Hp) as Hrd; cbn [first] in Hrd;
    pose proof (At_cons _ _ _ _ Hp) as Hp1;
    destruct (prim_skips _ _ _ pat (S p) Hx Hp1) as (_ & N & q0 & Hq0 & Ks);
    assert (Hpre' : pre h pat (S p) ch w e n s)
      by (eapply (pre_to (S h)); [exact Hpre|lia|lia|exact Hp1|apply incl_refl]);
    destruct (B h ltac:(lia)) as (_ & PR & _ & RR & _).
  - destruct (peval h w (rp cx) e n) as [r1|] eqn:E1; [|discriminate].
    specialize (PR _ _ _ Hx pat (S p) ch w n cx r1 Hpre' E1).
    destruct r1 as [[m l]|].
    + assert (r = Some (m, l)) by congruence. subst r.
      destruct PR as (q & cx1 & Hq & Hok & K). exists q, cx1. split; [exact Hq|]. split; [exact Hok|].
      eapply (atom_plain _ _ _ _ _ _ _ _ _ p); [exact Hq|exact N|]. apply evt_S.
      eapply evt_ext; [intros f; symmetry; apply sw_opt, Hrd|].
      eapply evt_bind with (a := ((q, sn m), cx1)); [|apply evt_const].
      apply evt_S. cbn [rep_loop snd]. eapply evt_bind; [exact K|]. cbv iota beta.
      destruct (same _ _); apply evt_const.
    + assert (r = Some (n, [])) by congruence. subst r.
      destruct PR as (cx1 & Hok & K). exists q0, (roll P cx1 (count cx)). split; [exact Hq0|].
      split; [eapply roll_ok, ok_grow, Hok|].
      eapply (atom_plain _ _ _ _ _ _ _ _ _ p); [exact Hq0|exact N|]. apply evt_S.
      eapply evt_ext; [intros f; symmetry; apply sw_opt, Hrd|].
      eapply evt_bind with (a := ((q0, sn n), roll P cx1 (count cx))); [|apply evt_const].
      apply evt_S. cbn [rep_loop snd]. eapply evt_bind; [exact K|]. cbv iota beta. cbn [fst snd].
      eapply evt_bind; [exact Ks|apply evt_const].
  - assert (Hr' : peval (S h) w (rp cx) (Star e) n = Some r) by exact Hr. clear Hr.
    destruct (star_some G keep cs _ _ _ _ _ _ Hr') as (m & l & ->).
    assert (RR1 : RepRun (S h)) by (apply rep_run; exact B).
    assert (Hpre1 : pre (S h) pat (S p) ch w e n s)
      by (eapply (pre_to (S h)); [exact Hpre|lia|lia|exact Hp1|apply incl_refl]).
    destruct (RR1 _ _ _ Hx pat (S p) ch w n (set_rep cx (S (c_rep cx))) m l (S p) (rp cx) Hpre1 eq_refl Hr')
      as (q & cx1 & Hq & Hok & K).
    exists q, (set_rep cx1 (c_rep cx1 - 1)). split; [exact Hq|]. split; [apply ok_rep, Hok|].
    eapply (atom_plain _ _ _ _ _ _ _ _ _ p); [exact Hq|exact N|]. apply evt_S.
    eapply evt_ext; [intros f; symmetry; apply sw_star, Hrd|].
    eapply evt_bind; [exact K|apply evt_const].
  - destruct (peval h w true e n) as [r1|] eqn:E1; [|discriminate].
    specialize (PR _ _ _ Hx pat (S p) ch w n (set_rep cx (S (c_rep cx))) r1 Hpre' E1).
    destruct r1 as [[k l1]|].
    + destruct PR as (q & cx1 & Hq & Hok & K).
      assert (Hk : (n <= k <= length cs)%nat) by (destruct (peval_bounds G keep cs h w true e n k l1 E1); lia).
      destruct (peval h w (rp cx) (Star e) k) as [[[m l']|]|] eqn:E2; try discriminate.
      assert (r = Some (m, l1 ++ l')) by congruence. subst r.
      assert (Hpre2 : pre h pat (S p) ch w e k s)
        by (eapply (pre_to (S h)); [exact Hpre|lia|lia|exact Hp1|apply incl_refl]).
      destruct (RR _ _ _ Hx pat (S p) ch w k cx1 m l' q (rp cx) Hpre2) as (q2 & cx2 & Hq2 & Hok2 & K2);
        [rewrite (rp_ok _ _ _ Hok); reflexivity|exact E2|].
      exists q2, (set_rep cx2 (c_rep cx2 - 1)). split; [exact Hq2|]. split; [apply ok_rep; eapply ok_trans; eauto|].
      eapply (atom_plain _ _ _ _ _ _ _ _ _ p); [exact Hq2|exact N|]. apply evt_S.
      eapply evt_ext; [intros f; symmetry; apply sw_plus, Hrd|].
      eapply evt_bind; [exact K|]. cbv iota beta. eapply evt_bind; [exact K2|apply evt_const].
    + assert (r = None) by congruence. subst r.
      destruct PR as (cx1 & Hok & K).
      exists (roll P (set_rep cx1 (c_rep cx1 - 1)) (count cx)). split; [eapply roll_ok, ok_grow, ok_rep, Hok|].
      eapply (atom_fails _ _ _ _ _ (S p, sn n)). apply evt_S.
      eapply evt_ext; [intros f; symmetry; apply sw_plus, Hrd|].
      eapply evt_bind; [exact K|]. cbv iota beta. apply evt_const.
Qed.

Lemma branch_run h : Below h -> AtomRun h -> BranchRun h.
Proof.
  intros B AR e s t H. destruct H as [e s t Ha|a e s s' t Ha Hb]; intros Ht pat p ch w n cx r Hpre Hr.
  - specialize (AR _ _ _ Ha pat p ch w n cx r Hpre Hr). destruct r as [[m l]|].
    + destruct AR as (q & cx' & Hq & Hok & K). exists q, cx'. split; [exact Hq|]. split; [exact Hok|].
      apply evt_S. cbn [alt_atoms]. eapply evt_bind; [exact K|]. cbv iota beta. cbn [fst].
      rewrite (At_rd _ _ _ Hq). cbn [rbind].
      assert (X : (first t =? 0) || (first t =? 41) || (first t =? 124) = true).
      { rewrite !orb_true_iff, !Z.eqb_eq. destruct Ht as [Ht|Ht]; [apply ends_first in Ht|]; tauto. }
      rewrite X. apply evt_const.
    + destruct AR as (cx' & Hok & K). eexists _, cx'. split; [eapply ok_grow, Hok|].
      apply evt_S. cbn [alt_atoms]. eapply evt_bind; [exact K|]. cbv iota beta. apply evt_const.
  - destruct h as [|h]; [discriminate|]. cbn [PegEval.peval pstep] in Hr.
    pose proof (proj1 Hpre) as Hp; pose proof (proj1 (proj2 Hpre)) as Hn.
    destruct (B h ltac:(lia)) as (_ & _ & AR' & _ & BR' & _).
    destruct (peval h w (rp cx) a n) as [r1|] eqn:E1; [|discriminate].
    assert (Hpre1 : pre h pat p ch w a n s)
      by (eapply (pre_to (S h)); [exact Hpre|lia|lia|exact Hp|apply incl_appl, incl_refl]).
    specialize (AR' _ _ _ Ha pat p ch w n cx r1 Hpre1 E1). destruct r1 as [[k l1]|].
    + destruct AR' as (q & cx1 & Hq & Hok & K).
      assert (Hk : (n <= k <= length cs)%nat) by (destruct (peval_bounds G keep cs h w (rp cx) a n k l1 E1); lia).
      assert (Hpre2 : pre h pat q ch w e k s')
        by (eapply (pre_to (S h)); [exact Hpre|lia|lia|exact Hq|apply incl_appr, incl_refl]).
      destruct (peval h w (rp cx) e k) as [r2|] eqn:E2; [|discriminate].
      assert (Hh : heads s').
      { destruct (skip_all D L HL) as (_ & _ & _ & SB & _). apply (SB _ _ _ Hb pat q Hq). }
      specialize (BR' _ _ _ Hb Ht pat q ch w k cx1 r2 Hpre2). rewrite (rp_ok _ _ _ Hok) in BR'. specialize (BR' E2).
      assert (ST : forall rs, evt (fun f => alt_atoms f L P pat ch (q, sn k) cx1) rs ->
                   evt (fun f => alt_atoms f L P pat ch (p, sn n) cx) rs).
      { intros rs KK. apply evt_S. cbn [alt_atoms]. eapply evt_bind; [exact K|]. cbv iota beta. cbn [fst].
        rewrite (At_rd _ _ _ Hq). cbn [rbind].
        destruct Hh as (X0 & X1 & X2 & _). rewrite (proj2 (Z.eqb_neq _ _) X0), (proj2 (Z.eqb_neq _ _) X1), (proj2 (Z.eqb_neq _ _) X2).
        exact KK. }
      destruct r2 as [[m l2]|].
      * assert (r = Some (m, l1 ++ l2)) by congruence. subst r.
        destruct BR' as (q2 & cx2 & Hq2 & Hok2 & K2). exists q2, cx2. split; [exact Hq2|].
        split; [eapply ok_trans; eauto|]. apply ST, K2.
      * assert (r = None) by congruence. subst r. destruct BR' as (st' & cx2 & Hg & K2).
        exists st', cx2. split; [eapply ok_grow_trans; eauto|]. apply ST, K2.
    + assert (r = None) by congruence. subst r. destruct AR' as (cx1 & Hok & K).
      eexists _, cx1. split; [eapply ok_grow, Hok|].
      apply evt_S. cbn [alt_atoms]. eapply evt_bind; [exact K|]. cbv iota beta. apply evt_const.
Qed.


Lemma alts_run h : Below h -> BranchRun h -> AltsRun h.
Proof.
  intros B BR e s t H. destruct H as [e s t Hb He|a b s s' t Ha Hb]; intros pat p ch w n cx cx0 sp r Hpre Hcx Hr;
    pose proof (proj1 Hpre) as Hp; pose proof (proj1 (proj2 Hpre)) as Hn;
    pose proof (At_rd _ _ _ Hp) as Hrd; cbn [first] in Hrd;
    pose proof (At_cons _ _ _ _ Hp) as Hp1;
    destruct (skip_all D L HL) as (_ & _ & _ & SB & SA & _).
  - assert (Hpre1 : pre h pat (S p) ch w e n s)
      by (eapply (pre_to h); [exact Hpre|lia|lia|exact Hp1|apply incl_refl]).
    specialize (BR _ _ _ Hb (or_introl He) pat (S p) ch w n cx r Hpre1 Hr).
    assert (Ht : (first t =? 124) = false) by (apply Z.eqb_neq; apply ends_first in He; lia).
    destruct r as [[m l]|].
    + destruct BR as (q & cx1 & Hq & Hok & K). exists q, cx1, (S p). split; [exact Hq|].
      split; [apply (ok_trans cx0 cx cx1 [] l); auto|].
      apply evt_S. cbn [alt_loop]. rewrite Hrd. cbn [rbind]. change (124 =? 124) with true. cbv iota.
      eapply evt_bind; [exact K|]. cbv iota beta.
      eapply evt_bind with (a := q); [|apply evt_const].
      apply evt_S, evt_eq. intros f. cbn [skip_alternates]. rewrite (At_rd _ _ _ Hq). cbn [rbind]. rewrite Ht. reflexivity.
    + destruct BR as ([q1 s1] & cx1 & Hg & K).
      destruct (bar_skip _ _ _ _ _ (SB _ _ _ Hb) (or_introl He) Hp) as (q & Hq & Ks).
      exists (S p), (S p, sn n), (roll P cx1 (count cx0)).
      split; [eapply roll_ok, ok_grow_trans; eauto|].
      split; [exists s; split; [exact Hp1|]; apply (SB _ _ _ Hb pat (S p) Hp1)|].
      apply evt_S. cbn [alt_loop]. rewrite Hrd. cbn [rbind]. change (124 =? 124) with true. cbv iota.
      eapply evt_bind; [exact K|]. cbv iota beta. eapply evt_bind; [exact Ks|].
      apply evt_S, evt_eq. intros f. cbn [alt_loop]. rewrite (At_rd _ _ _ Hq). cbn [rbind]. rewrite Ht. reflexivity.
  - destruct h as [|h]; [discriminate|]. cbn [PegEval.peval pstep] in Hr.
    destruct (B h ltac:(lia)) as (_ & _ & _ & _ & BR' & AR' & _).
    destruct (peval h w (rp cx) a n) as [r1|] eqn:E1; [|discriminate].
    assert (Hpre1 : pre h pat (S p) ch w a n s)
      by (eapply (pre_to (S h)); [exact Hpre|lia|lia|exact Hp1|apply incl_appl, incl_refl]).
    specialize (BR' _ _ _ Ha (or_intror eq_refl) pat (S p) ch w n cx r1 Hpre1 E1).
    destruct r1 as [[m l]|].
    + assert (r = Some (m, l)) by congruence. subst r.
      destruct BR' as (q & cx1 & Hq & Hok & K).
      destruct (SA _ _ _ Hb pat q Hq) as (q2 & Hq2 & _ & Ks).
      exists q2, cx1, (S p). split; [exact Hq2|]. split; [apply (ok_trans cx0 cx cx1 [] l); auto|].
      apply evt_S. cbn [alt_loop]. rewrite Hrd. cbn [rbind]. change (124 =? 124) with true. cbv iota.
      eapply evt_bind; [exact K|]. cbv iota beta. eapply evt_bind; [exact Ks|apply evt_const].
    + destruct BR' as ([q1 s1] & cx1 & Hg & K).
      destruct (bar_skip _ _ _ _ _ (SB _ _ _ Ha) (or_intror eq_refl) Hp) as (q & Hq & Ks).
      set (cx2 := roll P cx1 (count cx0)).
      assert (Hok2 : cxok cx0 cx2 []) by (eapply roll_ok, ok_grow_trans; eauto).
      assert (Hpre2 : pre h pat q ch w b n (124 :: s'))
        by (eapply (pre_to (S h)); [exact Hpre|lia|lia|exact Hq|apply incl_appr, incl_refl]).
      specialize (AR' _ _ _ Hb pat q ch w n cx2 cx0 (S p) r Hpre2 Hok2).
      rewrite (rp_ok _ _ _ Hok2), <- (rp_ok _ _ _ Hcx) in AR'. specialize (AR' Hr).
      assert (ST : forall rs, evt (fun f => alt_loop f L P pat ch (count cx0) q (S p) (sn n) cx2) rs ->
                   evt (fun f => alt_loop f L P pat ch (count cx0) p sp (sn n) cx) rs).
      { intros rs KK. apply evt_S. cbn [alt_loop]. rewrite Hrd. cbn [rbind]. change (124 =? 124) with true. cbv iota.
        eapply evt_bind; [exact K|]. cbv iota beta. eapply evt_bind; [exact Ks|]. exact KK. }
      destruct r as [[m l]|].
      * destruct AR' as (q2 & cx' & sp' & Hq2 & Hok' & K2). exists q2, cx', sp'. auto.
      * destruct AR' as (sp' & st' & cx' & Hok' & Hs & K2). exists sp', st', cx'. auto.
Qed.

Lemma expr_run h : Below h -> AltsRun h -> ExprRun h.
Proof.
  intros B AR e s t H. destruct H as [t He|a e s s' t Ha Hx|e s t Hal]; intros pat p ch w n cx r Hpre Hr;
    pose proof (proj1 Hpre) as Hp; pose proof (proj1 (proj2 Hpre)) as Hn;
    pose proof (At_rd _ _ _ Hp) as Hrd.
  - destruct h as [|h]; [discriminate|]. cbn [PegEval.peval pstep] in Hr. injection Hr as <-.
    exists p, cx. split; [exact Hp|]. split; [apply ok_refl|].
    apply evt_S, evt_eq. intros f. cbn [seq_loop fst]. unfold at_expr_end. rewrite Hrd. cbn [rbind].
    apply ends_first in He. destruct He as [-> | ->]; reflexivity.
  - destruct h as [|h]; [discriminate|]. cbn [PegEval.peval pstep] in Hr.
    destruct (B h ltac:(lia)) as (_ & _ & AR' & _ & _ & _ & XR').
    destruct (peval h w (rp cx) a n) as [r1|] eqn:E1; [|discriminate].
    pose proof (atom_heads _ _ _ _ _ Ha Hp) as (X0 & X1 & _).
    assert (NE : at_expr_end pat p = Done false).
    { unfold at_expr_end. rewrite Hrd. cbn [rbind]. rewrite (proj2 (Z.eqb_neq _ _) X0), (proj2 (Z.eqb_neq _ _) X1). reflexivity. }
    assert (Hpre1 : pre h pat p ch w a n s)
      by (eapply (pre_to (S h)); [exact Hpre|lia|lia|exact Hp|apply incl_appl, incl_refl]).
    specialize (AR' _ _ _ Ha pat p ch w n cx r1 Hpre1 E1). destruct r1 as [[k l1]|].
    + destruct AR' as (q & cx1 & Hq & Hok & K).
      assert (Hk : (n <= k <= length cs)%nat) by (destruct (peval_bounds G keep cs h w (rp cx) a n k l1 E1); lia).
      assert (Hpre2 : pre h pat q ch w e k s')
        by (eapply (pre_to (S h)); [exact Hpre|lia|lia|exact Hq|apply incl_appr, incl_refl]).
      destruct (peval h w (rp cx) e k) as [r2|] eqn:E2; [|discriminate].
      specialize (XR' _ _ _ Hx pat q ch w k cx1 r2 Hpre2). rewrite (rp_ok _ _ _ Hok) in XR'. specialize (XR' E2).
      assert (ST : forall rs, evt (fun f => seq_loop f L P pat ch (q, sn k) cx1) rs ->
                   evt (fun f => seq_loop f L P pat ch (p, sn n) cx) rs).
      { intros rs KK. apply evt_S. cbn [seq_loop fst]. rewrite NE. cbn [rbind]. cbv iota.
        eapply evt_bind; [exact K|]. cbv iota beta. exact KK. }
      destruct r2 as [[m l2]|].
      * assert (r = Some (m, l1 ++ l2)) by congruence. subst r.
        destruct XR' as (q2 & cx2 & Hq2 & Hok2 & K2). exists q2, cx2. split; [exact Hq2|].
        split; [eapply ok_trans; eauto|]. apply ST, K2.
      * assert (r = None) by congruence. subst r. destruct XR' as (q2 & s1 & cx2 & Hg & Hs & K2).
        exists q2, s1, cx2. split; [eapply ok_grow_trans; eauto|]. split; [exact Hs|]. apply ST, K2.
    + assert (r = None) by congruence. subst r. destruct AR' as (cx1 & Hok & K).
      exists p, (sn n), cx1. split; [eapply ok_grow, Hok|]. split; [eauto|].
      apply evt_S. cbn [seq_loop fst]. rewrite NE. cbn [rbind]. cbv iota.
      eapply evt_bind; [exact K|]. cbv iota beta. apply evt_const.
  - assert (Es : first s = 124) by (destruct Hal; reflexivity).
    assert (Ht : ends t) by (clear - Hal; induction Hal; assumption).
    assert (NE : at_expr_end pat p = Done false).
    { unfold at_expr_end. rewrite Hrd, Es. reflexivity. }
    rewrite Es in Hrd.
    specialize (AR _ _ _ Hal pat p ch w n cx cx p r Hpre (ok_refl cx) Hr).
    destruct r as [[m l]|].
    + destruct AR as (q & cx1 & sp' & Hq & Hok & K). exists q, cx1. split; [exact Hq|]. split; [exact Hok|].
      apply evt_S. cbn [seq_loop fst]. rewrite NE. cbn [rbind]. cbv iota.
      eapply evt_bind with (a := (true, (q, sn m), cx1)).
      { eapply (atom_plain _ _ _ _ _ _ _ _ _ sp'); [exact Hq|apply ends_nolabel, Ht|].
        apply evt_S. eapply evt_ext; [intros f; symmetry; apply sw_alt, Hrd|]. exact K. }
      cbv iota beta. apply evt_S, evt_eq. intros f. cbn [seq_loop fst]. unfold at_expr_end.
      rewrite (At_rd _ _ _ Hq). cbn [rbind]. apply ends_first in Ht. destruct Ht as [-> | ->]; reflexivity.
    + destruct AR as (sp' & st' & cx1 & Hok & Hs & K). exists sp', (sn n), (roll P cx1 (count cx)).
      split; [eapply ok_grow, roll_ok, ok_grow, Hok|]. split; [exact Hs|].
      apply evt_S. cbn [seq_loop fst]. rewrite NE. cbn [rbind]. cbv iota.
      eapply evt_bind with (a := (false, (sp', sn n), roll P cx1 (count cx))).
      { eapply (atom_fails _ _ _ _ _ st'). apply evt_S. eapply evt_ext; [intros f; symmetry; apply sw_alt, Hrd|]. exact K. }
      cbv iota beta. apply evt_const.
Qed.

Lemma all_runs h : BareRun h /\ PrimRun h /\ AtomRun h /\ RepRun h /\ BranchRun h /\ AltsRun h /\ ExprRun h.
Proof.
  induction h as [h B] using lt_wf_ind.
  pose proof (bare_run h B) as H1. pose proof (prim_run h B H1) as H2. pose proof (atoms_run h B H2) as H3.
  pose proof (branch_run h B H3) as H4. pose proof (alts_run h B H4) as H5.
  exact (conj H1 (conj H2 (conj H3 (conj (rep_run h B) (conj H4 (conj H5 (expr_run h B H5))))))).
Qed.

(** match_here on a whole pattern. *)
Lemma here_run e pat ch w n cx r h : spells D e pat -> Forall ascii pat ->
  (n <= length cs)%nat -> chain_ok n w ch -> (used e <> [] -> chain_full ch) ->
  (C -> calls_ok (wanted w) e) -> peval h w (rp cx) e n = Some r ->
  match r with
  | Some (m, l) => exists cx', cxok cx cx' l /\
      evt (fun f => match_here f L P pat ch (sn n) cx) (false, sn m, cx')
  | None => exists cx', cxok cx cx' [] /\
      evt (fun f => match_here f L P pat ch (sn n) cx) (true, sn n, cx')
  end.
Proof.
  intros Hs Ha Hn Hc Hf Hu Hr. destruct (all_runs h) as (_ & _ & _ & _ & _ & _ & XR).
  assert (Hpre : pre h pat 0 ch w e n pat).
  { split; [apply At_start, Ha|]. auto. }
  specialize (XR _ _ _ Hs pat O ch w n cx r Hpre Hr). unfold match_here.
  destruct r as [[m l]|].
  - destruct XR as (q & cx1 & Hq & Hok & K). exists cx1. split; [exact Hok|].
    eapply evt_bind with (a := (true, (q, sn m), cx1)).
    { apply evt_S. cbn [match_sequence]. eapply evt_bind; [exact K|]. apply evt_const. }
    cbv iota beta. rewrite (At_rd _ _ _ Hq). cbn [rbind first andb]. change (0 =? 0) with true. cbv iota.
    unfold is_failure. cbn [fst snd]. rewrite (At_rd _ _ _ (At_start _ Ha)). cbn [rbind].
    destruct (Z.eqb_spec (first pat) 0); [apply evt_const|].
    destruct (Nat.eqb_spec 0 q) as [<-|]; [|apply evt_const].
    exfalso. destruct Hq as [_ (pr & E & El)]. destruct pr; [|discriminate]. rewrite E in n0. cbn in n0. congruence.
  - destruct XR as (q & s1 & cx1 & Hg & (s' & Hs' & N0) & K). exists (roll P cx1 (count cx)).
    split; [apply roll_ok, Hg|].
    eapply evt_bind with (a := (false, (q, s1), roll P cx1 (count cx))).
    { apply evt_S. cbn [match_sequence]. eapply evt_bind; [exact K|]. apply evt_const. }
    cbv iota beta. rewrite (At_rd _ _ _ Hs'). cbn [rbind andb]. cbv iota.
    unfold is_failure. cbn [fst snd]. rewrite (At_rd _ _ _ Hs'). cbn [rbind].
    rewrite (proj2 (Z.eqb_neq _ _) N0), Nat.eqb_refl. unfold same. rewrite Nat.eqb_refl. apply evt_const.
Qed.

End Match.
