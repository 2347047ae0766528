(** Well-formed code is matched without leaving the program. *)
From Verif Require Import Base UTF8Model UTF8Spec UTF8Proofs CharModel RxCompModel RxModel RxSpec RxVm RxGen RxProg RxCode RxTame RxLay.
From Verif Require RxSize.
From Verif Require RxRun.

(** ** Closed sets of stations *)
Section Closed.
Variable P : list Z.
(** Where an instruction at [s] leads: to stations of [St], on without looking
    further only forwards or to a split, and a lookahead into [inner]. *)
Definition proper (inner St : Z -> Prop) (s : Z) (i : instr) : Prop :=
  match i with
  | IAccept | ICapEnd _ _ => True
  | IChar _ n | IAny n | IClass _ _ n | IProp _ n => St n
  | IBOL n | IEOL n | IZero n => St n /\ s < n
  | ICapStart k n => St n /\ s < n /\ k <> 0
  | IJump a => St a /\ (s < a \/ exists x y, decode P a = Ok (ISplit x y))
  | ISplit a n | ICount _ _ a n => St a /\ St n
  | INeg a n => St a /\ inner n
  | IOther => False
  end.
Lemma proper_mono (inner inner' St St' : Z -> Prop) s i : (forall x, St x -> St' x) -> (forall x, inner x -> inner' x) -> proper inner St s i -> proper inner' St' s i.
Proof. intros H1 H2. destruct i; cbn [proper]; intuition. Qed.
(** The same with the beginning of the match *)
Definition leads (inner St : Z -> Prop) (s : Z) (i : instr) : Prop :=
  proper inner St s i \/ exists n, i = ICapStart 0 n /\ St n /\ s < n.
Lemma leads_mono (inner inner' St St' : Z -> Prop) s i : (forall x, St x -> St' x) -> (forall x, inner x -> inner' x) -> leads inner St s i -> leads inner' St' s i.
Proof. intros H1 H2 [H|(n & -> & A & B)]; [left; eapply proper_mono; eassumption|right; exists n; auto]. Qed.
Fixpoint closed (d : nat) (n : Z) : Prop :=
  match d with
  | O => False
  | S d => exists St : Z -> Prop, St n /\ forall s, St s -> 0 <= s < zl P /\ exists i, decode P s = Ok i /\ leads (closed d) St s i
  end.
Lemma closed_S d : forall n, closed d n -> closed (S d) n.
Proof.
  induction d as [|d IH]; intros n H; [contradiction|]. destruct H as (St & Hn & H). exists St. split; [exact Hn|]. intros s Hs. destruct (H s Hs) as (R & i & D & Q).
  split; [exact R|]. exists i. split; [exact D|]. eapply leads_mono; [| |exact Q]; auto.
Qed.
Lemma closed_le d d' n : (d <= d')%nat -> closed d n -> closed d' n.
Proof. intros H. induction H; [auto|]. intros C. apply closed_S, IHle, C. Qed.
End Closed.

(** ** Code *)
Definition region (X : list Z) : Prop := forall P pre post, P = pre ++ X ++ post -> small P ->
  exists St : Z -> Prop, (forall s, St s -> zl pre <= s < zl pre + zl X) /\ (zl X = 0 \/ St (zl pre)) /\
    forall s, St s -> exists i, decode P s = Ok i /\ proper P (closed P (length X)) (fun x => St x \/ x = zl pre + zl X) s i.

Lemma region_nil : region [].
Proof. intros P pre post HP HS. exists (fun _ => False). split; [intros s []|]. split; [left; reflexivity|intros s []]. Qed.
Lemma region_app X Y : region X -> region Y -> region (X ++ Y).
Proof.
  intros HX HY P pre post HP HS.
  destruct (HX P pre (Y ++ post)) as (S1 & A1 & B1 & C1); [rewrite HP; norm_app|exact HS|].
  destruct (HY P (pre ++ X) post) as (S2 & A2 & B2 & C2); [rewrite HP; norm_app|exact HS|].
  rewrite zl_app in A2, B2, C2. rewrite zl_app, app_length. pose proof (zl_pos X). pose proof (zl_pos Y).
  assert (K : forall x, x = zl pre + zl X -> (S1 x \/ S2 x) \/ x = zl pre + (zl X + zl Y)) by (intros x ->; destruct B2 as [B2|B2]; [right; lia|auto]).
  exists (fun s => S1 s \/ S2 s). split; [|split].
  - intros s [H1|H1]; [apply A1 in H1|apply A2 in H1]; lia.
  - destruct B1 as [B1|B1]; [|auto]. destruct (K (zl pre) ltac:(lia)) as [E|E]; [right; exact E|left; lia].
  - intros s [H1|H1]; [destruct (C1 s H1) as (i & D & Q)|destruct (C2 s H1) as (i & D & Q)]; exists i; (split; [exact D|]); eapply proper_mono; [| |exact Q| | |exact Q].
    + intros x [Hx|Hx]; [auto|apply K, Hx].
    + intros x. apply closed_le. lia.
    + intros x [Hx|Hx]; [auto|right; lia].
    + intros x. apply closed_le. lia.
Qed.
(** One instruction that leads on *)
Lemma region_one X : X <> [] -> (forall P pre post, P = pre ++ X ++ post -> small P -> exists i, decode P (zl pre) = Ok i /\ proper P (fun _ => False) (fun x => x = zl pre + zl X) (zl pre) i) -> region X.
Proof.
  intros HN H P pre post HP HS. destruct (H P pre post HP HS) as (i & D & Q). exists (fun s => s = zl pre). assert (0 < zl X) by (destruct X; [contradiction|rewrite zl_cons; pose proof (zl_pos X); lia]).
  split; [intros s ->; lia|]. split; [auto|]. intros s ->. exists i. split; [exact D|]. eapply proper_mono; [| |exact Q]; [auto|contradiction].
Qed.
Lemma region_char c : fine c -> region (67 :: UTF8Put c).
Proof.
  intros Hc. apply region_one; [discriminate|]. intros P pre post HP HS. exists (IChar c (zl pre + zl (67 :: UTF8Put c))). split; [|reflexivity].
  rewrite HP. unfold decode. cbn [app]. rewrite rdZ_mid by reflexivity. cbn [obind].
  change (67 =? 67) with true. cbn [obind].
  rewrite snoc_app. rewrite (get_at_fine (pre ++ [67])) by (rewrite ?zl_snoc; first [reflexivity|exact Hc]).
  cbn [obind fst snd]. rewrite zl_cons. do 2 f_equal. lia.
Qed.
Lemma text_op op pre l post P : P = pre ++ (op :: string_bytes l) ++ post -> small P -> Forall fine l -> text_at P (zl pre + 1) = Ok (l, zl pre + zl (op :: string_bytes l)).
Proof.
  intros HP HS Hl. destruct (small_app _ _ _ _ HP HS) as (A1 & A2 & A3 & A4). subst P. cbn [app]. rewrite snoc_app, text_fine.
  - rewrite zl_cons. do 2 f_equal. lia.
  - rewrite zl_snoc. reflexivity.
  - assumption.
  - rewrite zl_cons in A4. pose proof (string_fine l). lia.
Qed.
Lemma region_prop l : Forall fine l -> region (80 :: string_bytes l).
Proof.
  intros Hl. apply region_one; [discriminate|]. intros P pre post HP HS. exists (IProp l (zl pre + zl (80 :: string_bytes l))). split; [|reflexivity].
  unfold decode. rewrite HP at 1. cbn [app]. rewrite rdZ_mid by reflexivity. cbn [obind Z.eqb Pos.eqb]. rewrite (text_op 80 pre l post P HP HS Hl). reflexivity.
Qed.
Lemma region_class (neg : bool) l : Forall fine l -> region ((if neg then 78 else 76) :: string_bytes l).
Proof.
  intros Hl. apply region_one; [discriminate|]. intros P pre post HP HS. exists (IClass neg l (zl pre + zl ((if neg then 78 else 76) :: string_bytes l))). split; [|reflexivity].
  unfold decode. rewrite HP at 1. cbn [app]. rewrite rdZ_mid by reflexivity.
  destruct neg; cbn [obind Z.eqb Pos.eqb]; rewrite (text_op _ pre l post P HP HS Hl); reflexivity.
Qed.
Ltac plain := apply region_one; [discriminate|]; intros P pre post HP HS; eexists; split; [unfold decode; rewrite HP; cbn [app]; rewrite rdZ_mid by reflexivity; cbn [obind Z.eqb Pos.eqb]; reflexivity|cbn [proper]; change (zl [?x]) with 1; rewrite ?zl_cons, ?zl_nil; lia].
Lemma region_any : region [46]. Proof. plain. Qed.
Lemma region_bol : region [94]. Proof. plain. Qed.
Lemma region_eol : region [36]. Proof. plain. Qed.

(** A region with one more instruction at [at_] *)
Ltac lens := repeat (rewrite zl_cons in * || rewrite zl_app in * || rewrite zl_nil in * ).
Lemma region_opt v X : v = zl (offset_bytes v) + zl X -> region X -> region (65 :: offset_bytes v ++ X).
Proof.
  intros Hv HX P pre post HP HS. destruct (small_app _ _ _ _ HP HS) as (A1 & A2 & A3 & A4).
  set (o := offset_bytes v) in *. pose proof (zl_pos o). pose proof (zl_pos X).
  destruct (HX P (pre ++ 65 :: o) post) as (S1 & B1 & B2 & B3); [rewrite HP; norm_app|exact HS|].
  assert (D : decode P (zl pre) = Ok (ISplit (zl pre + 1 + v) (zl pre + 1 + zl o))).
  { apply (decode_split pre v (X ++ post)); [rewrite HP; norm_app|exact HS|]. lens. rewrite HP. lens. fold o. lia. }
  lens. exists (fun s => s = zl pre \/ S1 s). split; [|split].
  - intros s [-> |H1]; [lia|apply B1 in H1; lia].
  - auto.
  - intros s [-> |H1].
    + eexists. split; [exact D|]. cbn [proper]. split; [right; lia|]. destruct B2 as [B2|B2]; [right; lia|left; right]. replace (zl pre + 1 + zl o) with (zl pre + (1 + zl o)) by lia. exact B2.
    + destruct (B3 s H1) as (i & D1 & Q). exists i. split; [exact D1|]. eapply proper_mono; [| |exact Q].
      * intros x [Hx|Hx]; [auto|right; lia].
      * intros x. apply closed_le. cbn [length]. rewrite app_length. lia.
Qed.
Lemma region_alt v w X Y : v = zl (offset_bytes v) + zl X + 1 + zl (offset_bytes w) -> w = zl (offset_bytes w) + zl Y -> region X -> region Y -> region (65 :: offset_bytes v ++ X ++ 74 :: offset_bytes w ++ Y).
Proof.
  intros Hv Hw HX HY P pre post HP HS. destruct (small_app _ _ _ _ HP HS) as (A1 & A2 & A3 & A4).
  set (o := offset_bytes v) in *. set (u := offset_bytes w) in *. pose proof (zl_pos o). pose proof (zl_pos X). pose proof (zl_pos u). pose proof (zl_pos Y).
  destruct (HX P (pre ++ 65 :: o) ((74 :: u ++ Y) ++ post)) as (S1 & B1 & B2 & B3); [rewrite HP; norm_app|exact HS|].
  destruct (HY P (pre ++ 65 :: o ++ X ++ 74 :: u) post) as (S2 & C1 & C2 & C3); [rewrite HP; norm_app|exact HS|].
  assert (HPl : zl P = zl pre + (1 + (zl o + (zl X + (1 + (zl u + zl Y))))) + zl post) by (rewrite HP; lens; lia).
  assert (D : decode P (zl pre) = Ok (ISplit (zl pre + 1 + v) (zl pre + 1 + zl o))).
  { apply (decode_split pre v (X ++ 74 :: u ++ Y ++ post)); [rewrite HP; norm_app|exact HS|]. lia. }
  pose proof (decode_jump (pre ++ 65 :: o ++ X) w (Y ++ post) P ltac:(rewrite HP; norm_app) HS) as D2.
  lens. specialize (D2 ltac:(lia)).
  set (J := zl pre + (1 + (zl o + zl X))) in *.
  exists (fun s => s = zl pre \/ S1 s \/ s = J \/ S2 s). split; [|split].
  - intros s [-> |[H3|[-> |H3]]]; [lia|apply B1 in H3; lia|unfold J; lia|apply C1 in H3; lia].
  - auto.
  - intros s [-> |[H3|[-> |H3]]].
    + eexists. split; [exact D|]. cbn [proper]. split.
      * destruct C2 as [C2|C2]; [right; lia|left; do 3 right]. replace (zl pre + 1 + v) with (zl pre + (1 + (zl o + (zl X + (1 + zl u))))) by lia. exact C2.
      * left. destruct B2 as [B2|B2]; [right; right; left; unfold J; lia|right; left]. replace (zl pre + 1 + zl o) with (zl pre + (1 + zl o)) by lia. exact B2.
    + destruct (B3 s H3) as (i & D1 & Q). exists i. split; [exact D1|]. eapply proper_mono; [| |exact Q].
      * intros x [Hx|Hx]; [auto|left; right; right; left; unfold J; lia].
      * intros x. apply closed_le. cbn [length]. rewrite !app_length. lia.
    + eexists. split; [exact D2|]. cbn [proper]. split; [right; unfold J; lia|left; lia].
    + destruct (C3 s H3) as (i & D1 & Q). exists i. split; [exact D1|]. eapply proper_mono; [| |exact Q].
      * intros x [Hx|Hx]; [auto|right; lia].
      * intros x. apply closed_le. cbn [length]. rewrite !app_length. cbn [length]. rewrite app_length. lia.
Qed.
Lemma region_star v w X : v = zl (offset_bytes v) + zl X + 1 + zl (offset_bytes w) -> w = - (1 + zl (offset_bytes v) + zl X + 1) -> region X -> region (65 :: offset_bytes v ++ X ++ 74 :: offset_bytes w).
Proof.
  intros Hv Hw HX P pre post HP HS. destruct (small_app _ _ _ _ HP HS) as (A1 & A2 & A3 & A4).
  set (o := offset_bytes v) in *. set (u := offset_bytes w) in *. pose proof (zl_pos o). pose proof (zl_pos X). pose proof (zl_pos u).
  destruct (HX P (pre ++ 65 :: o) ((74 :: u) ++ post)) as (S1 & B1 & B2 & B3); [rewrite HP; norm_app|exact HS|].
  assert (HPl : zl P = zl pre + (1 + (zl o + (zl X + (1 + zl u)))) + zl post) by (rewrite HP; lens; lia).
  assert (D : decode P (zl pre) = Ok (ISplit (zl pre + 1 + v) (zl pre + 1 + zl o))).
  { apply (decode_split pre v (X ++ 74 :: u ++ post)); [rewrite HP; norm_app|exact HS|]. lia. }
  pose proof (decode_jump (pre ++ 65 :: o ++ X) w post P ltac:(rewrite HP; norm_app) HS) as D2.
  lens. specialize (D2 ltac:(lia)).
  set (J := zl pre + (1 + (zl o + zl X))) in *.
  exists (fun s => s = zl pre \/ S1 s \/ s = J). split; [|split].
  - intros s [-> |[H3| ->]]; [lia|apply B1 in H3; lia|unfold J; lia].
  - auto.
  - intros s [-> |[H3| ->]].
    + eexists. split; [exact D|]. cbn [proper]. split; [right; lia|]. left. destruct B2 as [B2|B2]; [right; right; unfold J; lia|right; left]. replace (zl pre + 1 + zl o) with (zl pre + (1 + zl o)) by lia. exact B2.
    + destruct (B3 s H3) as (i & D1 & Q). exists i. split; [exact D1|]. eapply proper_mono; [| |exact Q].
      * intros x [Hx|Hx]; [auto|left; right; right; unfold J; lia].
      * intros x. apply closed_le. cbn [length]. rewrite !app_length. lia.
    + eexists. split; [exact D2|]. cbn [proper]. assert (E : J + 1 + w = zl pre) by (unfold J; lia). rewrite E. split; [auto|right; eauto].
Qed.
Lemma region_plus v X : v = - (zl X + 1) -> region X -> region (X ++ 65 :: offset_bytes v).
Proof.
  intros Hv HX P pre post HP HS. destruct (small_app _ _ _ _ HP HS) as (A1 & A2 & A3 & A4).
  set (o := offset_bytes v) in *. pose proof (zl_pos o). pose proof (zl_pos X).
  destruct (HX P pre ((65 :: o) ++ post)) as (S1 & B1 & B2 & B3); [rewrite HP; norm_app|exact HS|].
  assert (HPl : zl P = zl pre + (zl X + (1 + zl o)) + zl post) by (rewrite HP; lens; lia).
  pose proof (decode_split (pre ++ X) v post P ltac:(rewrite HP; norm_app) HS) as D. lens. fold o in D. specialize (D ltac:(lia)).
  set (J := zl pre + zl X) in *.
  exists (fun s => S1 s \/ s = J). split; [|split].
  - intros s [H3| ->]; [apply B1 in H3; lia|unfold J; lia].
  - right. destruct B2 as [B2|B2]; [right; unfold J; lia|auto].
  - intros s [H3| ->].
    + destruct (B3 s H3) as (i & D1 & Q). exists i. split; [exact D1|]. eapply proper_mono; [| |exact Q].
      * intros x [Hx|Hx]; auto.
      * intros x. apply closed_le. rewrite !app_length. lia.
    + eexists. split; [exact D|]. cbn [proper]. split; [|right; unfold J; lia]. left. destruct B2 as [B2|B2]; [right; unfold J; lia|left]. replace (J + 1 + v) with (zl pre) by (unfold J; lia). exact B2.
Qed.
Lemma region_count a b v X : v = - (zl X + 3) -> region X -> region (90 :: X ++ 82 :: a :: b :: offset_bytes v).
Proof.
  intros Hv HX P pre post HP HS. destruct (small_app _ _ _ _ HP HS) as (A1 & A2 & A3 & A4).
  pose proof (zl_pos (offset_bytes v)). pose proof (zl_pos X).
  destruct (HX P (pre ++ [90]) ((82 :: a :: b :: offset_bytes v) ++ post)) as (S1 & B1 & B2 & B3); [rewrite HP; norm_app|exact HS|].
  assert (HPl : zl P = zl pre + (1 + (zl X + (1 + (1 + (1 + zl (offset_bytes v)))))) + zl post) by (rewrite HP; lens; lia).
  assert (D0 : decode P (zl pre) = Ok (IZero (zl pre + 1))) by (unfold decode; rewrite HP; cbn [app]; rewrite rdZ_mid by reflexivity; reflexivity).
  set (q1 := pre ++ 90 :: X). assert (Zq : zl q1 = zl pre + (1 + zl X)) by (unfold q1; lens; lia).
  assert (D : decode P (zl q1) = Ok (ICount (u16 (a - 1)) (u16 (b - 1)) (zl q1 + 3 + v) (zl q1 + 3 + zl (offset_bytes v)))).
  { assert (Q1 : P = q1 ++ 82 :: a :: b :: offset_bytes v ++ post) by (unfold q1; rewrite HP; norm_app).
    assert (Q2 : P = (q1 ++ [82]) ++ a :: b :: offset_bytes v ++ post) by (rewrite Q1; norm_app).
    assert (Q3 : P = (q1 ++ [82; a]) ++ b :: offset_bytes v ++ post) by (rewrite Q1; norm_app).
    assert (Q4 : P = (q1 ++ [82; a; b]) ++ offset_bytes v ++ post) by (rewrite Q1; norm_app).
    assert (R1 : rdZ P (zl q1) = Ok 82) by (rewrite Q1 at 1; apply rdZ_mid; reflexivity).
    assert (R2 : rdZ P (zl q1 + 1) = Ok a) by (rewrite Q2; apply rdZ_mid; rewrite zl_app; reflexivity).
    assert (R3 : rdZ P (zl q1 + 1 + 1) = Ok b) by (rewrite Q3; apply rdZ_mid; rewrite zl_app; change (zl [82; a]) with 2; lia).
    assert (R4 : offset_at P (zl q1 + 1 + 2) = Ok (zl q1 + 3 + v, zl q1 + 3 + zl (offset_bytes v))).
    { rewrite Q4. rewrite offset_at_put; [do 2 f_equal; lia|rewrite zl_app; change (zl [82; a; b]) with 3; lia| |]; lens; unfold small in HS; lia. }
    unfold decode. rewrite R1. cbn [obind Z.eqb Pos.eqb]. rewrite R2. cbn [obind]. rewrite R3. cbn [obind]. rewrite R4. reflexivity. }
  rewrite Zq in D. lens. set (J := zl pre + (1 + zl X)) in *.
  assert (KX : S1 (zl pre + 1) \/ zl pre + 1 = J) by (unfold J; destruct B2 as [B2|B2]; [right; lia|left]; replace (zl pre + 1) with (zl pre + (1 + 0)) by lia; exact B2).
  exists (fun s => s = zl pre \/ S1 s \/ s = J). split; [|split].
  - intros s [-> |[H3| ->]]; [lia|apply B1 in H3; lia|unfold J; lia].
  - auto.
  - intros s [-> |[H3| ->]].
    + eexists. split; [exact D0|]. cbn [proper]. split; [left; tauto|lia].
    + destruct (B3 s H3) as (i & D1 & Q). exists i. split; [exact D1|]. eapply proper_mono; [| |exact Q].
      * intros x [Hx|Hx]; [auto|left; right; right; unfold J; lia].
      * intros x. apply closed_le. cbn [length]. rewrite !app_length. lia.
    + eexists. split; [exact D|]. cbn [proper]. replace (J + 3 + v) with (zl pre + 1) by (unfold J; lia). split; [left; tauto|right; unfold J; lia].
Qed.
Lemma region_named g X : 1 < g -> region X -> region (40 :: g :: X ++ [41; g]).
Proof.
  intros Hg HX P pre post HP HS. destruct (small_app _ _ _ _ HP HS) as (A1 & A2 & A3 & A4). pose proof (zl_pos X).
  destruct (HX P (pre ++ [40; g]) ([41; g] ++ post)) as (S1 & B1 & B2 & B3); [rewrite HP; norm_app|exact HS|].
  assert (D0 : decode P (zl pre) = Ok (ICapStart (g - 1) (zl pre + 1 + 1))).
  { unfold decode. rewrite HP at 1. cbn [app]. rewrite rdZ_mid by reflexivity. cbn [obind Z.eqb Pos.eqb]. assert (R : rdZ P (zl pre + 1) = Ok g) by (rewrite HP; cbn [app]; rewrite snoc_app; apply rdZ_mid; rewrite zl_snoc; reflexivity). rewrite R. reflexivity. }
  set (q1 := pre ++ 40 :: g :: X). assert (Zq : zl q1 = zl pre + (1 + (1 + zl X))) by (unfold q1; lens; lia).
  assert (D : decode P (zl q1) = Ok (ICapEnd (g - 1) (zl q1 + 1 + 1))).
  { assert (Q1 : P = q1 ++ 41 :: g :: post) by (unfold q1; rewrite HP; norm_app).
    unfold decode. rewrite Q1 at 1. rewrite rdZ_mid by reflexivity. cbn [obind Z.eqb Pos.eqb]. assert (R : rdZ P (zl q1 + 1) = Ok g) by (rewrite Q1; rewrite snoc_app; apply rdZ_mid; rewrite zl_snoc; reflexivity). rewrite R. reflexivity. }
  rewrite Zq in D. lens. set (J := zl pre + (1 + (1 + zl X))) in *.
  exists (fun s => s = zl pre \/ S1 s \/ s = J). split; [|split].
  - intros s [-> |[H3| ->]]; [lia|apply B1 in H3; lia|unfold J; lia].
  - auto.
  - intros s [-> |[H3| ->]].
    + eexists. split; [exact D0|]. cbn [proper]. split; [|lia]. left. right. destruct B2 as [B2|B2]; [right; unfold J; lia|left]. replace (zl pre + 1 + 1) with (zl pre + (1 + (1 + 0))) by lia. exact B2.
    + destruct (B3 s H3) as (i & D1 & Q). exists i. split; [exact D1|]. eapply proper_mono; [| |exact Q].
      * intros x [Hx|Hx]; [auto|left; right; right; unfold J; lia].
      * intros x. apply closed_le. cbn [length]. rewrite !app_length. lia.
    + eexists. split; [exact D|]. exact I.
Qed.
Lemma region_neg v X : v = zl (offset_bytes v) + zl X + 1 -> region X -> region (33 :: offset_bytes v ++ X ++ [35]).
Proof.
  intros Hv HX P pre post HP HS. destruct (small_app _ _ _ _ HP HS) as (A1 & A2 & A3 & A4).
  set (o := offset_bytes v) in *. pose proof (zl_pos o). pose proof (zl_pos X).
  destruct (HX P (pre ++ 33 :: o) ([35] ++ post)) as (S1 & B1 & B2 & B3); [rewrite HP; norm_app|exact HS|].
  assert (HPl : zl P = zl pre + (1 + (zl o + (zl X + 1))) + zl post) by (rewrite HP; lens; lia).
  assert (D : decode P (zl pre) = Ok (INeg (zl pre + 1 + v) (zl pre + 1 + zl o))).
  { unfold decode. rewrite HP at 1. cbn [app]. rewrite rdZ_mid by reflexivity. cbn [obind Z.eqb Pos.eqb].
    assert (Q : P = (pre ++ [33]) ++ o ++ X ++ [35] ++ post) by (rewrite HP; norm_app).
    assert (R : offset_at P (zl pre + 1) = Ok (zl pre + 1 + v, zl pre + 1 + zl o)).
    { rewrite Q. unfold o. apply offset_at_put; [rewrite zl_snoc; reflexivity|fold o; unfold small in HS; lia..]. }
    rewrite R. reflexivity. }
  set (q1 := pre ++ 33 :: o ++ X). assert (Zq : zl q1 = zl pre + (1 + (zl o + zl X))) by (unfold q1; lens; lia).
  assert (D2 : decode P (zl q1) = Ok IAccept).
  { assert (Q1 : P = q1 ++ 35 :: post) by (unfold q1; rewrite HP; norm_app). unfold decode. rewrite Q1. rewrite rdZ_mid by reflexivity. reflexivity. }
  assert (C : closed P (S (length X)) (zl pre + 1 + zl o)).
  { exists (fun s => S1 s \/ s = zl q1). split.
    - lens. destruct B2 as [B2|B2]; [right; lia|left]. replace (zl pre + 1 + zl o) with (zl pre + (1 + zl o)) by lia. exact B2.
    - intros s [Hs| ->].
      + destruct (B3 s Hs) as (i & D1 & Q). pose proof (B1 s Hs) as L. split; [lens; lia|]. exists i. split; [exact D1|]. left. eapply proper_mono; [| |exact Q]; [|auto].
        intros x [Hx|Hx]; [auto|right]. lens. lia.
      + split; [lens; lia|]. exists IAccept. split; [exact D2|left; exact I]. }
  exists (fun s => s = zl pre). lens. split; [intros s ->; lia|]. split; [auto|]. intros s ->. eexists. split; [exact D|]. cbn [proper]. split; [right; lia|].
  eapply closed_le; [|exact C]. cbn [length]. rewrite !app_length. cbn [length]. lia.
Qed.
Lemma code_region ng X : coded ng X -> region X.
Proof.
  induction 1.
  - apply region_nil.
  - apply region_app; assumption.
  - apply region_char; assumption.
  - apply region_any.
  - apply region_bol.
  - apply region_eol.
  - apply region_class; assumption.
  - apply region_prop; assumption.
  - apply region_opt; assumption.
  - apply region_alt; assumption.
  - apply region_star; assumption.
  - apply region_plus; assumption.
  - apply region_count; assumption.
  - apply region_named; [lia|assumption].
  - apply region_neg; assumption.
Qed.

(** ** Running closed code *)
Definition safe {A} (o : outcome A) (Q : A -> Prop) : Prop := match o with Ok x => Q x | Abort => True | UB => False end.
Lemma safe_bind {A B} (o : outcome A) (f : A -> outcome B) Q R : safe o Q -> (forall x, Q x -> safe (f x) R) -> safe (obind o f) R.
Proof. destruct o; cbn; auto. Qed.
Lemma safe_cassert {A} b (k : outcome A) Q : (b = true -> safe k Q) -> safe (cassert b k) Q.
Proof. destruct b; cbn; auto. Qed.
Lemma safe_weak {A} (o : outcome A) (Q R : A -> Prop) : (forall x, Q x -> R x) -> safe o Q -> safe o R.
Proof. destruct o; cbn; auto. Qed.

Section Run.
Variables (P : list Z) (h : header) (t : list Z) (g : Z) (lk : Z -> Z -> outcome (bool * Z)) (inner St : Z -> Prop).
Hypothesis HL : forall n off, inner n -> 0 <= off -> safe (lk n off) (fun x => off <= snd x).
Hypothesis HS : forall s, St s -> 0 <= s < zl P /\ exists i, decode P s = Ok i /\ leads P inner St s i.
Notation add := (addthread P h t g lk).
Notation goes := (go P h t g lk).
Definition room (k : nat) : nat := (13 - k) * (length P + 4).
Definition St_all (l : list thread) : Prop := Forall (fun x => St (t_station x)) l.
Lemma run_safe f :
  (forall th off sh dup next, St (t_station th) -> 0 <= off -> (length sh <= 12)%nat -> (room (length sh) <= f)%nat -> St_all next -> safe (add f th off sh dup next) St_all) /\
  (forall th off sh next, St (t_station th) -> 0 <= off -> (length sh <= 12)%nat -> (Z.to_nat (zl P - t_station th) + 2 + room (length sh) <= f)%nat -> St_all next -> safe (goes f th off sh next) St_all).
Proof.
  induction f as [f IHf] using (well_founded_induction lt_wf). destruct f as [|f]; [|destruct (IHf f ltac:(lia)) as [IHa IHg]].
  - split.
    + intros th off sh dup next A B C D. exfalso. unfold room in D. assert (1 <= 13 - length sh)%nat by lia. nia.
    + intros th off sh next A B C D. lia.
  - split.
    + intros th off sh dup next A B C D E. rewrite RxRun.addS. destruct (existsb _ sh); [exact E|]. apply safe_cassert. intros L. apply Nat.ltb_lt in L. unfold RxMaxNesting in L.
      destruct (duplicate _ _ _ _); [exact E|]. apply IHg; auto; cbn [length]; try lia. destruct (HS _ A) as [R _]. unfold room in *.
      replace (13 - length sh)%nat with (S (13 - S (length sh))) in D by lia. cbn [Nat.mul] in D. unfold zl in *. lia.
    + intros th off sh next A B C D E. rewrite RxRun.goS. destruct (HS _ A) as (R & i & Di & Q). rewrite Di. cbn [obind]. cbv zeta.
      assert (FW : forall n r, St n -> t_station th < n -> safe (goes f (mkthread n r) off sh next) St_all).
      { intros n r Hn L. apply IHg; auto. cbn [t_station]. destruct (HS _ Hn) as [R' _]. lia. }
      assert (AD : forall n r dup next, St n -> St_all next -> safe (add f (mkthread n r) off sh dup next) St_all) by (intros n r dup next' Hn HN; apply IHa; auto; lia).
      destruct Q as [Q|(n & -> & Q)]; [|unfold capture_set; cbn [obind Z.eqb Z.mul]; apply FW; tauto].
      destruct i; cbn [proper] in Q.
      * apply safe_cassert. intros _. apply Forall_app. auto.
      * apply safe_cassert. intros _. apply Forall_app. auto.
      * apply safe_cassert. intros _. apply Forall_app. auto.
      * apply safe_cassert. intros _. apply Forall_app. auto.
      * apply safe_cassert. intros _. apply Forall_app. auto.
      * destruct (_ || _); [apply FW; tauto|exact E].
      * destruct (_ || _); [apply FW; tauto|exact E].
      * destruct Q as [Q1 [Q2|(x & y & Q2)]]; [apply FW; assumption|].
        destruct f as [|f']; [lia|]. rewrite RxRun.goS. cbn [t_station t_result]. rewrite Q2. cbn [obind]. cbv zeta.
        destruct (HS _ Q1) as (_ & i2 & D2 & Q3). assert (i2 = ISplit x y) by congruence. subst i2. destruct Q3 as [Q3|(n & Q3 & _)]; [|discriminate Q3]. cbn [proper] in Q3.
        assert (AD2 : forall n r dup next, St n -> St_all next -> safe (add f' (mkthread n r) off sh dup next) St_all).
        { intros n r dup next' Hn HN. destruct (IHf f' ltac:(lia)) as [IHb _]. apply IHb; auto; lia. }
        eapply safe_bind; [apply AD2; [tauto|exact E]|]. intros next' HN. apply AD2; tauto.
      * eapply safe_bind; [apply AD; [tauto|exact E]|]. intros next' HN. apply AD; tauto.
      * unfold capture_set. repeat match goal with |- safe (obind (if ?b then _ else _) _) _ => destruct b end; cbn [obind]; try exact I; apply FW; tauto.
      * unfold capture_set. repeat match goal with |- safe (obind (if ?b then _ else _) _) _ => destruct b end; cbn [obind]; try exact I; exact E.
      * unfold push_zero, cassert. destruct (_ <? _); cbn [obind]; [apply FW; tauto|exact I].
      * destruct (r_counters (t_result th)) as [|[prev c] cs]; [exact I|]. eapply (safe_bind _ _ St_all).
        -- destruct (_ && _); [apply AD; [tauto|exact E]|exact E].
        -- intros next' HN. destruct (_ && _); [apply AD; tauto|exact HN].
      * eapply safe_bind; [apply HL; [apply Q|exact B]|]. intros x Hx. cbv beta in Hx. destruct (fst x); [exact E|]. apply IHa; auto; try lia; tauto.
      * contradiction.
Qed.
Lemma property_total c l : exists b, has_property c l = Ok b.
Proof.
  unfold has_property. destruct l as [|p [|q l]]; eauto. destruct (digit_test c) as (d & -> & _). cbn [obind].
  destruct (p =? 115); eauto. destruct (p =? 100); eauto. destruct (p =? 104); eauto.
Qed.
Lemma consume_safe s i c : leads P inner St s i -> safe (consume i c) (fun x => match x with Some (Some n) => St n | _ => True end).
Proof.
  intros [Q|(n & -> & _)]; [|exact I]. destruct i; cbn [consume proper] in *; try exact I.
  - destruct (c =? c0); [exact Q|exact I].
  - destruct (c =? 0); [exact I|exact Q].
  - destruct (c =? 0); [exact I|]. apply safe_cassert. intros _. destruct (Bool.eqb _ _); [exact Q|exact I].
  - destruct (c =? 0); [exact I|]. apply safe_cassert. intros _. match goal with |- safe (obind (has_property ?c ?l) _) _ => destruct (property_total c l) as (b & ->) end. cbn [obind]. destruct b; [exact Q|exact I].
Qed.
Lemma cycle_safe f off cur : forall next res, 0 <= off -> (room 0 <= f)%nat -> St_all cur -> St_all next ->
  safe (cycle P h t g lk f cur off next res) (fun x => St_all (fst x)).
Proof.
  induction cur as [|th cur IH]; intros next res B F C N; [exact N|]. inversion C as [|th' cur' C1 C2]; subst. rewrite RxRun.cycleS.
  destruct (HS _ C1) as (R & i & D & Q). rewrite D. cbn [obind]. eapply safe_bind; [apply (consume_safe _ _ _ Q)|]. intros [[n|]|] Hx; cbv beta iota in Hx.
  - eapply safe_bind; [apply (proj1 (run_safe f)); auto; cbn [length]; lia|]. intros next' HN. apply IH; auto.
  - apply IH; auto.
  - apply IH; auto.
Qed.
Lemma cycles_safe f k : forall cur off res, 0 <= off -> (room 0 <= f)%nat -> St_all cur -> len t - off < Z.of_nat k ->
  safe (cycles P h t g lk f k cur off res) (fun x => off <= snd x).
Proof.
  induction k as [|k IH]; intros cur off res B F C L.
  - destruct cur as [|x cur]; [cbn; lia|]. cbn [cycles]. destruct (off <=? len t) eqn:E; [exfalso; lia|cbn; lia].
  - destruct cur as [|x cur]; [cbn; lia|]. cbn [cycles]. destruct (off <=? len t) eqn:E; [|cbn; lia].
    eapply safe_bind; [apply cycle_safe; auto; constructor|]. intros y Hy. cbv beta in Hy. eapply safe_weak; [|apply (IH (fst y) (off + 1) (snd y)); auto; lia]. intros z; cbv beta; lia.
Qed.
Lemma match_safe f start off : St start -> 0 <= off -> (room 0 <= f)%nat -> safe (match_from P h t g lk f start off) (fun x => off <= snd x).
Proof.
  intros A B F. unfold match_from. eapply safe_bind; [apply (proj1 (run_safe f)); auto; cbn [length]; try lia; constructor|].
  intros cur HC. apply cycles_safe; auto. unfold len. lia.
Qed.
End Run.

Section Look.
Variables (P : list Z) (h : header) (t : list Z) (g : Z) (f : nat).
Hypothesis HF : (room P 0 <= f)%nat.
Lemma look_safe d : forall n off, closed P d n -> 0 <= off -> safe (look P h t g d f n off) (fun x => off <= snd x).
Proof.
  induction d as [|d IH]; intros n off C B; [contradiction|]. cbn [look]. destruct C as (St & Hn & HS).
  eapply safe_bind; [apply (match_safe P h t g (look P h t g d f) (closed P d) St); auto|]. intros x Hx. exact Hx.
Qed.
Lemma from_safe d n off : closed P (S d) n -> 0 <= off -> safe (match_from P h t g (look P h t g d f) f n off) (fun x => off <= snd x).
Proof. intros (St & Hn & HS) B. apply (match_safe P h t g (look P h t g d f) (closed P d) St); auto. intros m o C O. apply look_safe; auto. Qed.
End Look.

(** ** Compiled programs *)
Lemma stations_closed ng prog pre X post start q search anyst jmp :
  coded ng X -> small prog -> decode prog start = Ok (ICapStart 0 (zl pre)) -> decode prog q = Ok IAccept -> decode prog search = Ok (ISplit start anyst) ->
  decode prog anyst = Ok (IAny jmp) -> decode prog jmp = Ok (IJump search) -> prog = pre ++ X ++ post -> q = zl pre + zl X ->
  0 <= start < zl pre -> zl pre <= q -> q < search -> search < anyst -> anyst < jmp -> jmp < zl prog ->
  closed prog (S (length X)) start /\ closed prog (S (length X)) search.
Proof.
  intros C S D1 D2 D3 D4 D5 HP Hq L1 L2 L3 L4 L5 L6. destruct (code_region _ X C prog pre post HP S) as (St & A1 & A2 & A3).
  set (St' := fun s => St s \/ s = start \/ s = q \/ s = search \/ s = anyst \/ s = jmp).
  assert (H : forall s, St' s -> 0 <= s < zl prog /\ exists i, decode prog s = Ok i /\ leads prog (closed prog (length X)) St' s i).
  { intros s [Hs|[-> |[-> |[-> |[-> | ->]]]]].
    - pose proof (A1 s Hs). split; [lia|]. destruct (A3 s Hs) as (i & D & Q). exists i. split; [exact D|]. left. eapply proper_mono; [| |exact Q]; [|auto].
      intros x [Hx|Hx]; [left; exact Hx|right; right; left; lia].
    - split; [lia|]. eexists. split; [exact D1|]. right. eexists. split; [reflexivity|]. split; [|lia]. destruct A2 as [A2|A2]; [right; right; left; lia|left; exact A2].
    - split; [lia|]. eexists. split; [exact D2|]. left. exact I.
    - split; [lia|]. eexists. split; [exact D3|]. left. cbn [proper]. unfold St'. tauto.
    - split; [lia|]. eexists. split; [exact D4|]. left. cbn [proper]. unfold St'. tauto.
    - split; [lia|]. eexists. split; [exact D5|]. left. cbn [proper]. split; [unfold St'; tauto|]. right. eauto. }
  split; exists St'; (split; [unfold St'; tauto|exact H]).
Qed.

(** Enough for a program *)
Definition enough (prog : list Z) : nat := (13 * (length prog + 4))%nat.
Lemma compiled_safe features reject re prog m f g t off :
  ordinary re -> short_program features reject re -> compile features reject re = Ok (Some prog, m) -> (enough prog <= f)%nat -> 0 <= off ->
  match_at f g prog t off <> UB /\ match_after f g prog t off <> UB.
Proof.
  intros O SH E F B.
  destruct (program_code _ _ _ _ _ O SH E) as (h & X & pre & post & start & rs & q & search & anyst & jmp & HH & H1 & H2 & (ng & C) & S & D1 & D2 & D3 & D4 & D5 & HP & Z1 & Z2 & L).
  subst rs. assert (LX : (length X <= length prog)%nat) by (rewrite HP, !app_length; lia).
  destruct (stations_closed ng prog pre X post start q search anyst jmp) as [C1 C2]; auto; try lia.
  assert (RF : (room prog 0 <= f)%nat) by (unfold enough, room in *; lia).
  assert (DF : (length X <= f)%nat) by (unfold enough in F; lia).
  assert (K : forall n, closed prog (Datatypes.S (length X)) n -> safe (match_from prog h t g (look prog h t g f f) f n off) (fun x => off <= snd x)).
  { intros n Cn. apply from_safe; auto. eapply closed_le; [|exact Cn]. lia. }
  unfold match_at, match_after. rewrite HH. cbn [obind]. rewrite H1, H2.
  pose proof (K _ C1) as K1. pose proof (K _ C2) as K2. split.
  - destruct (match_from _ _ _ _ _ _ start _); cbn in *; [discriminate..|contradiction].
  - destruct (match_from _ _ _ _ _ _ search _); cbn in *; [discriminate..|contradiction].
Qed.

(** ** Where the result lies *)
Section Caps.
Variables (P : list Z) (h : header) (t : list Z) (g : Z) (lk : Z -> Z -> outcome (bool * Z)) (inner A B : Z -> Prop).
(** Stations after the beginning of the match, and before it *)
Hypothesis HA : forall s, A s -> exists i, decode P s = Ok i /\ proper P inner A s i.
Hypothesis HB : forall s, B s -> (exists n, decode P s = Ok (ICapStart 0 n) /\ A n) \/ (exists a n, decode P s = Ok (ISplit a n) /\ B a /\ B n) \/
  (exists n, decode P s = Ok (IAny n) /\ B n) \/ (exists a, decode P s = Ok (IJump a) /\ B a).
Notation add := (addthread P h t g lk).
Notation goes := (go P h t g lk).
Section One.
Variable c : Z -> Prop.
Definition okadd (off : Z) (th : thread) : Prop := A (t_station th) /\ c (r_cap0 (t_result th)) \/ B (t_station th) /\ c off.
Definition oknext (th : thread) : Prop := A (t_station th) /\ c (r_cap0 (t_result th)) \/ B (t_station th) /\ exists n, decode P (t_station th) = Ok (IAny n).
Lemma set_cap0 r i v r' : capture_set h r i v = Ok r' -> i <> 0 -> r_cap0 r' = r_cap0 r.
Proof.
  unfold capture_set. destruct (Z.eqb_spec i 0); [contradiction|]. intros H _. destruct (i =? 1); [assert (E : r' = mkresult (r_cap0 r) (Some v) (r_caps r) (r_counters r)) by congruence; rewrite E; reflexivity|].
  destruct (_ || _); [discriminate|]. inversion H. reflexivity.
Qed.
Lemma run_caps f :
  (forall th off sh dup next next', okadd off th -> Forall oknext next -> add f th off sh dup next = Ok next' -> Forall oknext next') /\
  (forall th off sh next next', okadd off th -> Forall oknext next -> goes f th off sh next = Ok next' -> Forall oknext next').
Proof.
  induction f as [|f [IHa IHg]]; [split; intros; discriminate|]. split.
  - intros th off sh dup next next' O N H. rewrite RxRun.addS in H. destruct (existsb _ sh); [assert (next' = next) by congruence; subst; exact N|].
    apply RxRun.cassert_ok in H. destruct H as [_ H]. destruct (duplicate _ _ _ _); [assert (next' = next) by congruence; subst; exact N|]. eapply IHg; eassumption.
  - intros th off sh next next' O N H. rewrite RxRun.goS in H. destruct O as [[O C]|[O C]].
    + destruct (HA _ O) as (i & D & Q). rewrite D in H. cbn [obind] in H. cbv zeta in H.
      assert (K : forall n r, A n -> r_cap0 r = r_cap0 (t_result th) -> okadd off (mkthread n r)) by (intros n r Hn Hr; left; cbn; split; [exact Hn|rewrite Hr; exact C]).
      assert (PUSH : cassert (Z.of_nat (length next) <? h_stations h) (Ok (next ++ [th])) = Ok next' -> Forall oknext next').
      { intros X. apply RxRun.cassert_ok in X. destruct X as [_ X]. assert (next' = next ++ [th]) by congruence. subst. apply Forall_app. split; [exact N|]. constructor; [left; auto|constructor]. }
      assert (SAME : Ok next = Ok next' -> Forall oknext next') by (intros X; assert (next' = next) by congruence; subst; exact N).
      destruct i; cbn [proper] in Q; try (apply PUSH, H).
      * match type of H with (if ?b then _ else _) = _ => destruct b end; [|apply SAME, H]. eapply IHg; [|exact N|exact H]. apply K; [tauto|reflexivity].
      * match type of H with (if ?b then _ else _) = _ => destruct b end; [|apply SAME, H]. eapply IHg; [|exact N|exact H]. apply K; [tauto|reflexivity].
      * eapply IHg; [|exact N|exact H]. apply K; [tauto|reflexivity].
      * apply obind_ok in H. destruct H as (n1 & E1 & H). eapply IHa; [| |exact H]; [apply K; [tauto|reflexivity]|]. eapply IHa; [|exact N|exact E1]. apply K; [tauto|reflexivity].
      * apply obind_ok in H. destruct H as (r & E1 & H). eapply IHg; [|exact N|exact H]. apply K; [tauto|]. eapply set_cap0; [exact E1|lia].
      * apply obind_ok in H. destruct H as (r & E1 & H). apply SAME, H.
      * apply obind_ok in H. destruct H as (r & E1 & H). eapply IHg; [|exact N|exact H]. apply K; [tauto|]. unfold push_zero in E1. apply RxRun.cassert_ok in E1. destruct E1 as [_ E1]. inversion E1. reflexivity.
      * destruct (r_counters (t_result th)) as [|[prev c0] cs]; [discriminate H|]. apply obind_ok in H. destruct H as (n1 & E1 & H).
        assert (N1 : Forall oknext n1).
        { match type of E1 with (if ?b then _ else _) = _ => destruct b end; [|assert (n1 = next) by congruence; subst; exact N]. eapply IHa; [|exact N|exact E1]. apply K; [tauto|reflexivity]. }
        match type of H with (if ?b then _ else _) = _ => destruct b end; [|assert (next' = n1) by congruence; subst; exact N1]. eapply IHa; [|exact N1|exact H]. apply K; [tauto|reflexivity].
      * apply obind_ok in H. destruct H as (x & E1 & H). destruct (fst x); [apply SAME, H|]. eapply IHa; [|exact N|exact H]. left. cbn. split; [tauto|exact C].
    + destruct (HB _ O) as [(n & D & Q)|[(a & n & D & Q1 & Q2)|[(n & D & Q)|(a & D & Q)]]]; rewrite D in H; cbn [obind] in H; cbv zeta in H.
      * cbn [capture_set Z.mul Z.eqb obind] in H. eapply IHg; [|exact N|exact H]. left. cbn. auto.
      * apply obind_ok in H. destruct H as (n1 & E1 & H). eapply IHa; [| |exact H]; [right; auto|]. eapply IHa; [|exact N|exact E1]. right. auto.
      * apply RxRun.cassert_ok in H. destruct H as [_ H]. assert (next' = next ++ [th]) by congruence. subst. apply Forall_app. split; [exact N|]. constructor; [|constructor]. right. eauto.
      * eapply IHg; [|exact N|exact H]. right. auto.
Qed.
End One.

(** Where a match may begin that is still running at an offset *)
Variable C : Z -> Z -> Prop.
Hypothesis HC1 : forall off x, C off x -> C (off + 1) x.
Variable lo : Z.
Hypothesis HC2 : forall s n off, lo <= off -> B s -> decode P s = Ok (IAny n) -> C (off + 1) (off + 1).
Definition fair (res : result) : Prop := match r_cap1 res with None => True | Some e => lo <= e <= len t /\ C e (r_cap0 res) end.
Lemma cycle_caps f off cur : forall next res next' res', 0 <= lo <= off -> off <= len t -> Forall (oknext (C off)) cur -> Forall (oknext (C (off + 1))) next -> fair res ->
  cycle P h t g lk f cur off next res = Ok (next', res') -> Forall (oknext (C (off + 1))) next' /\ fair res'.
Proof.
  induction cur as [|th cur IH]; intros next res next' res' L1 L2 Hc N F H.
  - cbn [cycle] in H. inversion H; subst. auto.
  - apply Forall_cons_iff in Hc. destruct Hc as [O Hc]. rewrite RxRun.cycleS in H. apply obind_ok in H. destruct H as (i & D & H). apply obind_ok in H. destruct H as (y & Y & H).
    assert (T : forall n, y = Some (Some n) -> okadd (C (off + 1)) (off + 1) (mkthread n (t_result th))).
    { intros n ->. destruct O as [[O X]|[O (m & D')]].
      - destruct (HA _ O) as (i' & D' & Q). assert (i' = i) by congruence. subst i'. left. cbn. split; [|apply HC1, X].
        destruct i; cbn [consume proper] in *; try discriminate Y; repeat match type of Y with context [if ?b then _ else _] => destruct b | context [cassert ?b _] => destruct b; cbn [cassert] in Y end; try discriminate Y;
        try (apply obind_ok in Y; destruct Y as (b & _ & Y); destruct b); inversion Y; subst; exact Q.
      - destruct (HB _ O) as [(k & D2 & Q)|[(a & k & D2 & Q1 & Q2)|[(k & D2 & Q)|(a & D2 & Q)]]]; rewrite D2 in D'; try discriminate D'. inversion D'; subst m. rewrite D in D2. inversion D2; subst i.
        cbn [consume] in Y. destruct (_ =? 0); inversion Y; subst. right. cbn. split; [exact Q|]. eapply HC2; [|exact O|exact D]. lia. }
    destruct y as [[n|]|].
    + apply obind_ok in H. destruct H as (n1 & E1 & H). eapply (IH n1 res); try eassumption. eapply (proj1 (run_caps _ f)); [|exact N|exact E1]. apply T. reflexivity.
    + eapply (IH next res); eassumption.
    + eapply IH; [exact L1|exact L2|exact Hc|exact N| |exact H]. destruct (better _ _ _); [|exact F]. unfold fair. cbn [r_cap1 r_cap0]. split; [lia|]. destruct O as [[O X]|[O (m & D')]]; [exact X|].
      exfalso. rewrite D in D'. inversion D'; subst i. discriminate Y.
Qed.
Lemma cycles_caps f k : forall cur off res x, 0 <= lo <= off -> Forall (oknext (C off)) cur -> fair res -> cycles P h t g lk f k cur off res = Ok x -> fair (fst x).
Proof.
  induction k as [|k IH]; intros cur off res x L Hc F H; (destruct cur as [|th cur]; [cbn in H; assert (x = (res, off)) by congruence; subst; exact F|]); cbn [cycles] in H; destruct (Z.leb_spec off (len t)).
  - discriminate H.
  - assert (x = (res, off)) by congruence. subst. exact F.
  - apply obind_ok in H. destruct H as ([n1 r1] & E1 & H). destruct (cycle_caps f off _ _ _ _ _ L H0 Hc (Forall_nil _) F E1) as [N1 F1]. cbn [fst snd] in H. eapply IH; [|exact N1|exact F1|exact H]. lia.
  - assert (x = (res, off)) by congruence. subst. exact F.
Qed.
Lemma from_caps f start x : 0 <= lo -> B start -> C lo lo -> match_from P h t g lk f start lo = Ok x -> fair (fst x).
Proof.
  intros L Hs Hc H. unfold match_from in H. apply obind_ok in H. destruct H as (cur & E & H). eapply cycles_caps; [| | |exact H]; [|eapply (proj1 (run_caps _ f)); [|constructor|exact E]|exact I]; [lia|]. right. cbn. auto.
Qed.
End Caps.

Lemma compiled_inside features reject re prog m f g t off :
  ordinary re -> short_program features reject re -> compile features reject re = Ok (Some prog, m) -> 0 <= off ->
  (forall res e, match_at f g prog t off = Ok res -> r_cap1 res = Some e -> r_cap0 res = off /\ off <= e <= zl t) /\
  (forall res e, match_after f g prog t off = Ok res -> r_cap1 res = Some e -> off <= r_cap0 res /\ r_cap0 res <= e <= zl t).
Proof.
  intros O SH E L0.
  destruct (program_code _ _ _ _ _ O SH E) as (h & X & pre & post & start & rs & q & search & anyst & jmp & HH & H1 & H2 & (ng & C) & S & D1 & D2 & D3 & D4 & D5 & HP & Z1 & Z2 & L).
  subst rs. destruct (code_region _ X C prog pre post HP S) as (St & A1 & A2 & A3).
  set (A := fun s => St s \/ s = zl pre + zl X).
  assert (HA : forall s, A s -> exists i, decode prog s = Ok i /\ proper prog (closed prog (length X)) A s i).
  { intros s [Hs | ->]; [exact (A3 s Hs)|]. exists IAccept. split; [rewrite <- Z2; exact D2|exact I]. }
  assert (Hpre : A (zl pre)) by (destruct A2 as [A2|A2]; [right; lia|left; exact A2]).
  unfold match_at, match_after. rewrite HH. cbn [obind]. rewrite H1, H2. split; intros res e H R; apply obind_ok in H; destruct H as (x & Ex & H); assert (res = fst x) by congruence; subst res.
  - pose proof (from_caps prog h t g (look prog h t g f f) (closed prog (length X)) A (fun s => s = start) HA) as K.
    specialize (K ltac:(intros s ->; left; eauto) (fun _ y => y = off) ltac:(auto) off).
    specialize (K ltac:(intros s n o _ -> D; rewrite D1 in D; discriminate D) f start x L0 eq_refl eq_refl Ex). unfold fair in K. rewrite R in K. unfold len, zl in *. tauto.
  - pose proof (from_caps prog h t g (look prog h t g f f) (closed prog (length X)) A (fun s => s = start \/ s = search \/ s = anyst \/ s = jmp) HA) as K.
    specialize (K ltac:(intros s [-> |[-> |[-> | ->]]]; [left; eauto|right; left; exists start, anyst; tauto|do 2 right; left; exists jmp; tauto|do 3 right; exists search; tauto]) (fun o y => off <= y <= o) ltac:(cbv beta; intros; lia) off).
    specialize (K ltac:(cbv beta; intros; lia) f search x L0 ltac:(tauto) ltac:(cbv beta; lia) Ex). unfold fair in K. rewrite R in K. unfold len, zl in *. lia.
Qed.
