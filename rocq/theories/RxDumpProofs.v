(** The listing of a compiled program. *)
From Coq Require Import Sorted.
From Verif Require Import Base UTF8Model UTF8Spec UTF8Proofs CharModel RxCompModel RxModel RxSpec RxVm RxGen RxProg RxCode RxTame RxLay RxSafe RxDumpModel RxDumpSpec.
From Verif Require RxSize.

Ltac lens := repeat (rewrite zl_cons in * || rewrite zl_app in * || rewrite zl_nil in * ).

(** ** Reading *)
Lemma offset_of_put pre v post p : p = zl pre -> - 2^30 < v < 2^30 -> offset_of (pre ++ offset_bytes v ++ post) p = Ok (v, p + zl (offset_bytes v)).
Proof. intros -> Hv. unfold offset_of, offset_bytes. rewrite get_at_put by (reflexivity || apply zigzag_range, Hv). cbn [obind fst snd]. rewrite zagzig_zigzag by exact Hv. reflexivity. Qed.
Lemma slice_mid pre l post p n : p = zl pre -> n = zl l -> slice (pre ++ l ++ post) p n = Ok l.
Proof.
  intros -> ->. unfold slice. pose proof (zl_pos pre). pose proof (zl_pos l). pose proof (zl_pos post).
  assert (E : Z.of_nat (length (pre ++ l ++ post)) = zl pre + zl l + zl post) by (fold (zl (pre ++ l ++ post)); rewrite !zl_app; lia).
  rewrite E. destruct (Z.leb_spec 0 (zl pre)); [|lia]. destruct (Z.leb_spec 0 (zl l)); [|lia]. destruct (Z.leb_spec (zl pre + zl l) (zl pre + zl l + zl post)); [|lia]. cbn [andb].
  f_equal. rewrite skipn_len by (unfold zl; lia). apply firstn_len. unfold zl; lia.
Qed.
Lemma counted_text pre l post p : p = zl pre -> Forall fine l -> nbytes l < 2^31 ->
  get_at (pre ++ string_bytes l ++ post) p = Ok (zl (utf8 l), p + zl (string_bytes l) - zl (utf8 l)) /\
  slice (pre ++ string_bytes l ++ post) (p + zl (string_bytes l) - zl (utf8 l)) (zl (utf8 l)) = Ok (utf8 l).
Proof.
  intros -> Hl Hn. unfold string_bytes. rewrite <- app_assoc. pose proof (nbytes_fine l Hl) as E. fold (utf8 l) in *. pose proof (zl_pos (utf8 l)). split.
  - rewrite get_at_put by (reflexivity || lia). rewrite zl_app, E. do 2 f_equal. lia.
  - rewrite (app_assoc pre). apply slice_mid; [|reflexivity]. rewrite !zl_app. lia.
Qed.
Lemma nbytes_in pre l post P : P = pre ++ string_bytes l ++ post -> small P -> nbytes l < 2^31.
Proof. intros E HS. unfold small in HS. rewrite E, !zl_app in HS. pose proof (string_fine l). pose proof (zl_pos pre). pose proof (zl_pos post). lia. Qed.

(** The targets in the pieces of a list *)
Ltac mem := cbn [map fst In app]; rewrite ?map_app; cbn [map fst In]; rewrite ?in_app_iff; cbn [map fst In]; rewrite ?in_app_iff; cbn [In].
Ltac fin := first [assumption | left; fin | right; fin | lia].
Ltac tg := let t := fresh "t" in let H := fresh in intros t H; cbn [targets In] in H; repeat (destruct H as [H|H]; [subst t|]); try contradiction; mem.
Section Listing.
Variables (P : list Z) (names : list (list Z)).
Hypothesis HS : small P.
Notation ng := (Z.of_nat (length names) + 1).
Hypothesis HG : forall g, 1 < g <= ng -> get_name P (g - 1) = Ok (Some (group_name names (g - 1))).

Inductive chain (T : Z -> Prop) : Z -> list (Z * line) -> Z -> Prop :=
| ch_nil p : chain T p [] p
| ch_cons p l p' i ls q : dump_instruction P p = Ok (l, Some p') -> p < p' -> decode P p = Ok i -> shows names p i l ->
    (forall t, In t (targets i) -> T t) -> chain T p' ls q -> chain T p ((p, l) :: ls) q.
Lemma ch_mono (T T' : Z -> Prop) p ls q : chain T p ls q -> (forall t, T t -> T' t) -> chain T' p ls q.
Proof. intros H HT. induction H; [constructor|]. eapply ch_cons; eauto. Qed.
Lemma ch_app T p ls q ls' r : chain T p ls q -> chain T q ls' r -> chain T p (ls ++ ls') r.
Proof. intros H H'. induction H; [exact H'|]. cbn [app]. eapply ch_cons; eauto. Qed.
Lemma ch_first T p ls q : chain T p ls q -> p = q \/ In p (map fst ls).
Proof. intros H. destruct H; [auto|right; left; reflexivity]. Qed.
Lemma ch_one (T : Z -> Prop) p l p' i : dump_instruction P p = Ok (l, Some p') -> p < p' -> decode P p = Ok i -> shows names p i l ->
    (forall t, In t (targets i) -> T t) -> chain T p [(p, l)] p'.
Proof. intros. eapply ch_cons; eauto. constructor. Qed.

Definition reg (X : list Z) : Prop := forall pre post, P = pre ++ X ++ post ->
  exists ls, chain (fun t => In t (map fst ls) \/ t = zl pre + zl X) (zl pre) ls (zl pre + zl X).

Lemma reg_nil : reg [].
Proof. intros pre post HP. exists []. rewrite zl_nil, Z.add_0_r. constructor. Qed.
Lemma reg_app X Y : reg X -> reg Y -> reg (X ++ Y).
Proof.
  intros HX HY pre post HP. destruct (HX pre (Y ++ post)) as (l1 & C1); [rewrite HP; norm_app|]. destruct (HY (pre ++ X) post) as (l2 & C2); [rewrite HP; norm_app|].
  lens. pose proof (ch_first _ _ _ _ C2) as F. exists (l1 ++ l2). replace (zl pre + (zl X + zl Y)) with (zl pre + zl X + zl Y) by lia. rewrite map_app.
  eapply ch_app; [eapply ch_mono; [exact C1|]|eapply ch_mono; [exact C2|]].
  - intros t [H|H]; [left; apply in_or_app; auto|]. subst t. destruct F as [F|F]; [right; lia|left; apply in_or_app; auto].
  - intros t [H|H]; [left; apply in_or_app; auto|right; lia].
Qed.
(** One instruction that leads on *)
Lemma reg_one X : X <> [] -> (forall pre post, P = pre ++ X ++ post -> exists i l, decode P (zl pre) = Ok i /\ dump_instruction P (zl pre) = Ok (l, Some (zl pre + zl X)) /\ shows names (zl pre) i l /\
  (forall t, In t (targets i) -> t = zl pre + zl X)) -> reg X.
Proof.
  intros HN H pre post HP. destruct (H pre post HP) as (i & l & D & U & S & T). exists [(zl pre, l)]. assert (0 < zl X) by (destruct X; [contradiction|rewrite zl_cons; pose proof (zl_pos X); lia]).
  eapply ch_one; eauto. lia.
Qed.
Ltac op HP := unfold decode, dump_instruction; rewrite HP; cbn [app]; rewrite rdZ_mid by reflexivity; cbn [obind Z.eqb Pos.eqb].
Ltac one := let t := fresh in let H := fresh in intros t H; cbn [targets In] in H; repeat (destruct H as [H|H]; [subst t|]); try contradiction; lens; lia.
Lemma reg_char c : fine c -> reg (67 :: UTF8Put c).
Proof.
  intros Hc. apply reg_one; [discriminate|]. intros pre post HP. exists (IChar c (zl pre + zl (67 :: UTF8Put c))), (DChar c (UTF8Put c)).
  assert (E : P = (pre ++ [67]) ++ UTF8Put c ++ post) by (rewrite HP; norm_app).
  assert (R : rdZ P (zl pre) = Ok 67) by (rewrite HP; apply rdZ_mid; reflexivity).
  assert (G : get_at P (zl pre + 1) = Ok (c, zl pre + zl (67 :: UTF8Put c))).
  { rewrite E. rewrite get_at_fine by (rewrite ?zl_snoc; first [reflexivity|exact Hc]). rewrite zl_cons. do 2 f_equal. lia. }
  unfold decode, dump_instruction. rewrite R. cbn [obind Z.eqb Pos.eqb]. rewrite G. cbn [obind fst snd].
  split; [reflexivity|]. split; [|split; [split; reflexivity|one]].
  rewrite E at 1. rewrite slice_mid by (rewrite ?zl_snoc, ?zl_cons; lia). reflexivity.
Qed.
Lemma reg_text op (mkl : list Z -> line) (mki : list Z -> Z -> instr) l :
  (op = 80 /\ mkl = DProp /\ mki = IProp) \/ (op = 76 /\ mkl = DClass /\ mki = IClass false) \/ (op = 78 /\ mkl = DNegClass /\ mki = IClass true) ->
  Forall fine l -> reg (op :: string_bytes l).
Proof.
  intros Hop Hl. apply reg_one; [discriminate|]. intros pre post HP. exists (mki l (zl pre + zl (op :: string_bytes l))), (mkl (utf8 l)).
  assert (E : P = (pre ++ [op]) ++ string_bytes l ++ post) by (rewrite HP; norm_app).
  assert (R : rdZ P (zl pre) = Ok op) by (rewrite HP; apply rdZ_mid; reflexivity).
  pose proof (text_op op pre l post P HP HS Hl) as TX.
  destruct (counted_text (pre ++ [op]) l post (zl pre + 1) ltac:(rewrite zl_snoc; reflexivity) Hl (nbytes_in _ _ _ _ E HS)) as [G1 G2]. rewrite <- E in G1, G2.
  assert (ST : show_text P (zl pre + 1) mkl = Ok (mkl (utf8 l), Some (zl pre + zl (op :: string_bytes l)))).
  { unfold show_text. rewrite G1. cbn [obind fst snd]. rewrite G2. cbn [obind]. rewrite zl_cons. do 3 f_equal. lia. }
  unfold decode, dump_instruction. rewrite R. cbn [obind].
  destruct Hop as [(-> & -> & ->)|[(-> & -> & ->)|(-> & -> & ->)]]; cbn [Z.eqb Pos.eqb]; rewrite TX, ST; (split; [reflexivity|]; split; [reflexivity|]; split; [reflexivity|one]).
Qed.
Ltac plain := apply reg_one; [discriminate|]; intros pre post HP;
  assert (R : rdZ P (zl pre) = Ok _) by (rewrite HP; apply rdZ_mid; reflexivity); unfold decode, dump_instruction; rewrite R; cbn [obind Z.eqb Pos.eqb];
  eexists; eexists; split; [reflexivity|]; split; [reflexivity|]; split; [exact I|one].
Lemma reg_any : reg [46]. Proof. plain. Qed.
Lemma reg_bol : reg [94]. Proof. plain. Qed.
Lemma reg_eol : reg [36]. Proof. plain. Qed.

Lemma dump_offset op mk pre v post : (op = 65 /\ mk = DSplit) \/ (op = 74 /\ mk = DJump) \/ (op = 33 /\ mk = DNeg) -> P = pre ++ (op :: offset_bytes v) ++ post -> 0 <= zl pre + 1 + v <= zl P ->
  dump_instruction P (zl pre) = Ok (mk v (zl pre + 1 + v), Some (zl pre + 1 + zl (offset_bytes v))).
Proof.
  intros Hop HP Hr. assert (E : P = (pre ++ [op]) ++ offset_bytes v ++ post) by (rewrite HP; norm_app).
  assert (R : rdZ P (zl pre) = Ok op) by (rewrite HP; apply rdZ_mid; reflexivity).
  assert (G : show_offset P (zl pre + 1) (zl pre + 1) mk = Ok (mk v (zl pre + 1 + v), Some (zl pre + 1 + zl (offset_bytes v)))).
  { unfold show_offset. rewrite E. rewrite offset_of_put; [reflexivity|rewrite zl_snoc; reflexivity|]. unfold small in HS. pose proof (zl_pos pre). assert (zl pre <= zl P) by (rewrite HP, zl_app; pose proof (zl_pos ((op :: offset_bytes v) ++ post)); lia). lia. }
  unfold dump_instruction. rewrite R. cbn [obind]. destruct Hop as [(-> & ->)|[(-> & ->)|(-> & ->)]]; cbn [Z.eqb Pos.eqb]; exact G.
Qed.
Lemma dump_count pre a b v post : P = pre ++ (82 :: a :: b :: offset_bytes v) ++ post -> 0 <= zl pre + 3 + v <= zl P ->
  dump_instruction P (zl pre) = Ok (DCount (a - 1) (b - 1) v (zl pre + 3 + v), Some (zl pre + 3 + zl (offset_bytes v))) /\
  decode P (zl pre) = Ok (ICount (u16 (a - 1)) (u16 (b - 1)) (zl pre + 3 + v) (zl pre + 3 + zl (offset_bytes v))).
Proof.
  intros HP Hr. assert (Hs := HS). unfold small in Hs. pose proof (zl_pos pre). assert (Hp : zl pre <= zl P) by (rewrite HP, zl_app; pose proof (zl_pos ((82 :: a :: b :: offset_bytes v) ++ post)); lia).
  assert (Q1 : P = pre ++ 82 :: a :: b :: offset_bytes v ++ post) by (rewrite HP; norm_app).
  assert (Q2 : P = (pre ++ [82]) ++ a :: b :: offset_bytes v ++ post) by (rewrite Q1; norm_app).
  assert (Q3 : P = (pre ++ [82; a]) ++ b :: offset_bytes v ++ post) by (rewrite Q1; norm_app).
  assert (Q4 : P = (pre ++ [82; a; b]) ++ offset_bytes v ++ post) by (rewrite Q1; norm_app).
  assert (R1 : rdZ P (zl pre) = Ok 82) by (rewrite Q1 at 1; apply rdZ_mid; reflexivity).
  assert (R2 : rdZ P (zl pre + 1) = Ok a) by (rewrite Q2; apply rdZ_mid; rewrite zl_app; reflexivity).
  assert (R3 : rdZ P (zl pre + 1 + 1) = Ok b) by (rewrite Q3; apply rdZ_mid; rewrite zl_app; change (zl [82; a]) with 2; lia).
  assert (R4 : offset_at P (zl pre + 1 + 2) = Ok (zl pre + 3 + v, zl pre + 3 + zl (offset_bytes v))).
  { rewrite Q4. rewrite offset_at_put; [do 2 f_equal; lia|rewrite zl_app; change (zl [82; a; b]) with 3; lia| |]; lia. }
  assert (R5 : offset_of P (zl pre + 1 + 2) = Ok (v, zl pre + 3 + zl (offset_bytes v))).
  { rewrite Q4. rewrite offset_of_put; [do 2 f_equal; lia|rewrite zl_app; change (zl [82; a; b]) with 3; lia|lia]. }
  unfold dump_instruction, show_offset, decode. rewrite R1. cbn [obind Z.eqb Pos.eqb]. rewrite R2. cbn [obind]. rewrite R3. cbn [obind]. rewrite R4, R5. cbn [obind fst snd]. split; [|reflexivity]. do 3 f_equal; lia.
Qed.
Lemma dump_group op mk mki pre g post : (op = 40 /\ mk = DCapStart /\ mki = ICapStart) \/ (op = 41 /\ mk = DCapEnd /\ mki = ICapEnd) -> P = pre ++ [op; g] ++ post -> (1 < g <= ng) \/ g = 1 ->
  dump_instruction P (zl pre) = Ok (mk (Some (group_name names (g - 1))) (g - 1), Some (zl pre + 2)) /\ decode P (zl pre) = Ok (mki (g - 1) (zl pre + 2)).
Proof.
  intros Hop HP Hg. assert (R : rdZ P (zl pre) = Ok op) by (rewrite HP; apply rdZ_mid; reflexivity).
  assert (R2 : rdZ P (zl pre + 1) = Ok g) by (rewrite HP; cbn [app]; rewrite snoc_app; apply rdZ_mid; rewrite zl_snoc; reflexivity).
  assert (N : get_name P (g - 1) = Ok (Some (group_name names (g - 1)))) by (destruct Hg as [Hg| ->]; [apply HG, Hg|reflexivity]).
  unfold decode, dump_instruction. rewrite R. cbn [obind]. destruct Hop as [(-> & -> & ->)|(-> & -> & ->)]; cbn [Z.eqb Pos.eqb]; rewrite R2; cbn [obind]; rewrite N; cbn [obind]; (split; do 2 f_equal; try lia; f_equal; lia).
Qed.
Lemma one_accept pre post : P = pre ++ 35 :: post -> dump_instruction P (zl pre) = Ok (DAccept, Some (zl pre + 1)) /\ decode P (zl pre) = Ok IAccept.
Proof. intros HP. assert (R : rdZ P (zl pre) = Ok 35) by (rewrite HP; apply rdZ_mid; reflexivity). unfold decode, dump_instruction. rewrite R. split; reflexivity. Qed.
Lemma one_zero pre post : P = pre ++ 90 :: post -> dump_instruction P (zl pre) = Ok (DZero, Some (zl pre + 1)) /\ decode P (zl pre) = Ok (IZero (zl pre + 1)).
Proof. intros HP. assert (R : rdZ P (zl pre) = Ok 90) by (rewrite HP; apply rdZ_mid; reflexivity). unfold decode, dump_instruction. rewrite R. split; reflexivity. Qed.

Ltac inner C := eapply ch_mono; [exact C|]; let t := fresh "t" in let H := fresh in intros t [H|H]; [mem; tauto|subst t; mem; fin].
Lemma reg_opt v X : v = zl (offset_bytes v) + zl X -> reg X -> reg (65 :: offset_bytes v ++ X).
Proof.
  intros Hv HX pre post HP. destruct (small_app _ _ _ _ HP HS) as (A1 & A2 & A3 & A4).
  set (o := offset_bytes v) in *. pose proof (zl_pos o). pose proof (zl_pos X).
  destruct (HX (pre ++ 65 :: o) post) as (l1 & C1); [rewrite HP; norm_app|].
  assert (HPl : zl P = zl pre + (1 + (zl o + zl X)) + zl post) by (rewrite HP; lens; lia).
  assert (E : P = pre ++ (65 :: o) ++ X ++ post) by (rewrite HP; norm_app).
  pose proof (decode_split pre v _ P E HS ltac:(lia)) as D. pose proof (dump_offset 65 DSplit pre v _ ltac:(auto) E ltac:(lia)) as U. fold o in D, U.
  lens. pose proof (ch_first _ _ _ _ C1) as F1. exists ((zl pre, DSplit v (zl pre + 1 + v)) :: l1).
  eapply ch_cons; [exact U|lia|exact D|split; lia| |].
  - tg; [right; lia|]. destruct F1 as [F1|F1]; [right; lia|left; right]. replace (zl pre + 1 + zl o) with (zl pre + (1 + zl o)) by lia. exact F1.
  - replace (zl pre + 1 + zl o) with (zl pre + (1 + zl o)) by lia. replace (zl pre + (1 + (zl o + zl X))) with (zl pre + (1 + zl o) + zl X) by lia. inner C1.
Qed.
Lemma reg_alt v w X Y : v = zl (offset_bytes v) + zl X + 1 + zl (offset_bytes w) -> w = zl (offset_bytes w) + zl Y -> reg X -> reg Y -> reg (65 :: offset_bytes v ++ X ++ 74 :: offset_bytes w ++ Y).
Proof.
  intros Hv Hw HX HY pre post HP. destruct (small_app _ _ _ _ HP HS) as (A1 & A2 & A3 & A4).
  set (o := offset_bytes v) in *. set (u := offset_bytes w) in *. pose proof (zl_pos o). pose proof (zl_pos X). pose proof (zl_pos u). pose proof (zl_pos Y).
  destruct (HX (pre ++ 65 :: o) ((74 :: u ++ Y) ++ post)) as (l1 & C1); [rewrite HP; norm_app|].
  destruct (HY (pre ++ 65 :: o ++ X ++ 74 :: u) post) as (l2 & C2); [rewrite HP; norm_app|].
  assert (HPl : zl P = zl pre + (1 + (zl o + (zl X + (1 + (zl u + zl Y))))) + zl post) by (rewrite HP; lens; lia).
  assert (E : P = pre ++ (65 :: o) ++ X ++ 74 :: u ++ Y ++ post) by (rewrite HP; norm_app).
  assert (E2 : P = (pre ++ 65 :: o ++ X) ++ (74 :: u) ++ Y ++ post) by (rewrite HP; norm_app).
  pose proof (decode_split pre v _ P E HS ltac:(lia)) as D. pose proof (dump_offset 65 DSplit pre v _ ltac:(auto) E ltac:(lia)) as U.
  pose proof (decode_jump _ w _ P E2 HS ltac:(lens; lia)) as D2. pose proof (dump_offset 74 DJump _ w _ ltac:(auto) E2 ltac:(lens; lia)) as U2. fold o u in D, U, D2, U2.
  lens. pose proof (ch_first _ _ _ _ C1) as F1. pose proof (ch_first _ _ _ _ C2) as F2.
  remember (zl pre + (1 + zl o)) as p1 eqn:Ep1. remember (zl pre + (1 + (zl o + zl X))) as p2 eqn:Ep2. remember (zl pre + (1 + (zl o + (zl X + (1 + zl u))))) as p3 eqn:Ep3. remember (zl pre + (1 + (zl o + (zl X + (1 + (zl u + zl Y)))))) as p4 eqn:Ep4.
  replace (p1 + zl X) with p2 in * by lia. replace (p3 + zl Y) with p4 in * by lia. replace (zl pre + 1 + zl o) with p1 in * by lia. replace (p2 + 1 + zl u) with p3 in * by lia.
  replace (zl pre + 1 + v) with p3 in * by lia. replace (p2 + 1 + w) with p4 in * by lia.
  exists ((zl pre, DSplit v p3) :: l1 ++ (p2, DJump w p4) :: l2).
  eapply ch_cons; [exact U|lia|exact D|split; lia| |].
  - tg; [destruct F2 as [F2|F2]; fin|destruct F1 as [F1|F1]; [rewrite F1|]; fin].
  - eapply ch_app; [inner C1|]. eapply ch_cons; [exact U2|lia|exact D2|split; lia| |inner C2]. tg. fin.
Qed.
Lemma reg_star v w X : v = zl (offset_bytes v) + zl X + 1 + zl (offset_bytes w) -> w = - (1 + zl (offset_bytes v) + zl X + 1) -> reg X -> reg (65 :: offset_bytes v ++ X ++ 74 :: offset_bytes w).
Proof.
  intros Hv Hw HX pre post HP. destruct (small_app _ _ _ _ HP HS) as (A1 & A2 & A3 & A4).
  set (o := offset_bytes v) in *. set (u := offset_bytes w) in *. pose proof (zl_pos o). pose proof (zl_pos X). pose proof (zl_pos u).
  destruct (HX (pre ++ 65 :: o) ((74 :: u) ++ post)) as (l1 & C1); [rewrite HP; norm_app|].
  assert (HPl : zl P = zl pre + (1 + (zl o + (zl X + (1 + zl u)))) + zl post) by (rewrite HP; lens; lia).
  assert (E : P = pre ++ (65 :: o) ++ X ++ 74 :: u ++ post) by (rewrite HP; norm_app).
  assert (E2 : P = (pre ++ 65 :: o ++ X) ++ (74 :: u) ++ post) by (rewrite HP; norm_app).
  pose proof (decode_split pre v _ P E HS ltac:(lia)) as D. pose proof (dump_offset 65 DSplit pre v _ ltac:(auto) E ltac:(lia)) as U.
  pose proof (decode_jump _ w _ P E2 HS ltac:(lens; lia)) as D2. pose proof (dump_offset 74 DJump _ w _ ltac:(auto) E2 ltac:(lens; lia)) as U2. fold o u in D, U, D2, U2.
  lens. pose proof (ch_first _ _ _ _ C1) as F1.
  remember (zl pre + (1 + zl o)) as p1 eqn:Ep1. remember (zl pre + (1 + (zl o + zl X))) as p2 eqn:Ep2. remember (zl pre + (1 + (zl o + (zl X + (1 + zl u))))) as p3 eqn:Ep3.
  replace (p1 + zl X) with p2 in * by lia. replace (zl pre + 1 + zl o) with p1 in * by lia. replace (p2 + 1 + zl u) with p3 in * by lia.
  replace (zl pre + 1 + v) with p3 in * by lia. replace (p2 + 1 + w) with (zl pre) in * by lia.
  exists ((zl pre, DSplit v p3) :: l1 ++ [(p2, DJump w (zl pre))]).
  eapply ch_cons; [exact U|lia|exact D|split; lia| |].
  - tg; [fin|destruct F1 as [F1|F1]; [rewrite F1|]; fin].
  - eapply ch_app; [inner C1|]. eapply ch_one; [exact U2|lia|exact D2|split; lia|]. tg. fin.
Qed.
Lemma reg_plus v X : v = - (zl X + 1) -> reg X -> reg (X ++ 65 :: offset_bytes v).
Proof.
  intros Hv HX pre post HP. destruct (small_app _ _ _ _ HP HS) as (A1 & A2 & A3 & A4).
  set (o := offset_bytes v) in *. pose proof (zl_pos o). pose proof (zl_pos X).
  destruct (HX pre ((65 :: o) ++ post)) as (l1 & C1); [rewrite HP; norm_app|].
  assert (HPl : zl P = zl pre + (zl X + (1 + zl o)) + zl post) by (rewrite HP; lens; lia).
  assert (E : P = (pre ++ X) ++ (65 :: o) ++ post) by (rewrite HP; norm_app).
  pose proof (decode_split _ v _ P E HS ltac:(lens; lia)) as D. pose proof (dump_offset 65 DSplit _ v _ ltac:(auto) E ltac:(lens; lia)) as U. fold o in D, U.
  lens. pose proof (ch_first _ _ _ _ C1) as F1.
  remember (zl pre + zl X) as p1 eqn:Ep1. remember (zl pre + (zl X + (1 + zl o))) as p2 eqn:Ep2. replace (p1 + 1 + zl o) with p2 in * by lia. replace (p1 + 1 + v) with (zl pre) in * by lia.
  exists (l1 ++ [(p1, DSplit v (zl pre))]). eapply ch_app; [inner C1|]. eapply ch_one; [exact U|lia|exact D|split; lia|]. tg; [destruct F1 as [F1|F1]; fin|fin].
Qed.
Lemma reg_count a b v X : v = - (zl X + 3) -> reg X -> reg (90 :: X ++ 82 :: a :: b :: offset_bytes v).
Proof.
  intros Hv HX pre post HP. destruct (small_app _ _ _ _ HP HS) as (A1 & A2 & A3 & A4).
  set (o := offset_bytes v) in *. pose proof (zl_pos o). pose proof (zl_pos X).
  destruct (HX (pre ++ [90]) ((82 :: a :: b :: o) ++ post)) as (l1 & C1); [rewrite HP; norm_app|].
  assert (HPl : zl P = zl pre + (1 + (zl X + (1 + (1 + (1 + zl o))))) + zl post) by (rewrite HP; lens; lia).
  assert (E0 : P = pre ++ 90 :: X ++ 82 :: a :: b :: o ++ post) by (rewrite HP; norm_app).
  assert (E : P = (pre ++ 90 :: X) ++ (82 :: a :: b :: o) ++ post) by (rewrite HP; norm_app).
  destruct (one_zero _ _ E0) as [U0 D0]. destruct (dump_count _ a b v post E ltac:(lens; lia)) as [U D]. fold o in D, U.
  lens. rewrite Z.add_0_r in *. pose proof (ch_first _ _ _ _ C1) as F1.
  remember (zl pre + 1) as p1 eqn:Ep1. remember (zl pre + (1 + zl X)) as p2 eqn:Ep2. remember (zl pre + (1 + (zl X + (1 + (1 + (1 + zl o)))))) as p3 eqn:Ep3.
  replace (p1 + zl X) with p2 in * by lia. replace (p2 + 3 + zl o) with p3 in * by lia. replace (p2 + 3 + v) with p1 in * by lia.
  exists ((zl pre, DZero) :: l1 ++ [(p2, DCount (a - 1) (b - 1) v p1)]).
  eapply ch_cons; [exact U0|lia|exact D0|exact I| |].
  - tg. destruct F1 as [F1|F1]; [rewrite F1|]; fin.
  - eapply ch_app; [inner C1|]. eapply ch_one; [exact U|lia|exact D|repeat split; lia|]. tg; [destruct F1 as [F1|F1]; [rewrite F1|]; fin|fin].
Qed.
Lemma reg_named g X : 1 < g <= ng -> reg X -> reg (40 :: g :: X ++ [41; g]).
Proof.
  intros Hg HX pre post HP. destruct (small_app _ _ _ _ HP HS) as (A1 & A2 & A3 & A4). pose proof (zl_pos X).
  destruct (HX (pre ++ [40; g]) ([41; g] ++ post)) as (l1 & C1); [rewrite HP; norm_app|].
  assert (E0 : P = pre ++ [40; g] ++ X ++ [41; g] ++ post) by (rewrite HP; norm_app).
  assert (E : P = (pre ++ 40 :: g :: X) ++ [41; g] ++ post) by (rewrite HP; norm_app).
  destruct (dump_group 40 DCapStart ICapStart _ g _ ltac:(auto) E0 ltac:(auto)) as [U0 D0]. destruct (dump_group 41 DCapEnd ICapEnd _ g _ ltac:(auto) E ltac:(auto)) as [U D].
  lens. rewrite Z.add_0_r in *. pose proof (ch_first _ _ _ _ C1) as F1.
  remember (zl pre + (1 + 1)) as p1 eqn:Ep1. remember (zl pre + (1 + (1 + zl X))) as p2 eqn:Ep2. remember (zl pre + (1 + (1 + (zl X + (1 + 1))))) as p3 eqn:Ep3.
  replace (zl pre + 2) with p1 in * by lia. replace (p1 + zl X) with p2 in * by lia. replace (p2 + 2) with p3 in * by lia.
  exists ((zl pre, DCapStart (Some (group_name names (g - 1))) (g - 1)) :: l1 ++ [(p2, DCapEnd (Some (group_name names (g - 1))) (g - 1))]).
  eapply ch_cons; [exact U0|lia|exact D0|split; reflexivity| |].
  - tg. destruct F1 as [F1|F1]; [rewrite F1|]; fin.
  - eapply ch_app; [inner C1|]. eapply ch_one; [exact U|lia|exact D|split; reflexivity|]. tg. fin.
Qed.
Lemma reg_neg v X : v = zl (offset_bytes v) + zl X + 1 -> reg X -> reg (33 :: offset_bytes v ++ X ++ [35]).
Proof.
  intros Hv HX pre post HP. destruct (small_app _ _ _ _ HP HS) as (A1 & A2 & A3 & A4).
  set (o := offset_bytes v) in *. pose proof (zl_pos o). pose proof (zl_pos X).
  destruct (HX (pre ++ 33 :: o) ([35] ++ post)) as (l1 & C1); [rewrite HP; norm_app|].
  assert (HPl : zl P = zl pre + (1 + (zl o + (zl X + 1))) + zl post) by (rewrite HP; lens; lia).
  assert (E0 : P = pre ++ (33 :: o) ++ X ++ [35] ++ post) by (rewrite HP; norm_app).
  assert (E : P = (pre ++ 33 :: o ++ X) ++ 35 :: post) by (rewrite HP; norm_app).
  pose proof (dump_offset 33 DNeg _ v _ ltac:(auto) E0 ltac:(lia)) as U0.
  assert (D0 : decode P (zl pre) = Ok (INeg (zl pre + 1 + v) (zl pre + 1 + zl o))).
  { assert (R0 : rdZ P (zl pre) = Ok 33) by (rewrite HP; apply rdZ_mid; reflexivity). unfold decode. rewrite R0. cbn [obind Z.eqb Pos.eqb].
    assert (Q : P = (pre ++ [33]) ++ o ++ X ++ [35] ++ post) by (rewrite HP; norm_app).
    assert (R : offset_at P (zl pre + 1) = Ok (zl pre + 1 + v, zl pre + 1 + zl o)).
    { rewrite Q. unfold o. apply offset_at_put; [rewrite zl_snoc; reflexivity|fold o; assert (Hs := HS); unfold small in Hs; lia..]. }
    rewrite R. reflexivity. }
  destruct (one_accept _ _ E) as [U D]. fold o in U0.
  lens. rewrite Z.add_0_r in *. pose proof (ch_first _ _ _ _ C1) as F1.
  remember (zl pre + (1 + zl o)) as p1 eqn:Ep1. remember (zl pre + (1 + (zl o + zl X))) as p2 eqn:Ep2. remember (zl pre + (1 + (zl o + (zl X + 1)))) as p3 eqn:Ep3.
  replace (zl pre + 1 + zl o) with p1 in * by lia. replace (p1 + zl X) with p2 in * by lia. replace (p2 + 1) with p3 in * by lia. replace (zl pre + 1 + v) with p3 in * by lia.
  exists ((zl pre, DNeg v p3) :: l1 ++ [(p2, DAccept)]).
  eapply ch_cons; [exact U0|lia|exact D0|split; lia| |].
  - tg; [fin|]. destruct F1 as [F1|F1]; [rewrite F1|]; fin.
  - eapply ch_app; [inner C1|]. eapply ch_one; [exact U|lia|exact D|exact I|]. tg.
Qed.
Lemma code_reg X : coded ng X -> reg X.
Proof.
  induction 1.
  - apply reg_nil.
  - apply reg_app; assumption.
  - apply reg_char; assumption.
  - apply reg_any.
  - apply reg_bol.
  - apply reg_eol.
  - destruct neg; [apply (reg_text 78 DNegClass (IClass true))|apply (reg_text 76 DClass (IClass false))]; auto.
  - apply (reg_text 80 DProp IProp); auto.
  - apply reg_opt; assumption.
  - apply reg_alt; assumption.
  - apply reg_star; assumption.
  - apply reg_plus; assumption.
  - apply reg_count; assumption.
  - apply reg_named; assumption.
  - apply reg_neg; assumption.
Qed.
End Listing.

(** ** The header *)
Lemma show_fine names : Forall (Forall fine) names -> forall pre post p P, P = pre ++ flat_map string_bytes names ++ post -> small P -> p = zl pre ->
  show_names P (length names) p = Ok (map utf8 names, p + zl (flat_map string_bytes names)).
Proof.
  induction 1 as [|l names Hl _ IH]; intros pre post p P HP HS Hp; [cbn [show_names length flat_map map]; rewrite zl_nil, Z.add_0_r; reflexivity|].
  cbn [show_names length flat_map map] in *. assert (E : P = pre ++ string_bytes l ++ flat_map string_bytes names ++ post) by (rewrite HP; rewrite <- app_assoc; reflexivity).
  destruct (counted_text pre l (flat_map string_bytes names ++ post) p Hp Hl (nbytes_in _ _ _ _ E HS)) as [G1 G2]. rewrite <- E in G1, G2.
  rewrite G1. cbn [obind fst snd]. rewrite G2. cbn [obind]. rewrite (IH (pre ++ string_bytes l) post _ P).
  - cbn [obind fst snd]. rewrite zl_app. do 2 f_equal. lia.
  - rewrite E. rewrite <- app_assoc. reflexivity.
  - exact HS.
  - rewrite zl_app. lia.
Qed.
Lemma skip_fine names : Forall (Forall fine) names -> forall k pre post p P, P = pre ++ flat_map string_bytes names ++ post -> small P -> p = zl pre -> (k <= length names)%nat ->
  skip_names P k p = Ok (p + zl (flat_map string_bytes (firstn k names))).
Proof.
  induction 1 as [|l names Hl _ IH]; intros [|k] pre post p P HP HS Hp Hk; try (cbn [skip_names firstn flat_map]; rewrite zl_nil, Z.add_0_r; reflexivity); [cbn [length] in Hk; lia|].
  cbn [skip_names length flat_map firstn] in *. assert (E : P = pre ++ string_bytes l ++ flat_map string_bytes names ++ post) by (rewrite HP; rewrite <- app_assoc; reflexivity).
  destruct (counted_text pre l (flat_map string_bytes names ++ post) p Hp Hl (nbytes_in _ _ _ _ E HS)) as [G1 _]. rewrite <- E in G1.
  rewrite G1. cbn [obind fst snd]. rewrite (IH k (pre ++ string_bytes l) post _ P).
  - rewrite zl_app. f_equal. lia.
  - rewrite E. rewrite <- app_assoc. reflexivity.
  - exact HS.
  - rewrite zl_app. lia.
  - lia.
Qed.
Lemma utf8_pos l : Forall fine l -> l <> [] -> 0 < zl (utf8 l).
Proof. intros H N. destruct l as [|c l]; [contradiction|]. unfold utf8. cbn [flat_map]. rewrite zl_app. pose proof (zl_pos (flat_map UTF8Put l)). unfold zl at 1. rewrite RxSize.utf8put_len. pose proof (RxSize.utf8len_range c). lia. Qed.

Lemma split_nth {A} (d : A) l : forall k, (k < length l)%nat -> l = firstn k l ++ nth k l d :: skipn (S k) l.
Proof. induction l as [|x l IH]; intros [|k] Hk; cbn [length] in Hk; try lia; [reflexivity|]. cbn [firstn nth skipn app]. f_equal. apply IH. lia. Qed.
Ltac inner C := eapply ch_mono; [exact C|]; let t := fresh "t" in let H := fresh in intros t [H|H]; [mem; tauto|subst t; mem; fin].
Section Whole.
Variables (v1 v2 st mx a c : Z) (names : list (list Z)) (X P : list Z).
Hypothesis HP : P = whole v1 v2 st mx a c names X.
Hypothesis HS : small P.
Hypothesis Hst : 0 <= st < 2^29.
Hypothesis HN : Forall (Forall fine) names.
Hypothesis HNE : Forall (fun l => l <> []) names.
Hypothesis HN2 : (length names <= 254)%nat.
Let zn := zl (flat_map string_bytes names).
Let n := u8 (Z.of_nat (length names) + 1).
Hypothesis Hv2 : v2 = zob v2 + zob st + 3 + zn.
Hypothesis Hv1 : v1 = zob v1 + zob v2 + zob st + 3 + zn + 2 + zl X + 1.
Hypothesis Ha : a = - (zl X + 4).
Hypothesis Hc : c = - (zob a + 3).
Hypothesis HX : coded (Z.of_nat (length names) + 1) X.
Let start := 1 + zob v1 + zob v2 + zob st + 3 + zn.
Let search := start + 2 + zl X + 1.
Let rest := [40; 1] ++ X ++ [35] ++ [65] ++ offset_bytes a ++ [46; 74] ++ offset_bytes c ++ [0].

Lemma bounds : 0 <= zob v1 /\ 0 <= zob v2 /\ 0 <= zob st /\ 0 <= zob a /\ 0 <= zob c /\ 0 <= zn /\ 0 <= zl X /\ zl P < 2^29 /\ zl P = search + 1 + zob a + 2 + zob c + 1.
Proof.
  clear Hst HN HNE HN2 Hv2 Hv1 Ha Hc HX. unfold small in HS. assert (E : zl P = search + 1 + zob a + 2 + zob c + 1).
  { rewrite HP. unfold whole. fold n. rewrite zl_cons, !zl_app. change (zl [mx; n; n]) with 3. change (zl [40; 1]) with 2. change (zl [35]) with 1. change (zl [65]) with 1.
    change (zl [46; 74]) with 2. change (zl [0]) with 1. unfold search, start, zob, zn. lia. }
  unfold zob, zn. repeat split; try apply zl_pos; try (fold (zob c); lia). exact E.
Qed.
Ltac shape := rewrite HP; unfold whole, rest; fold n; repeat (rewrite <- app_assoc || rewrite <- app_comm_cons || rewrite app_nil_l); reflexivity.
Let p4 := 83 :: offset_bytes v1 ++ offset_bytes v2 ++ offset_bytes st.
Lemma head : rdZ P 0 = Ok 83 /\ offset_of P 1 = Ok (v1, 1 + zob v1) /\ offset_of P (1 + zob v1) = Ok (v2, 1 + zob v1 + zob v2) /\
  get_at P (1 + zob v1 + zob v2) = Ok (zigzag st, 1 + zob v1 + zob v2 + zob st) /\ rdZ P (1 + zob v1 + zob v2 + zob st) = Ok mx /\
  rdZ P (1 + zob v1 + zob v2 + zob st + 1) = Ok n /\ rdZ P (1 + zob v1 + zob v2 + zob st + 2) = Ok n /\
  P = (p4 ++ [mx; n; n]) ++ flat_map string_bytes names ++ rest /\ zl (p4 ++ [mx; n; n]) = 1 + zob v1 + zob v2 + zob st + 3.
Proof.
  destruct bounds as (A1 & A2 & A3 & A4 & A5 & A5n & A6 & A7 & A8). unfold search, start in *.
  assert (Z4 : zl p4 = 1 + zob v1 + zob v2 + zob st) by (unfold p4; rewrite zl_cons, !zl_app; unfold zob; lia).
  set (T3 := mx :: n :: n :: flat_map string_bytes names ++ rest).
  assert (E0 : P = [] ++ 83 :: offset_bytes v1 ++ offset_bytes v2 ++ offset_bytes st ++ T3) by (unfold T3; shape).
  assert (E1 : P = [83] ++ offset_bytes v1 ++ offset_bytes v2 ++ offset_bytes st ++ T3) by (unfold T3; shape).
  assert (E2 : P = (83 :: offset_bytes v1) ++ offset_bytes v2 ++ offset_bytes st ++ T3) by (unfold T3; shape).
  assert (E3 : P = (83 :: offset_bytes v1 ++ offset_bytes v2) ++ offset_bytes st ++ T3) by (unfold T3; shape).
  assert (E4 : P = p4 ++ mx :: n :: n :: flat_map string_bytes names ++ rest) by (unfold p4; shape).
  assert (E5 : P = (p4 ++ [mx]) ++ n :: n :: flat_map string_bytes names ++ rest) by (unfold p4; shape).
  assert (E6 : P = (p4 ++ [mx; n]) ++ n :: flat_map string_bytes names ++ rest) by (unfold p4; shape).
  assert (E7 : P = (p4 ++ [mx; n; n]) ++ flat_map string_bytes names ++ rest) by (unfold p4; shape).
  split; [rewrite E0; apply rdZ_mid; reflexivity|].
  split; [rewrite E1 at 1; apply offset_of_put; [reflexivity|lia]|].
  split; [rewrite E2 at 1; apply offset_of_put; [rewrite zl_cons; reflexivity|lia]|].
  split; [rewrite E3 at 1; apply get_at_put; [rewrite zl_cons, zl_app; unfold zob; lia|apply zigzag_range; lia]|].
  split; [rewrite E4 at 1; apply rdZ_mid; lia|].
  split; [rewrite E5 at 1; apply rdZ_mid; rewrite zl_app; change (zl [mx]) with 1; lia|].
  split; [rewrite E6 at 1; apply rdZ_mid; rewrite zl_app; change (zl [mx; n]) with 2; lia|].
  split; [exact E7|]. rewrite zl_app. change (zl [mx; n; n]) with 3. lia.
Qed.
Lemma num_names : n - 1 = Z.of_nat (length names).
Proof. unfold n, u8. rewrite Z.mod_small by lia. lia. Qed.
Lemma dump_head : dump_instruction P 0 = Ok (DStart search start (s32 (zigzag st)) mx n (map utf8 names), Some start).
Proof.
  destruct bounds as (A1 & A2 & A3 & A4 & A5 & A5n & A6 & A7 & A8). destruct head as (R0 & R1 & R2 & R3 & R4 & R5 & R6 & E7 & Z7).
  unfold dump_instruction. rewrite R0. cbn [obind Z.eqb Pos.eqb]. change (0 + 1) with 1. rewrite R1. cbn [obind fst snd]. rewrite R2. cbn [obind fst snd]. rewrite R3. cbn [obind fst snd].
  rewrite R4. cbn [obind]. rewrite R5. cbn [obind]. rewrite R6. cbn [obind]. rewrite num_names, Nat2Z.id, (show_fine names HN _ _ _ P E7 HS) by (rewrite Z7; reflexivity). cbn [obind fst snd].
  fold zn. replace (1 + v1) with search by (unfold search, start; lia). replace (1 + zob v1 + v2) with start by (unfold start; lia). reflexivity.
Qed.
Lemma name_of g : 1 < g <= Z.of_nat (length names) + 1 -> get_name P (g - 1) = Ok (Some (group_name names (g - 1))).
Proof.
  intros Hg. destruct bounds as (A1 & A2 & A3 & A4 & A5 & A5n & A6 & A7 & A8). destruct head as (R0 & R1 & R2 & R3 & R4 & R5 & R6 & E7 & Z7).
  unfold get_name, group_name. destruct (Z.eqb_spec (g - 1) 0); [lia|]. rewrite R0. cbn [obind Z.eqb Pos.eqb cassert]. rewrite R1. cbn [obind fst snd]. rewrite R2. cbn [obind fst snd]. rewrite R3. cbn [obind fst snd].
  rewrite R6. cbn [obind]. rewrite num_names. destruct (Z.leb_spec (g - 1) 0); [lia|]. destruct (Z.ltb_spec (Z.of_nat (length names)) (g - 1)); [lia|]. cbn [orb].
  set (k := Z.to_nat (g - 1 - 1)). assert (Hk : (k < length names)%nat) by (unfold k; lia). rewrite (skip_fine names HN k _ _ _ P E7 HS) by (rewrite ?Z7; lia). cbn [obind].
  set (l := nth k names []). assert (SP : names = firstn k names ++ l :: skipn (S k) names) by (apply split_nth, Hk).
  assert (Hl : Forall fine l) by (apply (proj1 (Forall_forall _ names) HN), nth_In; exact Hk).
  assert (Hl2 : l <> []) by (apply (proj1 (Forall_forall _ names) HNE), nth_In; exact Hk).
  assert (E : P = ((p4 ++ [mx; n; n]) ++ flat_map string_bytes (firstn k names)) ++ string_bytes l ++ flat_map string_bytes (skipn (S k) names) ++ rest).
  { rewrite E7, SP at 1. rewrite flat_map_app. cbn [flat_map]. rewrite <- !app_assoc. reflexivity. }
  destruct (counted_text ((p4 ++ [mx; n; n]) ++ flat_map string_bytes (firstn k names)) l (flat_map string_bytes (skipn (S k) names) ++ rest) (1 + zob v1 + zob v2 + zob st + 3 + zl (flat_map string_bytes (firstn k names))) ltac:(rewrite zl_app, Z7; reflexivity) Hl (nbytes_in _ _ _ _ E HS)) as [G1 G2]. rewrite <- E in G1, G2.
  rewrite G1. cbn [obind fst snd]. pose proof (utf8_pos l Hl Hl2). destruct (Z.ltb_spec 0 (zl (utf8 l))); [|lia]. cbn [cassert]. rewrite G2. reflexivity.
Qed.

Lemma ch_in T p ls q x l : chain P names T p ls q -> In (x, l) ls -> exists i, decode P x = Ok i /\ shows names x i l /\ forall t, In t (targets i) -> T t.
Proof.
  induction 1 as [p|p l0 p' i ls q U L D S T0 C IH]; [contradiction|]. intros [Hp|Hp]; [|apply IH, Hp]. assert (x = p /\ l = l0) as [-> ->] by (split; congruence). eauto.
Qed.
Lemma ch_bound T p ls q : chain P names T p ls q -> p <= q /\ Forall (fun x => p <= fst x < q) ls /\ StronglySorted Z.lt (map fst ls).
Proof.
  induction 1 as [p|p l p' i ls q U L D S T0 C (B1 & B2 & B3)]; [split; [lia|]; split; constructor|]. split; [lia|]. split.
  - constructor; [cbn [fst]; lia|]. eapply Forall_impl; [|exact B2]. intros [x y] H. cbn [fst] in *. lia.
  - cbn [map fst]. constructor; [exact B3|]. rewrite Forall_map. eapply Forall_impl; [|exact B2]. intros [x y] H. cbn [fst] in *. lia.
Qed.
Lemma ch_dump T p ls q : chain P names T p ls q -> q <= zl P -> forall f r, dump_loop P f q = Ok r -> dump_loop P (length ls + f) p = Ok (ls ++ r).
Proof.
  induction 1 as [p|p l p' i ls q U L D S T0 C IH]; intros Hq f r H; [exact H|]. destruct (ch_bound _ _ _ _ C) as (B & _). cbn [length plus app dump_loop]. fold (zl P).
  destruct (Z.ltb_spec p (zl P)); [|lia]. rewrite U. cbn [obind snd fst]. rewrite (IH Hq f r H). reflexivity.
Qed.
Lemma more_fuel f p r : dump_loop P f p = Ok r -> forall f', (f <= f')%nat -> dump_loop P f' p = Ok r.
Proof.
  revert p r. induction f as [|f IH]; intros p r H f' Hf; destruct f' as [|f']; try lia; cbn [dump_loop] in *; destruct (_ <? _); try exact H; try discriminate H.
  apply obind_ok in H. destruct H as (x & E & H). rewrite E. cbn [obind]. destruct (snd x) as [s'|]; [|exact H].
  apply obind_ok in H. destruct H as (r' & E' & H). rewrite (IH _ _ E' f') by lia. exact H.
Qed.
Lemma ch_len T p ls q : chain P names T p ls q -> Z.of_nat (length ls) <= q - p.
Proof. induction 1; cbn [length]; lia. Qed.

Lemma whole_listing h : program P = Ok h -> h_start h = start -> h_search h = search -> h_names h = names -> h_stations h = s32 (zigzag st) -> h_captures h = n ->
  exists lines, dump P = Ok lines /\ listing P h lines.
Proof.
  intros _ H1 H2 H3 H4 H5. destruct bounds as (A1 & A2 & A3 & A4 & A5 & A5n & A6 & A7 & A8). destruct head as (_ & _ & _ & _ & _ & _ & _ & E7 & Z7).
  set (pre := (p4 ++ [mx; n; n]) ++ flat_map string_bytes names).
  assert (Zp : zl pre = start) by (unfold pre, start; rewrite zl_app, Z7; reflexivity).
  assert (E : P = pre ++ rest) by (rewrite E7; unfold pre; norm_app).
  destruct (code_reg P names HS name_of X HX (pre ++ [40; 1]) ([35] ++ [65] ++ offset_bytes a ++ [46; 74] ++ offset_bytes c ++ [0])) as (lx & CX); [rewrite E; unfold rest; norm_app|].
  assert (E1 : P = pre ++ [40; 1] ++ X ++ [35] ++ [65] ++ offset_bytes a ++ [46; 74] ++ offset_bytes c ++ [0]) by (rewrite E; reflexivity).
  set (q0 := pre ++ [40; 1] ++ X). assert (Zq : zl q0 = start + 2 + zl X) by (unfold q0; rewrite !zl_app; change (zl [40; 1]) with 2; lia).
  assert (E2 : P = q0 ++ 35 :: [65] ++ offset_bytes a ++ [46; 74] ++ offset_bytes c ++ [0]) by (rewrite E1; unfold q0; norm_app).
  assert (E3 : P = (q0 ++ [35]) ++ (65 :: offset_bytes a) ++ [46; 74] ++ offset_bytes c ++ [0]) by (rewrite E2; norm_app).
  set (q2 := q0 ++ [35] ++ 65 :: offset_bytes a). assert (Z2 : zl q2 = search + 1 + zob a) by (unfold q2, search, zob; rewrite (zl_app q0), (zl_app [35]), !zl_cons, zl_nil, Zq; lia).
  assert (E4 : P = q2 ++ 46 :: 74 :: offset_bytes c ++ [0]) by (rewrite E2; unfold q2; norm_app; cbn [app]; norm_app).
  assert (E5 : P = (q2 ++ [46]) ++ (74 :: offset_bytes c) ++ [0]) by (rewrite E4; norm_app).
  assert (E6 : P = (q2 ++ [46] ++ 74 :: offset_bytes c) ++ 0 :: []) by (rewrite E4; norm_app; cbn [app]; norm_app).
  destruct (dump_group P names name_of 40 DCapStart ICapStart pre 1 _ ltac:(auto) E1 ltac:(auto)) as [U1 D1]. change (1 - 1) with 0 in U1, D1.
  destruct (one_accept P _ _ E2) as [U2 D2].
  pose proof (decode_split _ a _ P E3 HS) as D3. pose proof (dump_offset P names HS name_of 65 DSplit _ a _ ltac:(auto) E3) as U3. rewrite zl_snoc, Zq in D3, U3.
  specialize (D3 ltac:(unfold search in *; unfold zob in *; lia)). specialize (U3 ltac:(unfold search in *; unfold zob in *; lia)).
  assert (R4 : rdZ P (zl q2) = Ok 46) by (rewrite E4 at 1; apply rdZ_mid; reflexivity).
  assert (D4 : decode P (zl q2) = Ok (IAny (zl q2 + 1))) by (unfold decode; rewrite R4; reflexivity).
  assert (U4 : dump_instruction P (zl q2) = Ok (DAny, Some (zl q2 + 1))) by (unfold dump_instruction; rewrite R4; reflexivity).
  pose proof (decode_jump _ c _ P E5 HS) as D5. pose proof (dump_offset P names HS name_of 74 DJump _ c _ ltac:(auto) E5) as U5. rewrite zl_snoc in D5, U5.
  specialize (D5 ltac:(unfold search in *; lia)). specialize (U5 ltac:(unfold search in *; lia)).
  set (last := zl P - 1). assert (Zl : zl (q2 ++ [46] ++ 74 :: offset_bytes c) = last) by (unfold last, zob in *; rewrite (zl_app q2), (zl_app [46]), !zl_cons, zl_nil; lia).
  assert (R6 : rdZ P last = Ok 0) by (rewrite E6 at 1; apply rdZ_mid; symmetry; exact Zl).
  assert (U6 : dump_instruction P last = Ok (DNull, None)) by (unfold dump_instruction; rewrite R6; reflexivity).
  rewrite zl_app, Zp in CX. change (zl [40; 1]) with 2 in CX. rewrite Zp in U1, D1. rewrite Zq in U2, D2. fold search in U2, D2, U3, D3. fold (zob a) in U3, D3. fold (zob c) in U5, D5.
  replace (search + 1 + a) with start in U3, D3 by (unfold search; lia). replace (zl q2 + 1 + 1 + c) with search in U5, D5 by lia.
  replace (zl q2 + 1 + 1 + zob c) with last in U5 by (unfold last; lia).
  pose proof (ch_first _ _ _ _ _ _ CX) as FX. set (J := start + 2 + zl X) in *. rewrite <- Z2 in U3, D3.
  set (body := (start, DCapStart (Some []) 0) :: lx ++ [(J, DAccept); (search, DSplit a start); (zl q2, DAny); (zl q2 + 1, DJump c search)]).
  assert (C : chain P names (fun t => In t (map fst body)) start body last).
  { assert (SJ : search = J + 1) by reflexivity. unfold body. eapply ch_cons; [exact U1|lia|exact D1|split; reflexivity| |].
    - tg. destruct FX as [FX|FX]; [rewrite FX|]; fin.
    - eapply ch_app; [inner CX|]. fold J.
      eapply ch_cons; [exact U2|lia|exact D2|exact I|tg|].
      eapply ch_cons; [exact U3|lia|exact D3|split; lia|tg; fin|].
      eapply ch_cons; [exact U4|lia|exact D4|exact I|tg; fin|].
      eapply ch_one; [exact U5|lia|exact D5|split; lia|tg; fin]. }
  exists ((0, DStart search start (s32 (zigzag st)) mx n (map utf8 names)) :: body ++ [(last, DNull)]). split.
  - unfold dump. pose proof (ch_len _ _ _ _ C) as CL.
    assert (DL : dump_loop P 1 last = Ok [(last, DNull)]) by (cbn [dump_loop]; fold (zl P); destruct (Z.ltb_spec last (zl P)); [|unfold last in *; lia]; rewrite U6; reflexivity).
    apply (more_fuel (S (length body + 1))); [|unfold last, start, zl in *; lia]. cbn [dump_loop]. fold (zl P). destruct (Z.ltb_spec 0 (zl P)); [|unfold start, search in *; lia].
    rewrite dump_head. cbn [obind snd fst]. rewrite (ch_dump _ _ _ _ C ltac:(unfold last; lia) 1%nat _ DL). reflexivity.
  - destruct (ch_bound _ _ _ _ C) as (B1 & B2 & B3). exists body, mx. rewrite H1, H2, H3, H4, H5. split; [reflexivity|]. split; [|split; [|split]].
    + cbn [map fst]. rewrite map_app. cbn [map fst]. constructor.
      * assert (G : forall l b, StronglySorted Z.lt l -> Forall (fun x => x < b) l -> StronglySorted Z.lt (l ++ [b])).
        { clear. intros l b H. induction H as [|x l H IH F]; intros HB; [repeat constructor|]. inversion HB; subst. cbn [app]. constructor; [auto|]. apply Forall_app. auto. }
        apply G; [exact B3|]. rewrite Forall_map. eapply Forall_impl; [|exact B2]. intros [x y] Hx. cbn [fst] in *. lia.
      * apply Forall_app. split; [|constructor; [|constructor]; unfold last, search, start in *; lia]. rewrite Forall_map. eapply Forall_impl; [|exact B2]. intros [x y] Hx. cbn [fst] in *. unfold start in *. lia.
    + left. reflexivity.
    + unfold body. mem. fin.
    + intros p l Hp. eapply ch_in in C; [|exact Hp]. exact C.
Qed.
End Whole.

Lemma compiled_listing features reject re prog m : ordinary re -> short_program features reject re -> compile features reject re = Ok (Some prog, m) ->
  exists h lines, program prog = Ok h /\ dump prog = Ok lines /\ listing prog h lines.
Proof.
  intros HO HS H. destruct (compile_code _ _ _ _ _ HO HS H) as (v1 & v2 & st & mx & a & c & names & X & HP & HX & HSm & Hst & HN & HNE & HN2 & Hv2 & Hv1 & Ha & Hc).
  destruct (whole_program v1 v2 st mx a c names X prog HP HSm Hst HN HN2 Hv2 Hv1) as (h & P1 & P2 & P3 & P4 & P5 & P6).
  destruct (whole_listing v1 v2 st mx a c names X prog HP HSm Hst HN HNE HN2 Hv2 Hv1 Ha Hc HX h P1 P2) as (lines & L1 & L2); try assumption.
  eauto.
Qed.
