(** C48: StrVal::format puts the arguments in place of the conversions. *)
From Verif Require Import Base StrModel StrNumModel StrNumSpec StrNumProofs.
From Verif Require Import RefModel RefProofs VarModel VarSpec VarProofs VarSim VarCoerce VarProps JsonProps VarJsonModel VarJsonSpec VarJsonProps FmtModel FmtSpec.
From Verif Require Import JsonSpec.

(** ** The arguments *)
Definition dead (k : nat) : heap := repeat None k.
Lemma dead_kids k : all_kids (dead k) = [].
Proof. induction k; [reflexivity|exact IHk]. Qed.
Lemma nth_dead k b : nth_error (dead k) b = Some None \/ nth_error (dead k) b = None.
Proof.
  destruct (nth_error (dead k) b) as [o|] eqn:E; [|auto]. left. apply nth_error_In, repeat_spec in E. congruence.
Qed.
Lemma live_dead h k b x : live (h ++ dead k) b x <-> live h b x.
Proof.
  unfold live. destruct (Nat.lt_ge_cases b (length h)).
  - rewrite nth_error_app1 by assumption. tauto.
  - rewrite nth_error_app2 by assumption. split; intros E; [destruct (nth_dead k (b - length h)); congruence|].
    apply nth_error_None in H. congruence.
Qed.
Lemma inv_dead h k roots : Inv h roots -> Inv (h ++ dead k) roots.
Proof.
  intros [C D]. split.
  - intros b. rewrite all_kids_app, dead_kids, app_nil_r. specialize (C b).
    destruct (Nat.lt_ge_cases b (length h)).
    + rewrite nth_error_app1 by assumption. exact C.
    + rewrite nth_error_app2 by assumption. assert (N : nth_error h b = None) by (apply nth_error_None; lia). rewrite N in C.
      destruct (nth_dead k (b - length h)) as [-> | ->]; exact C.
  - intros b x i L. apply live_dead in L. exact (D b x i L).
Qed.
Lemma ext_dead h k : ext h (h ++ dead k).
Proof. intros b x L. exists x. split; [apply live_dead, L|reflexivity]. Qed.

(** A reference taken and dropped. *)
Lemma upd_upd {A} (l : list A) i a b : upd (upd l i a) i b = upd l i b.
Proof. revert i. induction l as [|c l IH]; intros [|i]; cbn [upd]; try reflexivity. f_equal. apply IH. Qed.
Lemma upd_same {A} (l : list A) i a : nth_error l i = Some a -> upd l i a = l.
Proof. revert i. induction l as [|c l IH]; intros [|i] H; cbn in H; try discriminate; cbn [upd]; [congruence|]. f_equal. apply IH, H. Qed.
Lemma nth_upd_eq {A} (l : list A) i a b : nth_error l i = Some b -> nth_error (upd l i a) i = Some a.
Proof. revert i. induction l as [|c l IH]; intros [|i] H; cbn in H; try discriminate; cbn [upd nth_error]; [reflexivity|]. apply IH, H. Qed.

Lemma drop_ref h b x roots : Inv h roots -> live h b x ->
  release_all (upd h b (Some (mkbody (S (b_refs x)) (b_data x)))) [b] = Ok h.
Proof.
  intros [C _] L. specialize (C b). unfold live in L. rewrite L in C. destruct C as [R _].
  unfold release_all. cbn [release]. unfold get. rewrite (nth_upd_eq _ _ _ _ L). cbn [obind b_refs b_data].
  destruct x as [[|n] d]; cbn [b_refs b_data] in *; [lia|]. rewrite upd_upd, (upd_same _ _ _ L).
  destruct (all_refs _); reflexivity.
Qed.

(** The copy of an argument, and its destruction. *)
Lemma copy_back h roots f v t : Inv h roots -> denote f h v = Some t ->
  exists h' v', copy h v = Ok (h', v') /\ Inv h' (owned v' ++ roots) /\ ext h h' /\ denote f h' v' = Some t /\
    coerce_none h' v' = Ok (h, mkvar TNone zeroed) /\ (number t <> None -> h' = h).
Proof.
  intros I D. destruct (copy_ok h roots f v t I D) as (h' & v' & E & I' & X & D' & _).
  exists h', v'. split; [exact E|]. split; [exact I'|]. split; [exact X|]. split; [exact D'|].
  pose proof (denote_type f h v t D) as T. pose proof (denote_object f h v t D) as O.
  unfold copy in E. destruct (v_type v) eqn:TY;
    try (injection E as <- <-; split; [reflexivity|intros _; reflexivity]).
  all: unfold object in E; destruct (v_u v) as [z|r]; cbn [obind] in E; try discriminate E.
  all: unfold add_ref in E; destruct (get h (r_body r)) as [x| |] eqn:G; cbn [obind] in E; try discriminate E; injection E as <- <-.
  all: split; [|destruct t; try discriminate T; cbn [number]; congruence].
  all: unfold coerce_none; cbn [owned v_type v_u]; rewrite (drop_ref h (r_body r) x roots I (get_inv _ _ _ G)); reflexivity.
Qed.

Lemma new_number h v z : owned v = [] ->
  let '(h1, b) := new_body h (DStr z) in
  exists h2 v2 r, assign h1 v (mkvar TString (Obj (mkref b 0 (length z)))) = Ok (h2, v2) /\ v_type v2 = TString /\
    object v2 = Ok r /\ text h2 r = Ok z /\ coerce_none h2 v2 = Ok (h ++ [None], mkvar TNone zeroed).
Proof.
  intros O. unfold new_body, assign, coerce_none at 1. rewrite O. unfold release_all at 1. cbn [release].
  assert (N : forall o, nth_error (h ++ [Some o]) (length h) = Some (Some o)) by (intros o; rewrite nth_error_app2, Nat.sub_diag by lia; reflexivity).
  cbn [obind fst snd]. unfold copy. cbn [v_type object v_u obind r_body]. unfold add_ref, get. rewrite N. cbn [obind b_refs b_data fst snd].
  assert (U : forall o o', upd (h ++ [o]) (length h) o' = h ++ [o'] :> heap).
  { clear. intros o o'. induction h as [|a h IH]; [reflexivity|]. cbn [app length upd]. f_equal. exact IH. }
  rewrite U. unfold coerce_none at 1, release_all. cbn [owned v_type v_u r_body release]. unfold get. rewrite N. cbn [obind b_refs b_data].
  rewrite U. set (K := all_refs _). replace (release K _ []) with (Ok (h ++ [Some (mkbody 1 (DStr z))])) by (destruct K; reflexivity). cbn [obind fst snd].
  do 3 eexists. split; [reflexivity|]. split; [reflexivity|]. split; [reflexivity|]. split.
  - unfold text, get. cbn [r_body]. rewrite N. cbn [obind b_data]. f_equal. apply slice_all.
  - unfold coerce_none, release_all. cbn [owned v_type v_u r_body release]. unfold get. rewrite N. cbn [obind b_refs b_data kids app].
    rewrite U. match goal with |- context [release ?Q _ []] => destruct Q; reflexivity end.
Qed.

Section Args.
Variables (h : heap) (roots : list nat) (args : ref) (l : list variant) (ts : list tree) (fd : nat).
Hypothesis I : Inv h roots.
Hypothesis VL : variants h args = Ok l.
Hypothesis VT : vals fd h l ts.

Lemma arg_nth a : match nth_error ts a with
  | Some t => exists e, nth_error l a = Some e /\ denote fd h e = Some t
  | None => nth_error l a = None
  end.
Proof.
  clear VL. revert a. induction VT as [|e t l' ts' D F IH]; intros [|a]; cbn [nth_error]; auto; [eauto|]. apply IH. exact F.
Qed.

Lemma arg_none a : nth_error ts a = None -> arg h args a = Abort.
Proof. intros N. pose proof (arg_nth a) as H. rewrite N in H. unfold arg. rewrite VL. cbn [obind]. rewrite H. reflexivity. Qed.

Lemma arg_str_ok a t s : nth_error ts a = Some t -> text_of t s ->
  exists k s', arg_str h args a = Ok (h ++ dead k, s') /\ text_of t s'.
Proof.
  intros N T. pose proof (arg_nth a) as H. rewrite N in H. destruct H as (e & Ne & D).
  destruct (copy_back h roots fd e t I D) as (h1 & v1 & C & I1 & X1 & D1 & B & Q).
  unfold arg_str, arg. rewrite VL. cbn [obind]. rewrite Ne, C. cbn [obind fst snd].
  destruct T as [->|(z & NZ & DZ)].
  - destruct (denote_string _ _ _ _ D1) as (r & TY & U & TX & _).
    rewrite (coerce_same _ _ _ TY). cbn [obind fst snd]. unfold object. rewrite U. cbn [obind]. rewrite TX. cbn [obind]. rewrite B. cbn [obind fst].
    exists 0%nat, s. split; [cbn [dead repeat]; rewrite app_nil_r; reflexivity|left; reflexivity].
  - assert (h1 = h) by (apply Q; congruence). subst h1.
    destruct (denote_number _ _ _ _ _ D1 NZ) as (NT & TT & EZ & RZ).
    assert (RZ' : -2^63 <= z < 2^63) by (destruct (v_type v1); cbn [in_type] in RZ; lia).
    assert (OV : owned v1 = []) by (unfold owned; destruct (v_type v1); try discriminate NT; reflexivity).
    pose proof (new_number h v1 (decimal z) OV) as NN. destruct (new_body h (DStr (decimal z))) as [hb b] eqn:NB.
    destruct NN as (h2 & v2 & r & E2 & T2 & O2 & TX2 & B2).
    assert (CO : coerce h v1 TString = Ok (h2, v2)).
    { unfold coerce. rewrite <- (snprintf_ok 24 z) in NB, E2 by lia.
      destruct (v_type v1); try discriminate NT; cbn [vtype_eqb]; rewrite <- EZ, NB; exact E2. }
    rewrite CO. cbn [obind fst snd]. rewrite O2. cbn [obind]. rewrite TX2. cbn [obind]. rewrite B2. cbn [obind fst].
    exists 1%nat, (decimal z). split; [reflexivity|]. right. exists z. split; [exact NZ|apply decimal_ok, RZ'].
Qed.

Lemma arg_str_abort a t : nth_error ts a = Some t -> (forall s, ~ text_of t s) -> arg_str h args a = Abort.
Proof.
  intros N T. pose proof (arg_nth a) as H. rewrite N in H. destruct H as (e & Ne & D).
  destruct (copy_back h roots fd e t I D) as (h1 & v1 & C & I1 & X1 & D1 & B & Q).
  unfold arg_str, arg. rewrite VL. cbn [obind]. rewrite Ne, C. cbn [obind fst snd].
  rewrite coerce_impossible; [reflexivity|]. pose proof (denote_type _ _ _ _ D1) as TT. rewrite TT.
  destruct t; try reflexivity; exfalso.
  1-3: destruct (denote_number _ _ _ _ _ D1 eq_refl) as (NT & _ & EZ & RZ); rewrite TT in RZ; cbn [type_of in_type] in RZ;
       apply (T (decimal z)); right; exists z; split; [reflexivity|apply decimal_ok; lia].
  apply (T t). left. reflexivity.
Qed.

Lemma arg_json_ok a t g : nth_error ts a = Some t -> every_str (Forall bmp) t -> (fd <= g)%nat ->
  exists j, arg_json g h args a = Ok (h, j) /\ json t j.
Proof.
  intros N E G. pose proof (arg_nth a) as H. rewrite N in H. destruct H as (e & Ne & D).
  destruct (copy_back h roots fd e t I D) as (h1 & v1 & C & I1 & X1 & D1 & B & Q).
  destruct (as_json_ok fd h1 v1 t (-1) D1 E) as (j & GJ & J).
  unfold arg_json, arg. rewrite VL. cbn [obind]. rewrite Ne, C. cbn [obind fst snd]. rewrite (GJ g G). cbn [obind]. rewrite B. cbn [obind fst].
  eauto.
Qed.
End Args.

(** ** The format *)
Lemma at_app pre c post : at_ (pre ++ [c] ++ post) (length pre) = c.
Proof.
  unfold at_. rewrite app_length. cbn [app length]. destruct (Nat.eqb_spec (length pre) (length pre + S (length post))); [lia|].
  rewrite nth_error_app2, Nat.sub_diag by lia. reflexivity.
Qed.

Lemma digit_dv c d : digit 10 c d -> Digit c 10 = Ok d /\ 0 <= d.
Proof.
  intros D. destruct (Digit_spec 10 c ltac:(lia)) as (E & _ & _ & U). rewrite E, (U d D). split; [reflexivity|exact (digit_nonneg _ _ _ D)].
Qed.
Lemma conv_no_digit c : In c [46; 115; 100; 102; 103] -> Digit c 10 = Ok (-1).
Proof.
  intros H. assert (X : forallb (fun c => match Digit c 10 with Ok d => d =? -1 | _ => false end) [46; 115; 100; 102; 103] = true) by (vm_compute; reflexivity).
  rewrite forallb_forall in X. specialize (X c H). destruct (Digit c 10); try discriminate. apply Z.eqb_eq in X. congruence.
Qed.

Lemma fold_grows ds : forall a, 0 <= a -> Forall (fun d => 0 <= d) ds -> a <= fold_left (fun a d => a * 10 + d) ds a.
Proof.
  induction ds as [|d ds IH]; intros a A F; cbn [fold_left]; [lia|]. inversion F; subst.
  pose proof (IH (a * 10 + d) ltac:(lia) H2). lia.
Qed.

Lemma digit_loop_ok c : Digit c 10 = Ok (-1) -> forall ds w, Forall2 (digit 10) w ds -> forall pre x post k size,
  0 <= size -> fold_left (fun a d => a * 10 + d) ds size < 2^31 -> (length w < k)%nat ->
  digit_loop k ([] ++ pre ++ [x] ++ w ++ [c] ++ post) (length pre) x size =
    Ok ((length pre + S (length w))%nat, c, fold_left (fun a d => a * 10 + d) ds size).
Proof.
  intros NC ds w F. induction F as [|y d w ds D F IH]; intros pre x post k size S0 L K.
  - destruct k as [|k]; [cbn in K; lia|]. cbn [app length fold_left] in *.
    replace (pre ++ x :: c :: post) with ((pre ++ [x]) ++ [c] ++ post) by (rewrite <- app_assoc; reflexivity).
    cbn [digit_loop]. rewrite app_length, app_length. cbn [length app]. destruct (Nat.ltb_spec (length pre) (length pre + 1 + S (length post))); [|lia].
    replace (S (length pre)) with (length (pre ++ [x])) by (rewrite app_length; cbn; lia).
    change (c :: post) with ([c] ++ post). rewrite at_app, NC. cbn [obind Z.geb Z.compare]. rewrite app_length. cbn [length]. reflexivity.
  - destruct k as [|k]; [cbn in K; lia|]. cbn [fold_left length] in *. destruct (digit_dv y d D) as [DV D0].
    assert (F0 : Forall (fun d => 0 <= d) ds). { clear - F. induction F; constructor; [eapply digit_nonneg; eassumption|assumption]. }
    pose proof (fold_grows ds (size * 10 + d) ltac:(lia) F0) as G.
    cbn [app]. replace (pre ++ x :: y :: w ++ c :: post) with ((pre ++ [x]) ++ [y] ++ (w ++ [c] ++ post)) by (rewrite <- app_assoc; reflexivity).
    cbn [digit_loop]. rewrite app_length, app_length. cbn [length app]. destruct (Nat.ltb_spec (length pre) (length pre + 1 + S (length (w ++ c :: post)))); [|lia].
    replace (S (length pre)) with (length (pre ++ [x])) by (rewrite app_length; cbn; lia).
    change (y :: w ++ c :: post) with ([y] ++ (w ++ [c] ++ post)). rewrite at_app, DV. cbn [obind].
    destruct (Z.geb_spec d 0); [|lia]. destruct (Z.gtb_spec (size * 10 + d) 2147483647); [lia|].
    pose proof (IH (pre ++ [x]) y post k (size * 10 + d) ltac:(lia) L ltac:(cbn in K; lia)) as R. cbn [app] in R |- *. rewrite R.
    rewrite app_length. cbn [length]. f_equal. f_equal. f_equal. lia.
Qed.

Lemma size_at_ok c w : Digit c 10 = Ok (-1) -> c <> 42 -> sized w -> forall pre post, exists n, 0 <= n /\
  size_at (pre ++ w ++ [c] ++ post) (length pre) (at_ (pre ++ w ++ [c] ++ post) (length pre)) = Ok ((length pre + length w)%nat, c, n).
Proof.
  intros NC C42 [->|(v & (NE & ds & F & ->) & V)] pre post.
  - exists 0. split; [lia|]. cbn [app]. change (c :: post) with ([c] ++ post). rewrite at_app. unfold size_at.
    destruct (Z.eqb_spec c 42); [congruence|]. rewrite NC. cbn [obind Z.geb Z.compare length]. rewrite Nat.add_0_r. reflexivity.
  - destruct F as [|x d w ds D F]; [congruence|]. destruct (digit_dv x d D) as [DV D0].
    assert (F0 : Forall (fun d => 0 <= d) ds). { clear - F. induction F; constructor; [eapply digit_nonneg; eassumption|assumption]. }
    cbn [fold_left] in V. change (0 * 10 + d) with d in V.
    exists (fold_left (fun a d => a * 10 + d) ds d). split; [pose proof (fold_grows ds d D0 F0); lia|].
    replace (pre ++ (x :: w) ++ [c] ++ post) with (pre ++ [x] ++ (w ++ [c] ++ post)) by reflexivity. rewrite at_app. unfold size_at.
    destruct (Z.eqb_spec x 42) as [->|_]; [vm_compute in DV; injection DV as <-; lia|]. rewrite DV. cbn [obind]. destruct (Z.geb_spec d 0); [|lia].
    pose proof (digit_loop_ok c NC ds w F pre x post (length (pre ++ [x] ++ w ++ [c] ++ post)) d D0 V) as R. cbn [app length] in R |- *. rewrite R.
    + f_equal. 
    + rewrite app_length. cbn [length]. rewrite app_length. cbn [length]. lia.
Qed.

Lemma not_dollar w : flags w -> Forall (fun c => c <> 36) w.
Proof.
  assert (G : forall w, sized w -> Forall (fun c => c <> 36) w).
  { intros u [->|(n & (_ & ds & F & _) & _)]; [constructor|]. induction F as [|c d u ds D F IH]; constructor; [|exact IH].
    intros ->. destruct (digit_dv _ _ D) as [DV D0]. vm_compute in DV. injection DV as <-. lia. }
  intros (w1 & w2 & S1 & S2 & [->| ->]); [apply G, S1|]. apply Forall_app. split; [apply G, S1|]. constructor; [lia|apply G, S2].
Qed.

Lemma skip_none pre w c post : Digit c 10 = Ok (-1) -> c <> 36 -> flags w ->
  skip_number (pre ++ w ++ [c] ++ post) (length pre) = Ok (length pre, at_ (pre ++ w ++ [c] ++ post) (length pre)).
Proof.
  intros NC C36 FL. unfold skip_number. destruct (_ <? _)%nat; [|reflexivity].
  destruct (Digit_spec 10 (at_ (pre ++ w ++ [c] ++ post) (length pre)) ltac:(lia)) as (E & _). rewrite E. cbn [obind].
  match goal with |- (if ?b then _ else _) = _ => destruct b eqn:B end; [exfalso|reflexivity].
  apply andb_true_iff in B. destruct B as [B1 B2]. pose proof (not_dollar w FL) as ND.
  destruct w as [|x w].
  - cbn [app] in *. change (c :: post) with ([c] ++ post) in *. rewrite at_app in E. rewrite NC in E.
    rewrite at_app in B1. assert (dv 10 c = -1) by congruence. lia.
  - inversion ND; subst. apply Z.eqb_eq in B2. destruct w as [|y w].
    + replace (pre ++ [x] ++ [c] ++ post) with ((pre ++ [x]) ++ [c] ++ post) in B2 by (rewrite <- app_assoc; reflexivity).
      replace (length pre + 1)%nat with (length (pre ++ [x])) in B2 by (rewrite app_length; reflexivity). rewrite at_app in B2. congruence.
    + replace (pre ++ (x :: y :: w) ++ [c] ++ post) with ((pre ++ [x]) ++ [y] ++ (w ++ [c] ++ post)) in B2 by (rewrite <- app_assoc; reflexivity).
      replace (length pre + 1)%nat with (length (pre ++ [x])) in B2 by (rewrite app_length; reflexivity). rewrite at_app in B2.
      inversion H2; subst. congruence.
Qed.

(** A conversion up to its letter. *)
Lemma spec_ok pre w c post : In c [115; 100; 102; 103] -> flags w ->
  let f := pre ++ w ++ [c] ++ post in
  exists n s p, skip_number f (length pre) = Ok n /\ size_at f (fst n) (snd n) = Ok s /\ snd s <> -1 /\
    (let '(i, c, size) := s in if (i <? length f)%nat && (at_ f i =? 46) then size_at f (S i) (at_ f (S i)) else Ok (i, c, 0)) =
      Ok ((length pre + length w)%nat, c, p) /\ p <> -1.
Proof.
  intros C FL f. assert (NC : Digit c 10 = Ok (-1)) by (apply conv_no_digit; right; exact C).
  assert (C36 : c <> 36) by (intros ->; cbn in C; lia). assert (C42 : c <> 42) by (intros ->; cbn in C; lia). assert (C46 : c <> 46) by (intros ->; cbn in C; lia).
  eexists. pose proof (skip_none pre w c post NC C36 FL) as SK. fold f in SK.
  destruct FL as (w1 & w2 & S1 & S2 & [EW|EW]).
  - subst w. destruct (size_at_ok c w1 NC C42 S1 pre post) as (n & N0 & E). fold f in E.
    eexists. exists 0. split; [exact SK|]. cbn [fst snd]. split; [exact E|]. split; [cbn [snd]; lia|]. split; [|lia].
    cbn iota beta. replace (at_ f (length pre + length w1)) with c; [replace (c =? 46) with false by lia; rewrite andb_false_r; reflexivity|].
    unfold f. rewrite app_assoc, <- app_length, at_app. reflexivity.
  - assert (ND : Digit 46 10 = Ok (-1)) by (apply conv_no_digit; left; reflexivity).
    destruct (size_at_ok 46 w1 ND ltac:(lia) S1 pre (w2 ++ [c] ++ post)) as (n & N0 & E).
    assert (F1 : pre ++ w1 ++ [46] ++ w2 ++ [c] ++ post = f) by (unfold f; rewrite EW, <- !app_assoc; reflexivity). rewrite F1 in E.
    destruct (size_at_ok c w2 NC C42 S2 (pre ++ w1 ++ [46]) post) as (p & P0 & E2).
    assert (F2 : (pre ++ w1 ++ [46]) ++ w2 ++ [c] ++ post = f) by (rewrite <- F1, <- !app_assoc; reflexivity). rewrite F2 in E2.
    eexists. exists p. split; [exact SK|]. cbn [fst snd]. split; [exact E|]. split; [cbn [snd]; lia|]. split; [|lia].
    cbn iota beta. replace (at_ f (length pre + length w1)) with 46 by (rewrite <- F1, app_assoc, <- app_length, at_app; reflexivity).
    assert (LL : (length f = length pre + length w1 + 1 + length w2 + 1 + length post)%nat) by (rewrite <- F1, !app_length; cbn [length]; lia).
    destruct (Nat.ltb_spec (length pre + length w1) (length f)); [|lia]. cbn [andb Z.eqb Pos.eqb].
    replace (S (length pre + length w1)) with (length (pre ++ w1 ++ [46])) by (rewrite !app_length; cbn [length]; lia).
    rewrite E2. f_equal. f_equal. f_equal. subst w. rewrite !app_length. cbn [length]. lia.
Qed.

Section Loop.
Variables (h : heap) (roots : list nat) (args : ref) (l : list variant) (ts : list tree) (fd g : nat).
Hypothesis I : Inv h roots.
Hypothesis VL : variants h args = Ok l.
Hypothesis VT : vals fd h l ts.
Hypothesis G : (fd <= g)%nat.
Hypothesis B : Forall (every_str (Forall bmp)) ts.

Lemma variants_dead k : variants (h ++ dead k) args = Ok l.
Proof.
  unfold variants in *. destruct (get h (r_body args)) as [x| |] eqn:E; cbn [obind] in VL; try discriminate.
  apply get_inv in E. rewrite (get_live _ _ x); [exact VL|]. apply live_dead, E.
Qed.

Lemma skip_nth a : skipn a ts = match nth_error ts a with Some t => t :: skipn (S a) ts | None => [] end.
Proof.
  clear. revert a. induction ts as [|t l' IH]; intros [|a]; try reflexivity. cbn [nth_error]. rewrite <- IH. reflexivity.
Qed.

Lemma loop_ok f ps : parse f ps -> forall pre k0 a result k, (length f <= k)%nat ->
  (suits ps (skipn a ts) -> exists k' x,
     loop k g (h ++ dead k0) args (pre ++ f) (length pre) a result = Ok (h ++ dead k', result ++ x) /\ renders ps (skipn a ts) x) /\
  (~ suits ps (skipn a ts) -> loop k g (h ++ dead k0) args (pre ++ f) (length pre) a result = Abort).
Proof.
  induction 1 as [| |c f ps C P IH|w c p f ps FL IC P IH]; intros pre k0 a result k K.
  - split; [|cbn [suits]; tauto]. intros _. exists k0, []. split; [|constructor]. rewrite !app_nil_r.
    destruct k; cbn [loop]; (destruct (Nat.ltb_spec (length pre) (length pre)); [lia|reflexivity]).
  - split; [|cbn [suits]; tauto]. intros _. exists k0, [37]. split; [|apply (RChar 37 [] _ []); constructor].
    destruct k as [|k]; [cbn in K; lia|]. cbn [loop]. rewrite app_length. cbn [length].
    destruct (Nat.ltb_spec (length pre) (length pre + 1)); [|lia].
    replace (length pre =? length pre + 1 - 1)%nat with true by lia. rewrite orb_true_r.
    change (pre ++ [37]) with (pre ++ [37] ++ []). rewrite at_app.
    destruct k; cbn [loop]; rewrite app_length; cbn [length app]; (destruct (Nat.ltb_spec (S (length pre)) (length pre + 1)); [lia|reflexivity]).
  - destruct k as [|k]; [cbn in K; lia|]. cbn [length app] in K.
    assert (ST : loop (S k) g (h ++ dead k0) args (pre ++ [c] ++ f) (length pre) a result =
      loop k g (h ++ dead k0) args ((pre ++ [c]) ++ f) (length (pre ++ [c])) a (result ++ [c])).
    { cbn [loop]. rewrite app_length at 1. cbn [length app]. destruct (Nat.ltb_spec (length pre) (length pre + S (length f))); [|lia].
      change (c :: f) with ([c] ++ f). rewrite at_app. destruct (Z.eqb_spec c 37); [congruence|]. cbn [negb orb].
      rewrite <- app_assoc, (app_length pre [c]). cbn [length]. rewrite Nat.add_1_r. reflexivity. }
    change ([Char c] ++ ps) with (Char c :: ps). cbn [suits]. rewrite ST. destruct (IH (pre ++ [c]) k0 a (result ++ [c]) k ltac:(lia)) as [I1 I2].
    split; [|exact I2]. intros Q. destruct (I1 Q) as (k' & x & E & R). exists k', ([c] ++ x). split; [rewrite E, <- app_assoc; reflexivity|constructor; exact R].
  - destruct k as [|k]; [cbn in K; lia|]. cbn [app length] in K. rewrite app_length in K. cbn [length] in K.
    set (F := pre ++ [37] ++ w ++ [c] ++ f).
    assert (F1 : (pre ++ [37]) ++ w ++ [c] ++ f = F) by (unfold F; rewrite <- app_assoc; reflexivity).
    assert (F2 : (pre ++ [37] ++ w ++ [c]) ++ f = F) by (unfold F; rewrite <- !app_assoc; reflexivity).
    assert (LF : (length F = length pre + 1 + length w + 1 + length f)%nat) by (unfold F; rewrite !app_length; cbn [length]; lia).
    assert (IC' : In c [115; 100; 102; 103]) by (cbn in IC |- *; intuition congruence).
    destruct (spec_ok (pre ++ [37]) w c f IC' FL) as (n & [[i' c'] sz] & pr & E1 & E2 & N1 & E3 & N2). rewrite F1 in *. cbn [snd] in N1.
    assert (L1 : length (pre ++ [37]) = S (length pre)) by (rewrite app_length; cbn; lia). rewrite L1 in *.
    pose proof (inv_dead h k0 roots I) as I0. pose proof (variants_dead k0) as VL0. pose proof (vals_ext fd h _ l ts (ext_dead h k0) VT) as VT0.
    assert (ST : loop (S k) g (h ++ dead k0) args F (length pre) a result =
      if c =? 115 then do x <- arg_str (h ++ dead k0) args a; loop k g (fst x) args F (length (pre ++ [37] ++ w ++ [c])) (S a) (result ++ snd x)
      else do x <- arg_json g (h ++ dead k0) args a; loop k g (fst x) args F (length (pre ++ [37] ++ w ++ [c])) (S a) (result ++ snd x)).
    { cbn [loop]. rewrite LF. destruct (Nat.ltb_spec (length pre) (length pre + 1 + length w + 1 + length f)); [|lia].
      replace (at_ F (length pre)) with 37 by (unfold F; rewrite at_app; reflexivity). cbn [Z.eqb Pos.eqb negb orb].
      destruct (Nat.eqb_spec (length pre) (length pre + 1 + length w + 1 + length f - 1)); [lia|].
      rewrite E1. cbn [obind]. rewrite E2. cbn [obind]. cbn iota beta. rewrite LF in E3. cbn iota beta in E3. rewrite E3. cbn [obind]. cbn iota beta.
      replace (sz =? -1) with false by lia. replace (pr =? -1) with false by lia. cbn [obind].
      replace (S (S (length pre) + length w)) with (length (pre ++ [37] ++ w ++ [c])) by (rewrite !app_length; cbn [length]; lia).
      destruct (Z.eqb_spec c 115); [reflexivity|]. replace ((c =? 100) || (c =? 102) || (c =? 103)) with true by (cbn in IC'; lia). reflexivity. }
    rewrite ST. clear ST E1 E2 E3. change ([p] ++ ps) with (p :: ps). rewrite <- F2.
    rewrite (skip_nth a). destruct (nth_error ts a) as [t|] eqn:NT.
    2:{ split; [cbn in IC; destruct IC as [IC|[IC|[IC|[IC|[]]]]]; injection IC as <- <-; cbn [suits]; tauto|]. intros _.
        pose proof (arg_none _ _ _ _ _ VL0 VT0 a NT) as A. unfold arg_str, arg_json. rewrite A. cbn [obind]. destruct (c =? 115); reflexivity. }
    assert (BT : every_str (Forall bmp) t). { rewrite Forall_forall in B. apply B. eapply nth_error_In, NT. }
    assert (JC : p = AsText /\ c = 115 \/ p = AsJson /\ (c =? 115) = false).
    { cbn in IC. destruct IC as [IC|[IC|[IC|[IC|[]]]]]; injection IC as <- <-; auto. }
    destruct JC as [[-> ->]|[-> ->]]; cbn [suits].
    + cbn [Z.eqb Pos.eqb]. assert (DT : (exists s, text_of t s) \/ forall s, ~ text_of t s).
      { assert (X : number t <> None -> exists s, text_of t s).
        { intros X. pose proof (arg_nth _ _ _ _ VT a) as Q. rewrite NT in Q. destruct Q as (e & _ & D).
          destruct (number t) as [z|] eqn:NZ; [|congruence]. destruct (denote_number _ _ _ _ _ D NZ) as (_ & _ & _ & RZ).
          exists (decimal z). right. exists z. split; [exact NZ|]. apply decimal_ok. destruct (v_type e); cbn [in_type] in RZ; lia. }
        destruct t; try (left; apply X; discriminate); try (left; eexists; left; reflexivity);
          right; intros s [E|(z & E & _)]; discriminate. }
      destruct DT as [(s & T)|NTX].
      * destruct (arg_str_ok _ roots args l ts fd I0 VL0 VT0 a t s NT T) as (k1 & s' & A & T'). rewrite A. cbn [obind fst snd].
        assert (HD : (h ++ dead k0) ++ dead k1 = h ++ dead (k0 + k1)) by (unfold dead; rewrite <- app_assoc, repeat_app; reflexivity). rewrite HD.
        destruct (IH (pre ++ [37] ++ w ++ [115]) (k0 + k1)%nat (S a) (result ++ s') k ltac:(lia)) as [I1 I2].
        split.
        -- intros [_ Q]. destruct (I1 Q) as (k' & x & E & R). exists k', (s' ++ x). split; [rewrite E, <- app_assoc; reflexivity|]. constructor; assumption.
        -- intros Q. apply I2. intros Q2. apply Q. eauto.
      * rewrite (arg_str_abort _ roots args l ts fd I0 VL0 VT0 a t NT NTX). cbn [obind]. split; [intros [(s & T) _]; destruct (NTX s T)|reflexivity].
    + destruct (arg_json_ok _ roots args l ts fd I0 VL0 VT0 a t g NT BT G) as (j & A & J). rewrite A. cbn [obind fst snd].
      destruct (IH (pre ++ [37] ++ w ++ [c]) k0 (S a) (result ++ j) k ltac:(lia)) as [I1 I2].
      split; [|exact I2]. intros Q. destruct (I1 Q) as (k' & x & E & R). exists k', (j ++ x). split; [rewrite E, <- app_assoc; reflexivity|]. constructor; assumption.
Qed.
End Loop.

(** ** C48 *)

(** For every history and every array of values whose strings have only
    characters of the Basic Multilingual Plane (C27), a format of literal
    characters and of the conversions %s, %d, %f and %g, with sizes and
    precisions (which are ignored), gives its text with the arguments in place
    of the conversions; when there are too few arguments, or one for %s is
    neither a string nor a number, the program stops.  Nothing is leaked and no
    variable changes: every body is as it was, and those made on the way are
    gone. *)
Theorem C48_format_partial : forall n os st e y r ts f ps, Forall op_fits os -> run (start n) os = Ok st -> shows st e ->
  nth_error (st_vars st) y = Some (Some (mkvar TVarArray (Obj r))) -> e y = Some (Vars ts) ->
  Forall (every_str (Forall bmp)) ts -> parse f ps ->
  exists g0, forall g, (g0 <= g)%nat ->
  (suits ps ts -> exists k x, format g (st_heap st) f r = Ok (st_heap st ++ repeat None k, x) /\ renders ps ts x /\
     shows (mkstate (st_heap st ++ repeat None k) (st_vars st)) e) /\
  (~ suits ps ts -> format g (st_heap st) f r = Abort).
Proof.
  intros n os st e y r ts f ps O R S N EY B P. destruct (reached_any n os st O R) as (e0 & lost & _ & I & _). unfold SInv in I.
  pose proof (S y) as Sy. rewrite N in Sy. destruct Sy as (t & Et & fd & D). assert (t = Vars ts) by congruence. subst t.
  destruct fd as [|fd]; [discriminate|]. cbn [denote v_type v_u refd bind] in D.
  destruct (variants (st_heap st) r) as [l| |] eqn:VL; cbn [ok bind] in D; try discriminate.
  destruct (all_some (map (denote fd (st_heap st)) l)) as [ts'|] eqn:A; cbn [bind] in D; [|discriminate].
  assert (ts' = ts) by congruence. subst ts'. apply all_some_F2 in A.
  exists fd. intros g G. unfold format.
  destruct (loop_ok (st_heap st) _ r l ts fd g I VL A G B f ps P [] 0 0 [] (length f) ltac:(lia)) as [L1 L2].
  cbn [dead repeat app length skipn] in L1, L2. rewrite app_nil_r in L1, L2.
  split; [|exact L2]. intros Q. destruct (L1 Q) as (k & x & E & RX). exists k, x. split; [exact E|]. split; [exact RX|].
  intros z. cbn [st_vars st_heap]. specialize (S z). destruct (nth_error (st_vars st) z) as [[v|]|]; [|exact S|exact S].
  destruct S as (t & Et' & M). exists t. split; [exact Et'|]. destruct M as (f0 & M). exists f0. eapply ext_denote; [apply ext_dead|exact M].
Qed.


(** A format has one reading. *)
Lemma spec_chars w : flags w -> Forall (fun c => c = 46 \/ exists d, digit 10 c d) w.
Proof.
  assert (G : forall w, sized w -> Forall (fun c => c = 46 \/ exists d, digit 10 c d) w).
  { intros u [->|(n & (_ & ds & F & _) & _)]; [constructor|]. induction F as [|c d u ds D F IH]; constructor; eauto. }
  intros (w1 & w2 & S1 & S2 & [->| ->]); [apply G, S1|]. apply Forall_app. split; [apply G, S1|]. constructor; [left; reflexivity|apply G, S2].
Qed.
Lemma letter_char c : In c [115; 100; 102; 103] -> ~ (c = 46 \/ exists d, digit 10 c d).
Proof.
  intros H [->|(d & D)]; [cbn in H; lia|]. destruct (digit_dv c d D) as [E D0]. rewrite (conv_no_digit c) in E by (right; exact H).
  assert (d = -1) by congruence. lia.
Qed.
Lemma cut_unique (P : Z -> Prop) c c' f f' : ~ P c -> ~ P c' -> forall w w', Forall P w -> Forall P w' ->
  w ++ c :: f = w' ++ c' :: f' -> w = w' /\ c = c' /\ f = f'.
Proof.
  intros N N' w. induction w as [|x w IH]; intros [|x' w'] F F' E; cbn [app] in E.
  - injection E as -> ->. auto.
  - injection E as -> ->. inversion F'; subst. contradiction.
  - injection E as E1 E2. subst. inversion F; subst. contradiction.
  - injection E as E1 E2. inversion F; inversion F'; subst. destruct (IH w' ltac:(assumption) ltac:(assumption) E2) as (-> & -> & ->). auto.
Qed.
Theorem C48_one_reading : forall f ps ps', parse f ps -> parse f ps' -> ps = ps'.
Proof.
  intros f ps ps' P. revert ps'. induction P as [| |c f ps C P IH|w c p f ps FL IC P IH]; intros ps' P'.
  - inversion P'; reflexivity.
  - inversion P' as [| |c f ps C P E1 E2|w c p f ps FL IC P E1 E2]; subst; [reflexivity|congruence|]. destruct w; discriminate E1.
  - inversion P' as [| |c2 f2 ps2 C2 P2 E1 E2|w2 c2 p2 f2 ps2 FL2 IC2 P2 E1 E2]; subst; try congruence. cbn [app]. f_equal. apply IH. assumption.
  - inversion P' as [E1 E2|E1 E2|c2 f2 ps2 C2 P2 E1 E2|w2 c2 p2 f2 ps2 FL2 IC2 P2 E1 E2]; subst.
    + destruct w; discriminate E1.
    + congruence.
    + assert (L : In c [115; 100; 102; 103]) by (cbn in IC |- *; intuition congruence).
      assert (L2 : In c2 [115; 100; 102; 103]) by (cbn in IC2 |- *; intuition congruence).
      destruct (cut_unique _ c2 c f2 f (letter_char _ L2) (letter_char _ L) w2 w (spec_chars _ FL2) (spec_chars _ FL) E1) as (_ & -> & ->).
      f_equal; [|apply IH, P2]. cbn in IC, IC2. f_equal. intuition congruence.
Qed.

(** What else printf knows does not work.  %% is not a percent sign, but nothing. *)
Theorem C48_percent_refuted : forall g h args, format g h [37; 37] args = Ok (h, []).
Proof. intros g h args. vm_compute. reflexivity. Qed.
(** Numbered arguments take the conversion with them: %1$s is nothing at all,
    and %1$sx is a conversion x, which is ignored. *)
Theorem C48_numbered_refuted : forall g h args,
  format g h [37; 49; 36; 115] args = Ok (h, []) /\ format g h [37; 49; 36; 115; 120] args = Ok (h, []).
Proof. intros g h args. split; vm_compute; reflexivity. Qed.
(** Sizes do nothing: %3d of 7 is not padded; and a size that is an argument
    uses it up, and puts the letter in place of the number: %*d of 3, 7 is d. *)
Theorem C48_size_refuted : exists st v r h', run (start 3) [New 0 (IInt 3); New 1 (IInt 7); New 2 (IVars [0; 1]%nat)] = Ok st /\
  nth_error (st_vars st) 2 = Some (Some v) /\ v = mkvar TVarArray (Obj r) /\
  format 9 (st_heap st) [37; 51; 100; 37; 51; 100] r = Ok (st_heap st, [51; 55]) /\
  format 9 (st_heap st) [37; 42; 100] r = Ok (h', [100]).
Proof. do 4 eexists. split; [vm_compute; reflexivity|]. split; [reflexivity|]. split; [reflexivity|]. split; [vm_compute; reflexivity|]. vm_compute. reflexivity. Qed.
(** A size that does not fit an int overflows it. *)
Theorem C48_overflow_refuted : forall g h args, format g h [37; 50; 49; 52; 55; 52; 56; 51; 54; 52; 56; 115] args = UB.
Proof. intros g h args. vm_compute. reflexivity. Qed.

(** A case: a=%s%5.2d% with a string and an array. *)
Example C48_ex : exists st e r k x, let f := [97; 61; 37; 115; 37; 53; 46; 50; 100; 37] in
  let ps := [Char 97; Char 61; AsText; AsJson; Char 37] in
  let ts := [LongLong (-7); Vars [Str [98]; Null]] in
  let os := [New 0 (ILongLong (-7)); New 1 (IStr [98]); New 2 INone; New 3 (IPair 1 2); New 4 (IPair 0 3)] in
  Forall op_fits os /\ run (start 5) os = Ok st /\ shows st e /\
  nth_error (st_vars st) 4 = Some (Some (mkvar TVarArray (Obj r))) /\ e 4%nat = Some (Vars ts) /\
  Forall (every_str (Forall bmp)) ts /\ parse f ps /\ suits ps ts /\
  format 9 (st_heap st) f r = Ok (st_heap st ++ repeat None k, x) /\ renders ps ts x /\
  x = [97; 61; 45; 55; 91; 32; 34; 98; 34; 44; 32; 110; 117; 108; 108; 32; 93; 37].
Proof.
  assert (ND : forall z, 0 <= z <= 9 -> digit 10 (48 + z) z).
  { intros z Z. destruct (Digit_spec 10 (48 + z) ltac:(lia)) as (E & D & _).
    assert (DV : dv 10 (48 + z) = z).
    { assert (X : forallb (fun z => dv 10 (48 + z) =? z) (map Z.of_nat (List.seq 0 10)) = true) by (vm_compute; reflexivity).
      rewrite forallb_forall in X. apply Z.eqb_eq, X, in_map_iff. exists (Z.to_nat z). split; [lia|]. apply in_seq. lia. }
    rewrite DV in D. apply D. lia. }
  destruct (run (start 5) [New 0 (ILongLong (-7)); New 1 (IStr [98]); New 2 INone; New 3 (IPair 1 2); New 4 (IPair 0 3)]) as [st| |] eqn:R; try (vm_compute in R; discriminate R).
  assert (F : Forall op_fits [New 0 (ILongLong (-7)); New 1 (IStr [98]); New 2 INone; New 3 (IPair 1 2); New 4 (IPair 0 3)]) by (repeat (constructor; [cbn; try exact Logic.I; lia|]); constructor).
  assert (S : shows st (fun x => nth x [Some (LongLong (-7)); Some (Str [98]); Some Null; Some (Vars [Str [98]; Null]); Some (Vars [LongLong (-7); Vars [Str [98]; Null]])] None)).
  { vm_compute in R. injection R as <-. intros x. do 5 (destruct x as [|x]; [eexists; split; [reflexivity|]; exists 5%nat; vm_compute; reflexivity|]). cbn. destruct x; reflexivity. }
  assert (N : exists r, nth_error (st_vars st) 4 = Some (Some (mkvar TVarArray (Obj r)))).
  { vm_compute in R. injection R as <-. eexists. reflexivity. }
  destruct N as (r & N).
  assert (B : Forall (every_str (Forall bmp)) [LongLong (-7); Vars [Str [98]; Null]]).
  { constructor; [exact Logic.I|]. constructor; [|constructor]. cbn. repeat split; repeat constructor; unfold bmp; lia. }
  assert (P : parse [97; 61; 37; 115; 37; 53; 46; 50; 100; 37] [Char 97; Char 61; AsText; AsJson; Char 37]).
  { apply (PChar 97); [lia|]. apply (PChar 61); [lia|].
    apply (PConv [] 115 AsText); [exists [], []; split; [left; reflexivity|split; [left; reflexivity|left; reflexivity]]|cbn; auto|].
    apply (PConv [53; 46; 50] 100 AsJson); [|cbn; auto|constructor].
    exists [53], [50]. assert (SZ : forall z, 0 <= z <= 9 -> sized [48 + z]).
    { intros z Z. right. exists z. split; [|lia]. split; [discriminate|]. exists [z]. split; [constructor; [apply ND, Z|constructor]|reflexivity]. }
    split; [apply (SZ 5); lia|]. split; [apply (SZ 2); lia|right; reflexivity]. }
  assert (Q : suits [Char 97; Char 61; AsText; AsJson; Char 37] [LongLong (-7); Vars [Str [98]; Null]]).
  { cbn [suits]. split; [|exact Logic.I]. exists (decimal (-7)). right. exists (-7). split; [reflexivity|]. apply decimal_ok. lia. }
  destruct (C48_format_partial 5 _ st _ 4 r _ _ _ F R S N eq_refl B P) as (g0 & G).
  destruct (G (g0 + 9)%nat ltac:(lia)) as [G1 _]. destruct (G1 Q) as (k & x & E & RX & _).
  assert (X : format 9 (st_heap st) [97; 61; 37; 115; 37; 53; 46; 50; 100; 37] r = Ok (st_heap st ++ repeat None k, x) /\
    x = [97; 61; 45; 55; 91; 32; 34; 98; 34; 44; 32; 110; 117; 108; 108; 32; 93; 37]).
  { clear - R N E. vm_compute in R. injection R as <-. cbn in N. injection N as <-. rewrite Nat.add_comm in E.
    rewrite <- E. vm_compute in E |- *. split; [reflexivity|congruence]. }
  destruct X as [X1 X2].
  eexists st, _, r, k, x. split; [exact F|]. split; [exact R|]. split; [exact S|]. split; [exact N|]. split; [reflexivity|].
  split; [exact B|]. split; [exact P|]. split; [exact Q|]. split; [exact X1|]. split; [exact RX|exact X2].
Qed.

Print Assumptions C48_format_partial.
Print Assumptions C48_one_reading.
Print Assumptions C48_percent_refuted.
Print Assumptions C48_numbered_refuted.
Print Assumptions C48_size_refuted.
Print Assumptions C48_overflow_refuted.
