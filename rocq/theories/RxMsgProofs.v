(** The messages of the regular expression compiler: proofs. *)
From Verif Require Import Base UTF8Model CharModel ErrNumModel StrNumModel RxCompModel RxTotal RxErrModel RxErrProofs RxErrTrack RxErrSyn RxMsgSpec.

Definition inner (t : token) : Prop := match t with TStart | TAccept => False | _ => True end.
Lemma closes_inner t c : closes t c -> inner t.
Proof. destruct t; cbn; auto. Qed.

Lemma open_snoc h t : open_groups (h ++ [t]) = match t with TGroup | TNamed _ | TNeg => open_groups h + 1 | TEnd => open_groups h - 1 | _ => open_groups h end.
Proof. unfold open_groups. rewrite fold_left_app. reflexivity. Qed.
Lemma names_snoc h t : names_in (h ++ [t]) = names_in h ++ match t with TNamed l => [l] | _ => [] end.
Proof. unfold names_in. rewrite flat_map_app. cbn [flat_map]. rewrite app_nil_r. reflexivity. Qed.
Lemma atom_snoc h t : after_atom (h ++ [t]) = match t with TLit _ | TAny | TProp _ | TClass _ _ | TEnd => true | _ => false end.
Proof. unfold after_atom. rewrite rev_app_distr. cbn [rev app]. destruct t; reflexivity. Qed.

Lemma eqs_ok a : forall b, eqs a b = true <-> a = b.
Proof.
  induction a as [|x a IH]; intros [|y b]; cbn [eqs]; try (split; congruence). rewrite andb_true_iff, IH, Z.eqb_eq.
  split; [intros [-> ->]; reflexivity|]. intros H. injection H as -> ->. auto.
Qed.
Lemma exists_eqs l ns : existsb (eqs l) ns = true <-> In l ns.
Proof.
  rewrite existsb_exists. split; [intros (x & I & E); apply eqs_ok in E; congruence|]. intros I. exists l. split; [exact I|]. apply eqs_ok. reflexivity.
Qed.

(** What the first pass remembers of the constructs. *)
Definition hist (h : list token) (s : one) : Prop :=
  o_names s = names_in h /\ o_repeatable s = after_atom h /\
  exists k b, o_stack s = k ++ [(KStart, b)] /\ Z.of_nat (length k) = open_groups h /\ Forall (fun x => fst x <> KStart) k.

Lemma hist_start : hist [] start1.
Proof. split; [reflexivity|]. split; [reflexivity|]. exists [], true. repeat split. constructor. Qed.

Lemma hist_step h s t : hist h s -> inner t ->
  (exists m s', refused h t m /\ first_pass t s = Ok (s', m, false)) \/
  ((forall m, ~ refused h t m) /\ exists s', first_pass t s = Ok (s', None, true) /\ hist (h ++ [t]) s').
Proof.
  intros (HN & HR & k & b & HS & HL & HF) HI.
  assert (LEN : length (o_stack s) = S (length k)) by (rewrite HS, app_length; cbn [length]; lia).
  assert (KEEP : forall b' o st atom, after_atom (h ++ [t]) = atom -> names_in (h ++ [t]) = names_in h -> open_groups (h ++ [t]) = open_groups h ->
    exists s', add1 s b' o st atom = Ok (s', None, true) /\ hist (h ++ [t]) s').
  { intros b' o st atom A1 A2 A3. eexists. split; [reflexivity|]. split; [cbn [o_names]; congruence|]. split; [cbn [o_repeatable]; congruence|].
    exists k, b. cbn [o_stack]. rewrite A3. auto. }
  pose proof (open_snoc h t) as OS. pose proof (names_snoc h t) as NS. pose proof (atom_snoc h t) as AS.
  destruct t as [ | | | | |l|mn mx|l|neg l| | |l| | ]; try contradiction HI; cbn [first_pass];
    try (right; split; [intros m R; inversion R; try match goal with H : In _ _ |- _ => destruct H as [H|[H|[]]]; discriminate H end|];
         apply KEEP; [exact AS|rewrite app_nil_r in NS; exact NS|exact OS]).
  - (* repetition *)
    rewrite HR. destruct (after_atom h) eqn:EA; cbn [negb].
    2:{ left. exists (Some MRepeated). eexists. split; [constructor; exact EA|reflexivity]. }
    destruct ((mn >? 254) || (mx >? 254)) eqn:EM.
    { left. exists (Some MLimit). eexists. split; [constructor; [exact EA|lia]|reflexivity]. }
    right. split; [intros m R; inversion R; subst; [match goal with H : In _ _ |- _ => destruct H as [H|[H|[]]]; discriminate H end|congruence|lia]|].
    rewrite app_nil_r in NS.
    destruct (_ && _); [apply KEEP; assumption|]. destruct (_ && _); [apply KEEP; assumption|]. destruct (_ && _); apply KEEP; assumption.
  - (* alternative *)
    right. split; [intros m R; inversion R; try match goal with H : In _ _ |- _ => destruct H as [H|[H|[]]]; discriminate H end|].
    rewrite app_nil_r in NS. rewrite HS. destruct k as [|[o b'] k]; cbn [app].
    + destruct b; eexists; (split; [reflexivity|]); (split; [cbn [o_names set_stack]; congruence|]); (split; [cbn [o_repeatable]; congruence|]).
      * exists [], false. cbn [o_stack set_stack]. rewrite OS. repeat split; auto.
      * exists [], false. cbn [o_stack set_stack]. rewrite OS. repeat split; auto.
    + destruct b'; eexists; (split; [reflexivity|]); (split; [cbn [o_names set_stack]; congruence|]); (split; [cbn [o_repeatable]; congruence|]).
      * exists ((o, false) :: k), b. cbn [o_stack set_stack]. rewrite OS. repeat split; auto. inversion HF; subst. constructor; auto.
      * exists ((o, false) :: k), b. cbn [o_stack set_stack]. rewrite OS. repeat split; auto.
  - (* group *)
    unfold push1. rewrite LEN. destruct (Nat.leb_spec RxMaxNesting (S (length k))) as [L|L]; unfold RxMaxNesting in L.
    { left. exists (Some MTooDeep). eexists. split; [apply r_deep; [left; reflexivity|lia]|reflexivity]. }
    right. split; [intros m R; inversion R; subst; lia|]. eexists. split; [reflexivity|]. rewrite app_nil_r in NS.
    split; [cbn [o_names]; congruence|]. split; [cbn [o_repeatable]; congruence|].
    exists ((KGroup, true) :: k), b. cbn [o_stack]. rewrite HS, OS. split; [reflexivity|]. split; [cbn [length]; lia|]. constructor; [discriminate|exact HF].
  - (* named group *)
    rewrite HN. destruct (Nat.leb_spec 254 (length (names_in h))) as [L|L].
    { left. exists (Some MTooManyNames). eexists. split; [apply r_many; lia|reflexivity]. }
    destruct (existsb (eqs l) (names_in h)) eqn:EX.
    { left. exists (Some MDuplicate). eexists. split; [apply r_twice; [lia|apply exists_eqs, EX]|reflexivity]. }
    assert (NI : ~ In l (names_in h)) by (intros I; apply exists_eqs in I; congruence).
    unfold push1. cbn [o_stack]. rewrite LEN. destruct (Nat.leb_spec RxMaxNesting (S (length k))) as [L2|L2]; unfold RxMaxNesting in L2.
    { left. exists (Some MTooDeep). eexists. split; [apply r_deep_named; [lia|exact NI|lia]|reflexivity]. }
    right. split; [intros m R; inversion R; subst; try lia; try contradiction;
      match goal with H : In (TNamed _) _ |- _ => destruct H as [H|[H|[]]]; discriminate H end|].
    eexists. split; [reflexivity|]. split; [cbn [o_names]; congruence|]. split; [cbn [o_repeatable]; congruence|].
    exists ((KNamed, true) :: k), b. cbn [o_stack]. rewrite HS, OS. split; [reflexivity|]. split; [cbn [length]; lia|]. constructor; [discriminate|exact HF].
  - (* lookahead *)
    unfold push1. rewrite LEN. destruct (Nat.leb_spec RxMaxNesting (S (length k))) as [L|L]; unfold RxMaxNesting in L.
    { left. exists (Some MTooDeep). eexists. split; [apply r_deep; [right; left; reflexivity|lia]|reflexivity]. }
    right. split; [intros m R; inversion R; subst; lia|]. eexists. split; [reflexivity|]. rewrite app_nil_r in NS.
    split; [cbn [o_names]; congruence|]. split; [cbn [o_repeatable]; congruence|].
    exists ((KNeg, true) :: k), b. cbn [o_stack]. rewrite HS, OS. split; [reflexivity|]. split; [cbn [length]; lia|]. constructor; [discriminate|exact HF].
  - (* end of a group *)
    rewrite HS. destruct k as [|[o b'] k]; cbn [app].
    { left. exists None. eexists. split; [apply r_close; cbn [length] in HL; lia|reflexivity]. }
    cbn [length] in HL. inversion HF as [|? ? F1 F2]; subst. rewrite app_nil_r in NS.
    right. split; [intros m R; inversion R; subst; [match goal with H : In _ _ |- _ => destruct H as [H|[H|[]]]; discriminate H end|lia]|].
    destruct o; [contradiction F1; reflexivity| | | ]; eexists; (split; [reflexivity|]); (split; [cbn [o_names set_stack]; congruence|]);
      (split; [cbn [o_repeatable]; congruence|]); exists k, b; cbn [o_stack set_stack]; rewrite OS; repeat split; auto; lia.
Qed.

Lemma tokens_app a b : tokens (a ++ b) = tokens a ++ tokens b.
Proof. apply flat_map_app. Qed.

(** As far as nothing is refused. *)
Lemma run_hist es : forall h s m s' m', hist h s -> (forall t, In (Tok t) es -> inner t) ->
  run first_pass es s m = Ok (s', m', true) ->
  hist (h ++ tokens es) s' /\ forall a t b x, tokens es = a ++ t :: b -> ~ refused (h ++ a) t x.
Proof.
  induction es as [|e es IH]; intros h s m s' m' H I R; cbn [run] in R.
  - assert (s' = s) by congruence. subst. cbn. rewrite app_nil_r. split; [exact H|]. intros a t b x E. destruct a; discriminate E.
  - destruct e as [t|e].
    + destruct (hist_step h s t H (I t (or_introl eq_refl))) as [(mm & s1 & _ & E)|(NR & s1 & E & H1)]; rewrite E in R; cbn [obind] in R; [discriminate|].
      destruct (IH _ _ _ _ _ H1 (fun t' I' => I t' (or_intror I')) R) as (H2 & N2).
      change (tokens (Tok t :: es)) with (t :: tokens es). rewrite <- app_assoc in H2. split; [exact H2|].
      intros a u b x EQ. destruct a as [|a0 a]; cbn [app] in EQ; injection EQ as E1 E2; subst.
      * rewrite app_nil_r. apply NR.
      * specialize (N2 a u b x E2). rewrite <- app_assoc in N2. exact N2.
    + exact (IH h s (Some e) s' m' H (fun t' I' => I t' (or_intror I')) R).
Qed.

Section Scan.
Variables en rej : Z.
Lemma round_inner rest d es d' r : rest <> [] -> scan_round en rej rest d = Ok (es, d', r) -> forall t, In (Tok t) es -> inner t.
Proof. intros NE E t I. destruct (stops_round en rej rest d NE _ _ _ E) as (x & _ & _ & _ & C). exact (closes_inner _ _ (C t I)). Qed.
Lemma flush_inner d t : In (Tok t) (flush d) -> inner t.
Proof. intros I. destruct (lit_flush d t I) as [l ->]. exact Logic.I. Qed.
Lemma loop_inner f : forall rest d es, scan_loop en rej f rest d = Ok es -> forall t, In (Tok t) es -> inner t.
Proof.
  induction f as [|f IH]; intros rest d es H t I; cbn [scan_loop] in H.
  - destruct rest; [|discriminate]. assert (es = flush d) by congruence. subst. eapply flush_inner, I.
  - destruct rest as [|c rest]; [assert (es = flush d) by congruence; subst; eapply flush_inner, I|].
    destruct (scan_round en rej (c :: rest) d) as [[[es1 d1] rest1]| | ] eqn:E; cbn [obind] in H; try discriminate.
    destruct (scan_loop en rej f rest1 d1) as [es2| | ] eqn:E2; cbn [obind] in H; try discriminate.
    assert (es = es1 ++ es2) by congruence. subst. apply in_app_or in I. destruct I as [I|I]; [|eapply IH; eauto].
    eapply (round_inner (c :: rest)); [discriminate|exact E|exact I].
Qed.
Lemma reads_inner rest d es rest' d' : reads en rej rest d es rest' d' -> forall t, In (Tok t) es -> inner t.
Proof.
  induction 1 as [|rest d es d1 rest1 es' rest' d' N R _ IH]; intros t I; [destruct I|]. apply in_app_or in I.
  destruct I as [I|I]; [eapply round_inner; eauto|auto].
Qed.
End Scan.
