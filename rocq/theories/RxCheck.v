(** When the matcher returns: a certificate that a program never overruns the
    two limits of addthread (RxMaxNesting shunts, maxStation threads), whatever
    the text; its check, by computation on the program alone; its soundness. *)
From Coq Require Import Sorting.Permutation.
From Verif Require Import Base UTF8Model CharModel RxCompModel RxModel RxSpec RxVm RxRun.

(** ** Multisets *)
Definition sub (a b : list Z) : Prop := exists r, Permutation b (a ++ r).
Lemma sub_refl a : sub a a. Proof. exists []. rewrite app_nil_r. reflexivity. Qed.
Lemma sub_nil a : sub [] a. Proof. exists a. reflexivity. Qed.
Lemma sub_trans a b c : sub a b -> sub b c -> sub a c.
Proof. intros (r & H) (q & K). exists (r ++ q). rewrite app_assoc, <- H. exact K. Qed.
Lemma sub_app a b c d : sub a b -> sub c d -> sub (a ++ c) (b ++ d).
Proof.
  intros (r & H) (q & K). exists (r ++ q). rewrite H, K, <- !app_assoc. apply Permutation_app_head.
  rewrite !app_assoc. apply Permutation_app_tail, Permutation_app_comm.
Qed.
Lemma sub_l a b c : sub a b -> sub a (b ++ c).
Proof. intros H. rewrite <- (app_nil_r a). apply sub_app; [exact H|apply sub_nil]. Qed.
Lemma sub_length a b : sub a b -> (length a <= length b)%nat.
Proof. intros (r & H). apply Permutation_length in H. rewrite app_length in H. lia. Qed.
Lemma sub_incl a b : sub a b -> incl a b.
Proof. intros (r & H) x I. eapply Permutation_in; [symmetry; exact H|]. apply in_or_app. auto. Qed.
Lemma sub_perm a b c : Permutation a b -> sub b c -> sub a c.
Proof. intros P (r & H). exists r. rewrite P. exact H. Qed.
Lemma sub_flat_map (f : Z -> list Z) a b : sub a b -> sub (flat_map f a) (flat_map f b).
Proof. intros (r & H). exists (flat_map f r). rewrite <- flat_map_app. apply Permutation_flat_map, H. Qed.
Lemma nodup_sub a : NoDup a -> forall b, incl a b -> sub a b.
Proof.
  induction 1 as [|x a N D IH]; intros b I; [apply sub_nil|].
  destruct (in_split x b (I x (or_introl eq_refl))) as (l1 & l2 & ->).
  destruct (IH (l1 ++ l2)) as (r & P).
  { intros y Hy. specialize (I y (or_intror Hy)). apply in_app_or in I as [J|[->|J]]; apply in_or_app; auto. contradiction. }
  exists r. rewrite <- Permutation_middle, P. reflexivity.
Qed.
Fixpoint remove1 (x : Z) (l : list Z) : option (list Z) :=
  match l with
  | [] => None
  | y :: l => if x =? y then Some l else option_map (cons y) (remove1 x l)
  end.
Fixpoint subm (a b : list Z) : bool :=
  match a with
  | [] => true
  | x :: a => match remove1 x b with Some b => subm a b | None => false end
  end.
Lemma remove1_ok x l : forall l', remove1 x l = Some l' -> Permutation l (x :: l').
Proof.
  induction l as [|y l IH]; intros l' H; [discriminate|]. cbn in H. destruct (Z.eqb_spec x y) as [->|N].
  - assert (l = l') by congruence. subst. reflexivity.
  - destruct (remove1 x l) as [q|]; [|discriminate]. cbn in H. assert (l' = y :: q) by congruence. subst. rewrite (IH q eq_refl). apply perm_swap.
Qed.
Lemma subm_ok a : forall b, subm a b = true -> sub a b.
Proof.
  induction a as [|x a IH]; intros b H; [apply sub_nil|]. cbn in H. destruct (remove1 x b) as [c|] eqn:E; [|discriminate].
  destruct (IH c H) as (r & P). exists r. rewrite (remove1_ok _ _ _ E), P. reflexivity.
Qed.

Section Check.
Variable nfa : list Z.

(** Stations at which threads wait for a character, and where they go from there. *)
Definition terminal_next (i : instr) : option (option Z) :=
  match i with
  | IChar _ n | IAny n => Some (Some n)
  | IClass _ (_ :: _) n | IProp (_ :: _) n => Some (Some n)
  | IAccept => Some None
  | _ => None
  end.

(** What addthread may add from a station with the shunts [sh], if nothing is a
    duplicate and ^ and $ hold: the stations it tests for duplicates, and
    those that it does not.  [None]: it overruns the shunts. *)
Fixpoint adds (f : nat) (s : Z) (sh : list Z) {struct f} : option (list Z * list Z) :=
  match f with
  | O => None
  | S f =>
    if existsb (Z.eqb s) sh then Some ([], [])
    else if (length sh <? RxMaxNesting)%nat then goes f true s (s :: sh) else None
  end
with goes (f : nat) (root : bool) (s : Z) (sh : list Z) {struct f} : option (list Z * list Z) :=
  match f with
  | O => None
  | S f =>
    match decode nfa s with
    | Ok i =>
      match i with
      | IBOL n | IEOL n | IJump n => goes f false n sh
      | ISplit a n =>
        match adds f a sh, adds f n sh with
        | Some (r1, c1), Some (r2, c2) => Some (r1 ++ r2, c1 ++ c2)
        | _, _ => None
        end
      | ICapStart k n => if k =? 0 then goes f false n sh else None
      | _ =>
        match terminal_next i with
        | Some _ => Some (if root then ([s], []) else ([], [s]))
        | None => None
        end
      end
    | _ => None
    end
  end.

Lemma addsS f s sh : adds (S f) s sh =
    if existsb (Z.eqb s) sh then Some ([], [])
    else if (length sh <? RxMaxNesting)%nat then goes f true s (s :: sh) else None.
Proof. reflexivity. Qed.
Lemma goesS f root s sh : goes (S f) root s sh =
    match decode nfa s with
    | Ok i =>
      match i with
      | IBOL n | IEOL n | IJump n => goes f false n sh
      | ISplit a n =>
        match adds f a sh, adds f n sh with
        | Some (r1, c1), Some (r2, c2) => Some (r1 ++ r2, c1 ++ c2)
        | _, _ => None
        end
      | ICapStart k n => if k =? 0 then goes f false n sh else None
      | _ =>
        match terminal_next i with
        | Some _ => Some (if root then ([s], []) else ([], [s]))
        | None => None
        end
      end
    | _ => None
    end.
Proof. reflexivity. Qed.

(** Where a thread at this station goes after a character. *)
Definition next_adds (f : nat) (s : Z) : option (list Z * list Z) :=
  match decode nfa s with
  | Ok i =>
    match terminal_next i with
    | Some (Some n) => adds f n []
    | Some None => Some ([], [])
    | None => None
    end
  | _ => None
  end.
Definition snds (f : nat) (s : Z) : list Z := match next_adds f s with Some (_, c) => c | None => [] end.

(** The certificate: [R] has the stations that are tested, [C] bounds how often
    the others can be added in one cycle. *)
Record certified (f : nat) (limit start : Z) (R C : list Z) : Prop := {
  cert_start : exists r c, adds f start [] = Some (r, c) /\ incl r R /\ sub c C;
  cert_next : forall s, In s R \/ In s C -> exists r c, next_adds f s = Some (r, c) /\ incl r R;
  cert_closed : sub (flat_map (snds f) R ++ flat_map (snds f) C) C;
  cert_limit : Z.of_nat (length R + length C) <= limit }.

Definition inclb (a b : list Z) : bool := forallb (fun x => existsb (Z.eqb x) b) a.
Lemma inclb_ok a b : inclb a b = true -> incl a b.
Proof.
  intros H x I. unfold inclb in H. rewrite forallb_forall in H. specialize (H x I). apply existsb_exists in H as (y & Y & E).
  apply Z.eqb_eq in E. subst. exact Y.
Qed.
Definition verify (f : nat) (limit start : Z) (R C : list Z) : bool :=
  match adds f start [] with Some (r, c) => inclb r R && subm c C | None => false end &&
  forallb (fun s => match next_adds f s with Some (r, _) => inclb r R | None => false end) (R ++ C) &&
  subm (flat_map (snds f) R ++ flat_map (snds f) C) C &&
  (Z.of_nat (length R + length C) <=? limit).
Lemma verify_ok f limit start R C : verify f limit start R C = true -> certified f limit start R C.
Proof.
  unfold verify. intros H. apply andb_prop in H as [H H4]. apply andb_prop in H as [H H3]. apply andb_prop in H as [H1 H2]. constructor.
  - destruct (adds f start []) as [[r c]|]; [|discriminate]. apply andb_prop in H1 as [A B]. exists r, c. split; [reflexivity|]. split; [apply inclb_ok, A|apply subm_ok, B].
  - intros s I. rewrite forallb_forall in H2. specialize (H2 s ltac:(apply in_or_app; exact I)). destruct (next_adds f s) as [[r c]|]; [|discriminate].
    exists r, c. split; [reflexivity|apply inclb_ok, H2].
  - apply subm_ok, H3.
  - lia.
Qed.

(** Looking for a certificate: [k] rounds. *)
Definition fsts (f : nat) (s : Z) : list Z := match next_adds f s with Some (r, _) => r | None => [] end.
Fixpoint minus (b a : list Z) : list Z :=
  match a with
  | [] => b
  | x :: a => minus (match remove1 x b with Some b => b | None => b end) a
  end.
Fixpoint search_cert (f k : nat) (R C : list Z) : list Z * list Z :=
  match k with
  | O => (R, C)
  | S k =>
    let R' := nodup Z.eq_dec (R ++ flat_map (fsts f) (R ++ C)) in
    let C' := C ++ minus (flat_map (snds f) (R ++ C)) C in
    if (length R' =? length R)%nat && (length C' =? length C)%nat then (R, C)
    else if (200 <? length C')%nat then (R, C)
    else search_cert f k R' C'
  end.
Definition returns_from (f : nat) (limit start : Z) : bool :=
  match adds f start [] with
  | Some (r, c) => let '(R, C) := search_cert f 100 (nodup Z.eq_dec r) c in verify f limit start R C
  | None => false
  end.
Lemma returns_from_ok f limit start : returns_from f limit start = true -> exists R C, certified f limit start R C.
Proof.
  unfold returns_from. destruct (adds f start []) as [[r c]|]; [|discriminate].
  destruct (search_cert f 100 (nodup Z.eq_dec r) c) as [R C]. intros H. exists R, C. apply verify_ok, H.
Qed.
End Check.

(** ** Soundness *)
Section Sound.
Variables (nfa : list Z) (h : header) (t : list Z) (g : Z) (lk : Z -> Z -> outcome (bool * Z)).
Variable R : list Z.
Notation addthread := (addthread nfa h t g lk).
Notation go := (go nfa h t g lk).

(** The threads of [next]: distinct ones of [R], and others out of [K]. *)
Definition within (next : list thread) (K : list Z) : Prop :=
  exists ra ca, Permutation (stations next) (ra ++ ca) /\ NoDup ra /\ incl ra R /\ sub ca K.
Lemma within_mono next K K' : within next K -> sub K K' -> within next K'.
Proof. intros (ra & ca & A & B & C & D) S. exists ra, ca. repeat split; auto. eapply sub_trans; eassumption. Qed.
Lemma within_app next K c : within next K -> within next (K ++ c).
Proof. intros H. eapply within_mono; [exact H|]. apply sub_l, sub_refl. Qed.
Lemma within_length next K : within next K -> (length next <= length R + length K)%nat.
Proof.
  intros (ra & ca & A & B & C & D). apply Permutation_length in A. unfold stations in A. rewrite map_length, app_length in A.
  pose proof (NoDup_incl_length B C). apply sub_length in D. lia.
Qed.
Lemma dup0 th next : duplicate th 0 0 next = false -> ~ In (t_station th) (stations next).
Proof.
  induction next as [|x next IH]; intros H; [intros []|]. cbn [duplicate stations map] in *.
  destruct (Z.eqb_spec (t_station x) (t_station th)) as [E|E]; [discriminate H|]. intros [I|I]; [congruence|exact (IH H I)].
Qed.

Lemma adds_ok : forall f,
  (forall s sh r c, adds nfa f s sh = Some (r, c) -> incl r R ->
   forall f' res off next K, (f <= f')%nat -> within next K -> Z.of_nat (length R + length (K ++ c)) <= h_stations h ->
   exists next', addthread f' (mkthread s res) off sh 0 next = Ok next' /\ within next' (K ++ c)) /\
  (forall root s sh r c, goes nfa f root s sh = Some (r, c) -> incl r R ->
   forall f' res off next K, (f <= f')%nat -> within next K -> Z.of_nat (length R + length (K ++ c)) <= h_stations h ->
   (root = true -> ~ In s (stations next)) ->
   exists next', go f' (mkthread s res) off sh next = Ok next' /\ within next' (K ++ c)).
Proof.
  induction f as [|f [IHa IHg]]; [split; intros; discriminate|]. split.
  - intros s sh r c H I f' res off next K L W B. destruct f' as [|f']; [lia|]. rewrite addS. cbn [t_station]. rewrite addsS in H.
    destruct (existsb (Z.eqb s) sh); [exists next; split; [reflexivity|apply within_app, W]|].
    destruct (length sh <? RxMaxNesting)%nat; [|discriminate]. cbn [cassert].
    destruct (duplicate (mkthread s res) 0 0 next) eqn:D; [exists next; split; [reflexivity|apply within_app, W]|].
    apply (IHg true s (s :: sh) r c H I f' res off next K ltac:(lia) W B). intros _. exact (dup0 _ _ D).
  - intros root s sh r c H I f' res off next K L W B N. destruct f' as [|f']; [lia|]. assert (L' : (f <= f')%nat) by lia.
    rewrite goS. cbn [t_station t_result]. rewrite goesS in H. destruct (decode nfa s) as [i| |]; try discriminate H. cbn [obind].
    assert (T : terminal_next i <> None -> Some (if root then ([s], []) else ([], [s])) = Some (r, c) ->
      exists next', cassert (Z.of_nat (length next) <? h_stations h) (Ok (next ++ [mkthread s res])) = Ok next' /\ within next' (K ++ c)).
    { intros _ E. destruct W as (ra & ca & P & ND & IR & SK). destruct root.
      - assert (r = [s] /\ c = []) as [-> ->] by (split; congruence). rewrite app_nil_r in *.
        assert (NI : ~ In s ra). { intros J. apply (N eq_refl). eapply Permutation_in; [symmetry; exact P|]. apply in_or_app. auto. }
        assert (ND' : NoDup (s :: ra)) by (constructor; assumption). assert (I' : incl (s :: ra) R) by (intros y [<-|Y]; [apply I; left; reflexivity|apply IR, Y]).
        pose proof (NoDup_incl_length ND' I') as LL. pose proof (sub_length _ _ SK) as LK.
        pose proof (Permutation_length P) as LP. unfold stations in LP. rewrite map_length, app_length in LP. cbn in LL.
        destruct (Z.ltb_spec (Z.of_nat (length next)) (h_stations h)); [|lia]. cbn [cassert]. eexists. split; [reflexivity|].
        exists (s :: ra), ca. split; [|auto]. unfold stations in *. rewrite map_app, P. cbn [map t_station]. rewrite Permutation_app_comm. reflexivity.
      - assert (r = [] /\ c = [s]) as [-> ->] by (split; congruence). pose proof (NoDup_incl_length ND IR) as LL. pose proof (sub_length _ _ SK) as LK.
        pose proof (Permutation_length P) as LP. unfold stations in LP. rewrite map_length, app_length in LP. rewrite app_length in B. cbn in B.
        destruct (Z.ltb_spec (Z.of_nat (length next)) (h_stations h)); [|lia]. cbn [cassert]. eexists. split; [reflexivity|].
        exists ra, (ca ++ [s]). split; [|split; [exact ND|split; [exact IR|]]].
        + unfold stations in *. rewrite map_app, P, app_assoc. reflexivity.
        + apply sub_app; [exact SK|apply sub_refl]. }
    assert (F : forall b (n : Z), goes nfa f false n sh = Some (r, c) ->
      exists next', (if b : bool then go f' (mkthread n res) off sh next else Ok next) = Ok next' /\ within next' (K ++ c)).
    { intros b n E. destruct b; [|exists next; split; [reflexivity|apply within_app, W]].
      apply (IHg false n sh r c E I f' res off next K L' W B). discriminate. }
    destruct i as [|ch n|n|neg l n|l n|n|n|a|a n|k n|k n|n|mn mx a n|a n|]; cbn [terminal_next] in *; try discriminate H; try (apply T; [discriminate|exact H]).
    + destruct l; [exfalso; cbn in H; discriminate H|]. apply T; [discriminate|exact H].
    + destruct l; [exfalso; cbn in H; discriminate H|]. apply T; [discriminate|exact H].
    + apply F, H.
    + apply F, H.
    + apply (F true), H.
    + destruct (adds nfa f a sh) as [[r1 c1]|] eqn:E1; [|discriminate H]. destruct (adds nfa f n sh) as [[r2 c2]|] eqn:E2; [|discriminate H].
      assert (r = r1 ++ r2 /\ c = c1 ++ c2) as [-> ->] by (split; congruence).
      rewrite !app_length in B. destruct (IHa a sh r1 c1 E1) with (f' := f') (res := res) (off := off) (next := next) (K := K) as (n1 & G1 & W1); auto.
      { intros y Y. apply I, in_or_app. auto. } { rewrite app_length. lia. }
      rewrite G1. cbn [obind]. destruct (IHa n sh r2 c2 E2) with (f' := f') (res := res) (off := off) (next := n1) (K := K ++ c1) as (n2 & G2 & W2); auto.
      { intros y Y. apply I, in_or_app. auto. } { rewrite !app_length. lia. }
      exists n2. split; [exact G2|]. rewrite app_assoc. exact W2.
    + destruct (Z.eqb_spec k 0) as [->|]; [|discriminate H]. change (0 * 2) with 0. unfold capture_set. rewrite Z.eqb_refl. cbn [obind].
      apply (IHg false n sh r c H I f' _ off next K L' W B). discriminate.
Qed.

Variables (f : nat) (C : list Z) (start : Z).
Hypothesis CERT : certified nfa f (h_stations h) start R C.

Lemma consume_ok i c o : terminal_next i = Some o -> exists x, consume i c = Ok x /\
  match x with None => True | Some None => True | Some (Some n) => o = Some n end.
Proof.
  destruct i as [|ch n|n|neg l n|l n|n|n|a|a n|k n|k n|n|mn mx a n|a n|]; cbn [terminal_next consume]; try discriminate; intros H.
  - eexists. split; [reflexivity|exact Logic.I].
  - assert (o = Some n) by congruence. subst. destruct (c =? ch); (eexists; split; [reflexivity|]; cbn; auto).
  - assert (o = Some n) by congruence. subst. destruct (c =? 0); (eexists; split; [reflexivity|]; cbn; auto).
  - destruct l as [|x l]; [discriminate|]. assert (o = Some n) by congruence. subst. destruct (c =? 0); [eexists; split; [reflexivity|]; cbn; auto|].
    cbn [cassert length Nat.ltb Nat.leb]. destruct (Bool.eqb (in_class c (x :: l)) (negb neg)); (eexists; split; [reflexivity|]; cbn; auto).
  - destruct l as [|x l]; [discriminate|]. assert (o = Some n) by congruence. subst. destruct (c =? 0); [eexists; split; [reflexivity|]; cbn; auto|].
    cbn [cassert length Nat.ltb Nat.leb]. assert (P : exists b, has_property c (x :: l) = Ok b).
    { unfold has_property. destruct l; [|eauto]. destruct (digit_test c) as (d & -> & _). cbn [obind]. destruct (x =? 115), (x =? 100), (x =? 104); eauto. }
    destruct P as (b & ->). cbn [obind]. destruct b; (eexists; split; [reflexivity|]; cbn; auto).
Qed.

Lemma cycle_ok f' : (f <= f')%nat -> forall cur off next res K, Forall (fun x => In (t_station x) R \/ In (t_station x) C) cur -> within next K ->
  sub (K ++ flat_map (snds nfa f) (stations cur)) C ->
  exists next' res', cycle nfa h t g lk f' cur off next res = Ok (next', res') /\ within next' C.
Proof.
  intros LF cur. induction cur as [|th cur IH]; intros off next res K FO W S.
  - exists next, res. split; [reflexivity|]. cbn in S. rewrite app_nil_r in S. eapply within_mono; eassumption.
  - inversion FO as [|x l H1 H2]; subst x l. cbn [cycle]. destruct (cert_next _ _ _ _ _ _ CERT _ H1) as (r & c & E & I).
    assert (SN : snds nfa f (t_station th) = c) by (unfold snds; rewrite E; reflexivity).
    unfold next_adds in E. destruct (decode nfa (t_station th)) as [i| |] eqn:D; try discriminate E. cbn [obind].
    destruct (terminal_next i) as [o|] eqn:T; [|discriminate E]. destruct (consume_ok i (char_at t off) o T) as (x & EX & HX). rewrite EX. cbn [obind].
    cbn [stations map flat_map] in S. rewrite SN in S. change (map t_station cur) with (stations cur) in S.
    assert (S0 : sub (K ++ flat_map (snds nfa f) (stations cur)) C).
    { eapply sub_trans; [|exact S]. apply sub_app; [apply sub_refl|]. exists c. apply Permutation_app_comm. }
    destruct x as [[n|]|].
    + subst o. assert (B : Z.of_nat (length R + length (K ++ c)) <= h_stations h).
      { pose proof (cert_limit _ _ _ _ _ _ CERT). pose proof (sub_length _ _ S). rewrite !app_length in *. lia. }
      destruct (proj1 (adds_ok f) n [] r c E I f' (t_result th) (off + 1) next K LF W B) as (next1 & G & W1). rewrite G. cbn [obind].
      apply (IH off next1 res (K ++ c) H2 W1). rewrite <- app_assoc. exact S.
    + apply (IH off next res K H2 W S0).
    + apply (IH off next _ K H2 W S0).
Qed.

Lemma within_cur cur : within cur C -> Forall (fun x => In (t_station x) R \/ In (t_station x) C) cur /\ sub ([] ++ flat_map (snds nfa f) (stations cur)) C.
Proof.
  intros (ra & ca & P & ND & I & S). split.
  - apply Forall_forall. intros x Hx. assert (Hs : In (t_station x) (ra ++ ca)) by (eapply Permutation_in; [exact P|]; apply in_map, Hx).
    apply in_app_or in Hs as [J|J]; [left; apply I, J|right; apply (sub_incl _ _ S), J].
  - cbn [app]. eapply sub_trans; [|exact (cert_closed _ _ _ _ _ _ CERT)]. eapply sub_perm; [apply Permutation_flat_map, P|]. rewrite flat_map_app.
    apply sub_app; apply sub_flat_map; [apply nodup_sub; assumption|exact S].
Qed.

Lemma cycles_ok f' : (f <= f')%nat -> forall k cur off res, within cur C -> Z.of_nat (length t) < off + Z.of_nat k ->
  exists x, cycles nfa h t g lk f' k cur off res = Ok x.
Proof.
  intros LF k. induction k as [|k IH]; intros cur off res W LK; destruct cur as [|th cur]; try (eexists; reflexivity); cbn [cycles]; unfold len;
    destruct (Z.leb_spec off (Z.of_nat (length t))); try (eexists; reflexivity); try lia.
  destruct (within_cur _ W) as [FO S].
  destruct (cycle_ok f' LF (th :: cur) off [] res [] FO) as (n1 & r1 & E & W1); [|exact S|].
  { exists [], []. repeat split; try constructor; [intros ? []|apply sub_refl]. }
  rewrite E. cbn [obind fst snd]. apply IH; [exact W1|lia].
Qed.

Lemma match_from_ok f' off : (f <= f')%nat -> 0 <= off -> exists x, match_from nfa h t g lk f' start off = Ok x.
Proof.
  intros LF Ho. unfold match_from. destruct (cert_start _ _ _ _ _ _ CERT) as (r & c & E & I & S).
  assert (W0 : within [] []) by (exists [], []; repeat split; try constructor; [intros ? []|apply sub_refl]).
  assert (B : Z.of_nat (length R + length ([] ++ c)) <= h_stations h).
  { pose proof (cert_limit _ _ _ _ _ _ CERT). pose proof (sub_length _ _ S). cbn [app]. lia. }
  destruct (proj1 (adds_ok f) start [] r c E I f' (mkresult 0 None (repeat 0 (Z.to_nat (h_captures h * 2 - 2))) []) off [] [] LF W0 B) as (cur & G & W). rewrite G. cbn [obind].
  apply cycles_ok; [exact LF|eapply within_mono; [exact W|exact S]|lia].
Qed.
End Sound.

(** The programs whose matching returns: both ways of matching are certified,
    with recursion at most [f] deep. *)
Definition returns (f : nat) (prog : list Z) : bool :=
  match program prog with
  | Ok h => returns_from prog f (h_stations h) (h_start h) && returns_from prog f (h_stations h) (h_search h)
  | _ => false
  end.
Lemma returns_ok f prog : returns f prog = true -> forall f' g t off, (f <= f')%nat -> 0 <= off ->
  (exists res, match_at f' g prog t off = Ok res) /\ (exists res, match_after f' g prog t off = Ok res).
Proof.
  unfold returns, match_at, match_after. destruct (program prog) as [h| |]; try discriminate. intros H f' g t off L Ho. apply andb_prop in H as [H1 H2]. cbn [obind].
  destruct (returns_from_ok _ _ _ _ H1) as (R1 & C1 & K1). destruct (returns_from_ok _ _ _ _ H2) as (R2 & C2 & K2).
  destruct (match_from_ok prog h t g (look prog h t g f' f') R1 f C1 (h_start h) K1 f' off L Ho) as (x & ->).
  destruct (match_from_ok prog h t g (look prog h t g f' f') R2 f C2 (h_search h) K2 f' off L Ho) as (y & ->). cbn [obind]. eauto.
Qed.
