(** The matcher runs the program: from what a region of code leads to, to the
    result of matching. *)
From Coq Require Import Sorting.Sorted.
From Verif Require Import Base UTF8Model CharModel RxCompModel RxModel RxSpec RxVm.

Ltac bind H x E := apply obind_ok in H; destruct H as (x & E & H).
Lemma cassert_ok {A} b (k : outcome A) a : cassert b k = Ok a -> b = true /\ k = Ok a.
Proof. destruct b; [auto|discriminate]. Qed.

Section Run.
Variables (t P : list Z) (h : header) (g : Z) (lk : Z -> Z -> outcome (bool * Z)).
Notation addthread := (addthread P h t g lk).
Notation go := (go P h t g lk).
Notation eps := (eps t P).
Notation step := (step t P).
Notation steps := (steps t P).
Notation reach := (reach t P).
Notation pos := (pos t).

Definition terminal (s : Z) : Prop :=
  exists x, decode P s = Ok x /\ match x with IChar _ _ | IAny _ | IClass _ _ _ | IProp _ _ | IAccept => True | _ => False end.
Lemma terminal_eps s i s' : terminal s -> eps i s s' -> False.
Proof. intros (x & D & H) E. inversion E as [s0 n D' B|s0 n D' B|s0 a D'|s0 a n D'|s0 a n D']; subst; rewrite D' in D; inversion D; subst; exact H. Qed.

Lemma eps_inv i s s' x : eps i s s' -> decode P s = Ok x ->
  match x with
  | IBOL n => s' = n /\ bol t i = true
  | IEOL n => s' = n /\ eol t i = true
  | IJump a => s' = a
  | ISplit a n => s' = a \/ s' = n
  | _ => False
  end.
Proof. intros E D. inversion E as [s0 n D' B|s0 n D' B|s0 a D'|s0 a n D'|s0 a n D']; subst; rewrite D' in D; inversion D; subst; auto. Qed.

(** ** Paths that consume nothing *)
Fixpoint path (i s : Z) (l : list Z) (y : Z) : Prop :=
  match l with
  | [] => s = y
  | s1 :: l => eps i s s1 /\ path i s1 l y
  end.
Definition epss (i s y : Z) : Prop := exists l, path i s l y.
Lemma epss_refl i s : epss i s s. Proof. exists []. reflexivity. Qed.
Lemma epss_step i s s1 y : eps i s s1 -> epss i s1 y -> epss i s y.
Proof. intros E [l H]. exists (s1 :: l). split; assumption. Qed.
Lemma path_suffix i l : forall s y x, path i s l y -> NoDup (s :: l) -> In x (s :: l) -> exists l', path i x l' y /\ NoDup (x :: l').
Proof.
  induction l as [|s1 l IH]; intros s y x H N I.
  - destruct I as [<-|[]]. exists []. auto.
  - destruct I as [<-|I]; [exists (s1 :: l); auto|]. destruct H as [_ H]. inversion N; subst. apply (IH s1); assumption.
Qed.
Lemma epss_simple i s y : epss i s y -> exists l, path i s l y /\ NoDup (s :: l).
Proof.
  intros [l H]. revert s H. induction l as [|s1 l IH]; intros s H.
  - exists []. split; [exact H|]. constructor; [intros []|constructor].
  - destruct H as [E H]. destruct (IH s1 H) as (l' & H' & N). destruct (in_dec Z.eq_dec s (s1 :: l')) as [I|I].
    + apply (path_suffix i l' s1); assumption.
    + exists (s1 :: l'). split; [split; assumption|]. constructor; assumption.
Qed.
Lemma epss_reach i s y : epss i s y -> reach (s, i) (y, i).
Proof.
  intros [l H]. revert s H. induction l as [|s1 l IH]; intros s H; [cbn in H; subst; apply reach_refl|].
  destruct H as [E H]. eapply reach_step; [apply step_eps, E|]. apply IH, H.
Qed.

(** ** Paths through the text *)
Lemma steps_off n : forall a i s k, steps n (a, i) (s, k) -> i <= k /\ (i = k -> epss i a s).
Proof.
  induction n as [|n IH]; intros a i s k H; inversion H; subst.
  - split; [lia|]. intros _. apply epss_refl.
  - inversion H1; subst.
    + destruct (IH _ _ _ _ H2) as [A B]. split; [exact A|]. intros E. eapply epss_step; [eassumption|]. apply B, E.
    + destruct (IH _ _ _ _ H2) as [A _]. split; lia.
Qed.
Lemma consume_terminal x s c n : decode P s = Ok x -> consume x c = Ok (Some (Some n)) -> terminal s.
Proof. intros D C. exists x. split; [exact D|]. destruct x; try exact I; discriminate. Qed.
Lemma through a o s k i : reach (a, o) (s, k) -> o <= i <= k -> terminal s -> exists s0, terminal s0 /\ reach (a, o) (s0, i).
Proof.
  intros [n H]. revert a o H. induction n as [|n IH]; intros a o H Hi T; inversion H; subst.
  - exists s. split; [exact T|]. replace i with k by lia. apply reach_refl.
  - inversion H1; subst.
    + destruct (IH _ _ H2 Hi T) as (s0 & T0 & R0). exists s0. split; [exact T0|]. eapply reach_step; eassumption.
    + destruct (Z.eq_dec o i) as [->|Hne].
      * exists a. split; [eapply consume_terminal; eassumption|apply reach_refl].
      * destruct (IH _ _ H2 ltac:(lia) T) as (s0 & T0 & R0). exists s0. split; [exact T0|]. eapply reach_step; eassumption.
Qed.
Lemma last_eat a o s i : reach (a, o) (s, i + 1) -> o <= i ->
  exists s0 x n, reach (a, o) (s0, i) /\ decode P s0 = Ok x /\ consume x (char_at t i) = Ok (Some (Some n)) /\ epss (i + 1) n s.
Proof.
  intros [n H]. revert a o H. induction n as [|n IH]; intros a o H Hi; inversion H; subst; [lia|].
  inversion H1; subst.
  - destruct (IH _ _ H2 Hi) as (s0 & x & m & A & B & C & D). exists s0, x, m. split; [eapply reach_step; eassumption|auto].
  - destruct (Z.eq_dec o i) as [->|Hne].
    + exists a, x, s'. split; [apply reach_refl|]. split; [assumption|]. split; [assumption|]. apply (steps_off _ _ _ _ _ H2). reflexivity.
    + destruct (IH _ _ H2 ltac:(lia)) as (s0 & x' & m & A & B & C & D). exists s0, x', m. split; [eapply reach_step; eassumption|auto].
Qed.

(** ** The region *)
Variables (R : Z -> Z -> Prop) (rs q : Z).
Hypothesis HB : forall o s k, pos o -> reach (rs, o) (s, k) -> inside P rs q s \/ (s = q /\ R o k).
Hypothesis HF : forall o k, pos o -> R o k -> pos k /\ reach (rs, o) (q, k).
Hypothesis Hq : decode P q = Ok IAccept.
Hypothesis Hrq : rs <= q.

Definition Good (i s : Z) : Prop := exists o, pos o /\ reach (rs, o) (s, i).
Lemma good_eps i s s' : Good i s -> eps i s s' -> Good i s'.
Proof.
  intros (o & Ho & H) E. exists o. split; [exact Ho|]. eapply reach_trans; [exact H|]. eapply reach_step; [apply step_eps, E|apply reach_refl].
Qed.
Lemma good_decode i s : Good i s -> exists x, decode P s = Ok x /\ (simple x \/ x = IAccept) /\ rs <= s <= q.
Proof.
  intros (o & Ho & H). destruct (HB _ _ _ Ho H) as [[A (x & D & S)]|[-> _]].
  - exists x. split; [exact D|]. split; [auto|lia].
  - exists IAccept. split; [exact Hq|]. split; [auto|lia].
Qed.
Lemma q_terminal : terminal q.
Proof. exists IAccept. split; [exact Hq|exact I]. Qed.

Definition stations (l : list thread) : list Z := map t_station l.
Lemma dup_in th d : forall n next, duplicate th d n next = true -> In (t_station th) (stations next).
Proof.
  intros n next. revert n. induction next as [|x next IH]; intros n H; [discriminate|]. cbn [duplicate stations map] in *.
  destruct (Z.eqb_spec (t_station x) (t_station th)) as [E|E]; [left; congruence|right; eapply IH; exact H].
Qed.

Lemma goS f th off sh next : go (S f) th off sh next =
    do i <- decode P (t_station th);
    let r := t_result th in
    match i with
    | IBOL n => if (off =? 0) || (char_at t (off - 1) =? 10) then go f (mkthread n r) off sh next else Ok next
    | IEOL n => if (off =? len t) || (char_at t off =? 10) then go f (mkthread n r) off sh next else Ok next
    | IJump a => go f (mkthread a r) off sh next
    | ISplit a n =>
      do next <- addthread f (mkthread a r) off sh 0 next;
      addthread f (mkthread n r) off sh 0 next
    | ICapStart k n =>
      do r <- capture_set h r (k * 2) off;
      go f (mkthread n r) off sh next
    | ICapEnd k n =>
      do r <- capture_set h r (k * 2 + 1) off;
      Ok next
    | IZero n =>
      do r <- push_zero h r off;
      go f (mkthread n r) off sh next
    | ICount mn mx a n =>
      match r_counters r with
      | [] => Abort
      | (prev, c) :: cs =>
        let c := u32 (c + 1) in
        let counter := s16 c in
        let with_ cs := mkresult (r_cap0 r) (r_cap1 r) (r_caps r) cs in
        do next <- (if ((counter <=? mx) || (mx =? 0)) && (prev <=? off)
                    then addthread f (mkthread a (with_ ((off, c) :: cs))) off sh mn next else Ok next);
        if ((counter >=? mn) || (prev =? off)) && ((mx =? 0) || (counter <=? mx))
        then addthread f (mkthread n (with_ cs)) off sh mn next else Ok next
      end
    | INeg a n =>
      do x <- lk n off;
      if fst x then Ok next else addthread f (mkthread a r) (snd x) sh g next
    | _ =>
      cassert (Z.of_nat (length next) <? h_stations h) (Ok (next ++ [th]))
    end.
Proof. reflexivity. Qed.
Lemma addS f th off sh dup next : addthread (S f) th off sh dup next =
    if existsb (Z.eqb (t_station th)) sh then Ok next
    else cassert (length sh <? RxMaxNesting)%nat (
      if duplicate th dup 0 next then Ok next
      else go f th off (t_station th :: sh) next).
Proof. reflexivity. Qed.

(** What is added *)
Definition added (i : Z) (th : thread) (next next' : list thread) : Prop :=
  exists add, next' = next ++ add /\
    Forall (fun x => t_result x = t_result th /\ terminal (t_station x) /\ epss i (t_station th) (t_station x)) add.
Lemma added_none i th next : added i th next next.
Proof. exists []. rewrite app_nil_r. split; [reflexivity|constructor]. Qed.
Lemma added_from i s s' r next next' : eps i s s' -> added i (mkthread s' r) next next' -> added i (mkthread s r) next next'.
Proof.
  intros E (add & -> & F). exists add. split; [reflexivity|]. eapply Forall_impl; [|exact F]. cbn. intros x (A & B & C).
  repeat split; [exact A|exact B|]. eapply epss_step; eassumption.
Qed.
Lemma added_trans i th a b c : added i th a b -> added i th b c -> added i th a c.
Proof.
  intros (x & -> & F) (y & -> & G). exists (x ++ y). split; [symmetry; apply app_assoc|]. apply Forall_app. auto.
Qed.

Lemma add_sound f : (forall s r off sh dup next next', Good off s -> addthread f (mkthread s r) off sh dup next = Ok next' -> added off (mkthread s r) next next') /\
  (forall s r off sh next next', Good off s -> go f (mkthread s r) off sh next = Ok next' -> added off (mkthread s r) next next').
Proof.
  induction f as [|f [IHa IHg]]; split; intros s r off sh.
  - discriminate.
  - discriminate.
  - intros dup next next' G H. rewrite addS in H. cbn [t_station] in H. destruct (existsb _ _).
    { assert (next' = next) by congruence. subst. apply added_none. }
    apply cassert_ok in H. destruct H as [_ H]. destruct (duplicate _ _ _ _).
    { assert (next' = next) by congruence. subst. apply added_none. }
    eapply IHg; eassumption.
  - intros next next' G H. rewrite goS in H. cbn [t_station t_result] in H. destruct (good_decode _ _ G) as (x & D & S & _).
    rewrite D in H. cbn [obind] in H. cbv zeta in H.
    assert (T : terminal s -> Ok (next ++ [mkthread s r]) = Ok next' -> added off (mkthread s r) next next').
    { intros T HX. assert (next' = next ++ [mkthread s r]) by congruence. subst. exists [mkthread s r]. split; [reflexivity|].
      constructor; [|constructor]. cbn. split; [reflexivity|]. split; [exact T|apply epss_refl]. }
    destruct S as [S | ->]; [destruct x; cbn in S; try contradiction|].
    + apply cassert_ok in H. destruct H as [_ H]. apply T; [exists (IChar c next0); auto|exact H].
    + apply cassert_ok in H. destruct H as [_ H]. apply T; [exists (IAny next0); auto|exact H].
    + apply cassert_ok in H. destruct H as [_ H]. apply T; [eexists; split; [exact D|exact I]|exact H].
    + apply cassert_ok in H. destruct H as [_ H]. apply T; [eexists; split; [exact D|exact I]|exact H].
    + destruct ((off =? 0) || _) eqn:E.
      * assert (EE : eps off s next0) by (eapply eps_bol; eassumption). eapply added_from; [exact EE|]. eapply IHg; [|exact H]. eapply good_eps; eassumption.
      * assert (next' = next) by congruence. subst. apply added_none.
    + destruct ((off =? len t) || _) eqn:E.
      * assert (EE : eps off s next0) by (eapply eps_eol; eassumption). eapply added_from; [exact EE|]. eapply IHg; [|exact H]. eapply good_eps; eassumption.
      * assert (next' = next) by congruence. subst. apply added_none.
    + assert (EE : eps off s alt) by (eapply eps_jump; eassumption). eapply added_from; [exact EE|]. eapply IHg; [|exact H]. eapply good_eps; eassumption.
    + bind H next1 H1.
      assert (E1 : eps off s alt) by (eapply eps_alt; eassumption). assert (E2 : eps off s next0) by (eapply eps_next; eassumption).
      apply added_trans with next1.
      * eapply added_from; [exact E1|]. eapply IHa; [|exact H1]. eapply good_eps; eassumption.
      * eapply added_from; [exact E2|]. eapply IHa; [|exact H]. eapply good_eps; eassumption.
    + apply cassert_ok in H. destruct H as [_ H]. apply T; [eexists; split; [exact D|exact I]|exact H].
Qed.
Lemma added_incl i th next next' x : added i th next next' -> In x next -> In x next'.
Proof. intros (add & -> & _) H. apply in_or_app. auto. Qed.
Lemma added_stations i th next next' s : added i th next next' -> In s (stations next) -> In s (stations next').
Proof. intros (add & -> & _) H. unfold stations. rewrite map_app. apply in_or_app. auto. Qed.
Lemma added_terminal i th next next' : added i th next next' -> Forall (fun x => terminal (t_station x)) next -> Forall (fun x => terminal (t_station x)) next'.
Proof. intros (add & -> & F) H. apply Forall_app. split; [exact H|]. eapply Forall_impl; [|exact F]. cbn. tauto. Qed.

Lemma add_complete f : (forall s r off sh dup next next' l y, Good off s -> Forall (fun x => terminal (t_station x)) next ->
    addthread f (mkthread s r) off sh dup next = Ok next' ->
    path off s l y -> NoDup (s :: l) -> (forall x, In x (s :: l) -> ~ In x sh) -> terminal y -> In y (stations next')) /\
  (forall s r off sh next next' l y, Good off s -> Forall (fun x => terminal (t_station x)) next ->
    go f (mkthread s r) off sh next = Ok next' ->
    path off s l y -> NoDup (s :: l) -> (forall x, In x l -> ~ In x sh) -> terminal y -> In y (stations next')).
Proof.
  induction f as [|f [IHa IHg]]; split; intros s r off sh.
  - discriminate.
  - discriminate.
  - intros dup next next' l y G HT H HP HN HS Ty. rewrite addS in H. cbn [t_station] in H. destruct (existsb _ _) eqn:E.
    { apply existsb_exists in E. destruct E as (x & I & E). apply Z.eqb_eq in E. subst x. exfalso. apply (HS s); [left; reflexivity|exact I]. }
    apply cassert_ok in H. destruct H as [_ H]. destruct (duplicate _ _ _ _) eqn:ED.
    { apply dup_in in ED. cbn [t_station] in ED. assert (next' = next) by congruence. subst. unfold stations in *.
      pose proof ED as ED'. apply in_map_iff in ED'. destruct ED' as (x & Ex & Ix). rewrite Forall_forall in HT. pose proof (HT x Ix) as Tx. rewrite Ex in Tx.
      destruct l as [|s1 l]; [destruct HP; exact ED|]. destruct HP as [HE _]. exfalso. eapply terminal_eps; eassumption. }
    eapply IHg; try eassumption. intros x Ix [<-|Is].
    + inversion HN; subst. contradiction.
    + apply (HS x); [right; exact Ix|exact Is].
  - intros next next' l y G HT H HP HN HS Ty. rewrite goS in H. cbn [t_station t_result] in H. destruct (good_decode _ _ G) as (x & D & S & _).
    rewrite D in H. cbn [obind] in H. cbv zeta in H.
    assert (T : terminal s -> Ok (next ++ [mkthread s r]) = Ok next' -> In y (stations next')).
    { intros T HX. assert (next' = next ++ [mkthread s r]) by congruence. subst next'. destruct l as [|s1 l].
      - destruct HP. unfold stations. rewrite map_app. apply in_or_app. right. left. reflexivity.
      - destruct HP as [HE _]. exfalso. eapply terminal_eps; eassumption. }
    assert (N : ~ terminal s -> exists s1 l', l = s1 :: l' /\ eps off s s1 /\ path off s1 l' y /\ NoDup (s1 :: l') /\ Good off s1 /\
                (forall x, In x (s1 :: l') -> ~ In x sh)).
    { intros NT. destruct l as [|s1 l]; [destruct HP; contradiction|]. exists s1, l. destruct HP as [HE HP]. inversion HN; subst.
      split; [reflexivity|]. split; [exact HE|]. split; [exact HP|]. split; [assumption|]. split; [eapply good_eps; eassumption|exact HS]. }
    assert (NT : match x with IBOL _ | IEOL _ | IJump _ | ISplit _ _ => ~ terminal s | _ => True end).
    { destruct x; try exact I; intros (x' & D' & M'); rewrite D in D'; inversion D'; subst x'; exact M'. }
    destruct S as [S | ->]; [destruct x; cbn in S; try contradiction|].
    + apply cassert_ok in H. destruct H as [_ H]. apply T; [eexists; split; [exact D|exact I]|exact H].
    + apply cassert_ok in H. destruct H as [_ H]. apply T; [eexists; split; [exact D|exact I]|exact H].
    + apply cassert_ok in H. destruct H as [_ H]. apply T; [eexists; split; [exact D|exact I]|exact H].
    + apply cassert_ok in H. destruct H as [_ H]. apply T; [eexists; split; [exact D|exact I]|exact H].
    + destruct (N NT) as (s1 & l' & -> & E & HP' & HN' & HG' & HS').
      pose proof (eps_inv _ _ _ _ E D) as HI. cbv iota in HI. destruct HI as [-> HI]. unfold bol in HI. rewrite HI in H. eapply IHg; try eassumption. intros x Ix. apply HS'. right. exact Ix.
    + destruct (N NT) as (s1 & l' & -> & E & HP' & HN' & HG' & HS').
      pose proof (eps_inv _ _ _ _ E D) as HI. cbv iota in HI. destruct HI as [-> HI]. unfold eol in HI. rewrite HI in H. eapply IHg; try eassumption. intros x Ix. apply HS'. right. exact Ix.
    + destruct (N NT) as (s1 & l' & -> & E & HP' & HN' & HG' & HS').
      pose proof (eps_inv _ _ _ _ E D) as HI. cbv iota in HI. subst s1. eapply IHg; try eassumption. intros x Ix. apply HS'. right. exact Ix.
    + destruct (N NT) as (s1 & l' & -> & E & HP' & HN' & HG' & HS'). bind H next1 H1.
      assert (E1 : eps off s alt) by (eapply eps_alt; eassumption). assert (E2 : eps off s next0) by (eapply eps_next; eassumption).
      assert (A1 : added off (mkthread alt r) next next1) by (eapply (proj1 (add_sound f)); [exact (good_eps _ _ _ G E1)|exact H1]).
      assert (A2 : added off (mkthread next0 r) next1 next') by (eapply (proj1 (add_sound f)); [exact (good_eps _ _ _ G E2)|exact H]).
      assert (HC : s1 = alt \/ s1 = next0) by exact (eps_inv _ _ _ _ E D).
      destruct HC as [-> | ->].
      * eapply added_stations; [exact A2|]. eapply IHa; [exact HG'|exact HT|exact H1|exact HP'|exact HN'|exact HS'|exact Ty].
      * eapply IHa; [exact HG'| |exact H|exact HP'|exact HN'|exact HS'|exact Ty]. eapply added_terminal; eassumption.
    + apply cassert_ok in H. destruct H as [_ H]. apply T; [eexists; split; [exact D|exact I]|exact H].
Qed.

Lemma good_path i s l y : Good i s -> path i s l y -> forall x, In x (s :: l) -> rs <= x <= q.
Proof.
  revert s. induction l as [|s1 l IH]; intros s G H x I.
  - destruct I as [<-|[]]. destruct (good_decode _ _ G) as (? & _ & _ & B). exact B.
  - destruct H as [E H]. destruct I as [<-|I]; [destruct (good_decode _ _ G) as (? & _ & _ & B); exact B|].
    apply (IH s1); [eapply good_eps; eassumption|exact H|exact I].
Qed.
Lemma add_all f s r i sh dup next next' : Good i s -> Forall (fun x => terminal (t_station x)) next -> (forall x, In x sh -> ~ rs <= x <= q) ->
  addthread f (mkthread s r) i sh dup next = Ok next' ->
  added i (mkthread s r) next next' /\ forall y, epss i s y -> terminal y -> In y (stations next').
Proof.
  intros G T HS H. split; [eapply (proj1 (add_sound f)); eassumption|]. intros y E Ty. destruct (epss_simple _ _ _ E) as (l & HP & HN).
  eapply (proj1 (add_complete f)); try eassumption. intros x I J. apply (HS x J). eapply good_path; eassumption.
Qed.
Lemma go_all f s r i sh next next' : Good i s -> Forall (fun x => terminal (t_station x)) next -> (forall x, In x sh -> ~ rs <= x <= q) ->
  go f (mkthread s r) i sh next = Ok next' ->
  added i (mkthread s r) next next' /\ forall y, epss i s y -> terminal y -> In y (stations next').
Proof.
  intros G T HS H. split; [eapply (proj2 (add_sound f)); eassumption|]. intros y E Ty. destruct (epss_simple _ _ _ E) as (l & HP & HN).
  eapply (proj2 (add_complete f)); try eassumption. intros x I J. apply (HS x J). eapply good_path; [exact G|exact HP|right; exact I].
Qed.

(** ** The best result *)
Definition Best (S : Z -> Z -> Prop) (r : result) : Prop :=
  match r_cap1 r with
  | None => forall o e, ~ S o e
  | Some e => S (r_cap0 r) e /\ forall o' e', S o' e' -> r_cap0 r < o' \/ (r_cap0 r = o' /\ e' <= e)
  end.
Lemma Best_ext S S' r : (forall o e, S o e <-> S' o e) -> Best S r -> Best S' r.
Proof.
  unfold Best. intros E. destruct (r_cap1 r).
  - intros [A B]. split; [apply E, A|]. intros o' e' H. apply B, E, H.
  - intros H o e HS. apply (H o e), E, HS.
Qed.
Lemma better_best S res r i : Best S res -> (forall o e, S o e -> e <= i) ->
  Best (fun o e => S o e \/ (o = r_cap0 r /\ e = i)) (if better res r i then mkresult (r_cap0 r) (Some i) (r_caps r) (r_counters r) else res).
Proof.
  unfold Best, better. intros H HI. destruct (r_cap1 res) as [e|] eqn:Er.
  - destruct H as [A B]. destruct (_ || _) eqn:E.
    + cbn [r_cap0 r_cap1]. split; [right; auto|]. intros o' e' [H|[-> ->]]; [|lia].
      specialize (HI _ _ H). destruct (B _ _ H) as [L|[L1 L2]]; lia.
    + rewrite Er. split; [left; exact A|]. intros o' e' [H|[-> ->]]; [apply B, H|]. specialize (HI _ _ A). lia.
  - cbn [r_cap0 r_cap1]. split; [right; auto|]. intros o' e' [X|[-> ->]]; [destruct (H _ _ X)|lia].
Qed.

(** ** Cycles *)
Variable St : Z -> Prop.
Hypothesis HSt : forall o, St o -> pos o.
Definition cap (x : thread) : Z := r_cap0 (t_result x).
Definition okth (i : Z) (x : thread) : Prop := terminal (t_station x) /\ St (cap x) /\ reach (rs, cap x) (t_station x, i).
Definition le_th (x y : thread) : Prop := cap x <= cap y.
Notation sorted := (StronglySorted le_th).
Lemma okth_good i x : okth i x -> Good i (t_station x).
Proof. intros (_ & S & H). exists (cap x). split; [apply HSt, S|exact H]. Qed.
Lemma okth_le i x : okth i x -> cap x <= i.
Proof. intros (_ & _ & n & H). apply (steps_off _ _ _ _ _ H). Qed.
Lemma okths i l : Forall (okth i) l -> Forall (fun x => terminal (t_station x)) l.
Proof. apply Forall_impl. unfold okth. tauto. Qed.
Lemma accept_q i x : okth i x -> (decode P (t_station x) = Ok IAccept <-> t_station x = q).
Proof.
  intros (T & S & H). split; intros E.
  - destruct (HB _ _ _ (HSt _ S) H) as [[_ (y & D & Sy)]|[E' _]]; [|exact E']. rewrite E in D. inversion D; subst. destruct Sy.
  - rewrite E. exact Hq.
Qed.
Lemma sorted_app (a b : list thread) : sorted a -> sorted b -> (forall x y, In x a -> In y b -> cap x <= cap y) -> sorted (a ++ b).
Proof.
  induction 1 as [|x a Ha IH Hx]; intros Hb H; [exact Hb|]. cbn [app]. constructor.
  - apply IH; [exact Hb|]. intros. apply H; [right|]; assumption.
  - apply Forall_app. split; [exact Hx|]. apply Forall_forall. intros y I. apply H; [left; reflexivity|exact I].
Qed.
Lemma sorted_same c l : (forall x, In x l -> cap x = c) -> sorted l.
Proof.
  induction l as [|x l IH]; intros H; constructor.
  - apply IH. intros y I. apply H. right. exact I.
  - apply Forall_forall. intros y I. unfold le_th. rewrite (H x), (H y); [lia|right; exact I|left; reflexivity].
Qed.

Lemma cycleS f th A i next res : cycle P h t g lk f (th :: A) i next res =
    do x <- decode P (t_station th);
    do y <- consume x (char_at t i);
    match y with
    | None =>
      let r := t_result th in
      cycle P h t g lk f A i next (if better res r i then mkresult (r_cap0 r) (Some i) (r_caps r) (r_counters r) else res)
    | Some None => cycle P h t g lk f A i next res
    | Some (Some n) =>
      do next <- addthread f (mkthread n (t_result th)) (i + 1) [] 0 next;
      cycle P h t g lk f A i next res
    end.
Proof. reflexivity. Qed.

Definition hits (A : list thread) (i : Z) (S : Z -> Z -> Prop) (o e : Z) : Prop :=
  S o e \/ (e = i /\ exists x, In x A /\ t_station x = q /\ cap x = o).
Lemma cycle_ok f A : forall i next res next' res', cycle P h t g lk f A i next res = Ok (next', res') ->
  Forall (okth i) A -> sorted A -> Forall (okth (i + 1)) next -> sorted next -> (forall x y, In x next -> In y A -> cap x <= cap y) ->
  Forall (okth (i + 1)) next' /\ sorted next' /\ incl next next' /\
  (forall x, In x next' -> In x next \/ exists y, In y A /\ cap x = cap y) /\
  (forall th x n y, In th A -> decode P (t_station th) = Ok x -> consume x (char_at t i) = Ok (Some (Some n)) -> epss (i + 1) n y -> terminal y ->
     exists z, In z next' /\ t_station z = y /\ cap z <= cap th) /\
  (forall S : Z -> Z -> Prop, (forall o e, S o e -> e <= i) -> Best S res -> Best (hits A i S) res').
Proof.
  induction A as [|th A IH]; intros i next res next' res' H HA SA HN SN HX.
  - cbn [cycle] in H. assert (next' = next) by congruence. assert (res' = res) by congruence. subst. clear H.
    split; [assumption|]. split; [assumption|]. split; [apply incl_refl|]. split; [auto|]. split; [intros ? ? ? ? []|].
    intros S _ HB'. eapply Best_ext; [|exact HB']. intros o e. unfold hits. split; [auto|]. intros [X|(_ & x & [] & _)]. exact X.
  - rewrite cycleS in H. bind H x D. bind H y C. inversion HA as [|? ? Hth HA']; subst. inversion SA as [|? ? SA' Hle]; subst.
    assert (HX' : forall x y, In x next -> In y A -> cap x <= cap y) by (intros; apply HX; [|right]; assumption).
    rewrite Forall_forall in Hle. destruct y as [[n|]|].
    + bind H next1 E.
      assert (Gn : Good (i + 1) n).
      { exists (cap th). destruct Hth as (_ & S & Rt). split; [apply HSt, S|]. eapply reach_trans; [exact Rt|].
        eapply reach_step; [eapply step_eat; eassumption|apply reach_refl]. }
      destruct (add_all _ _ _ _ _ _ _ _ Gn (okths _ _ HN) (fun x (I : In x []) => False_ind _ I) E) as [(add & E1 & FA) HC].
      cbn [t_result t_station] in FA. rewrite Forall_forall in FA.
      assert (Hc : forall x, In x add -> cap x = cap th) by (intros z Iz; destruct (FA z Iz) as (Ez & _); unfold cap; congruence).
      assert (HN1 : Forall (okth (i + 1)) next1).
      { rewrite E1. apply Forall_app. split; [exact HN|]. apply Forall_forall. intros z Iz. destruct (FA z Iz) as (Ez & Tz & Pz).
        split; [exact Tz|]. rewrite (Hc z Iz). destruct Hth as (_ & S & Rt). split; [exact S|].
        eapply reach_trans; [exact Rt|]. eapply reach_step; [eapply step_eat; eassumption|]. apply epss_reach, Pz. }
      assert (SN1 : sorted next1).
      { rewrite E1. apply sorted_app; [exact SN|apply (sorted_same (cap th)); exact Hc|]. intros a b Ia Ib. rewrite (Hc b Ib).
        apply HX; [exact Ia|left; reflexivity]. }
      assert (HX1 : forall x y, In x next1 -> In y A -> cap x <= cap y).
      { intros a b Ia Ib. rewrite E1 in Ia. apply in_app_or in Ia. destruct Ia as [Ia|Ia]; [apply HX'; assumption|].
        rewrite (Hc a Ia). apply Hle, Ib. }
      destruct (IH _ _ _ _ _ H HA' SA' HN1 SN1 HX1) as (B1 & B2 & B3 & B4 & B5 & B6).
      split; [exact B1|]. split; [exact B2|]. split; [intros z Iz; apply B3; rewrite E1; apply in_or_app; auto|]. split; [|split].
      * intros z Iz. destruct (B4 z Iz) as [I1|(y & Iy & Ey)]; [|right; exists y; split; [right; exact Iy|exact Ey]].
        rewrite E1 in I1. apply in_app_or in I1. destruct I1 as [I1|I1]; [left; exact I1|].
        right. exists th. split; [left; reflexivity|apply Hc, I1].
      * intros th0 x0 n0 y [<-|I0] D0 C0 P0 T0; [|eapply B5; eassumption].
        assert (x0 = x) by congruence. subst x0. assert (n0 = n) by congruence. subst n0.
        specialize (HC y P0 T0). unfold stations in HC. apply in_map_iff in HC. destruct HC as (z & Ez & Iz).
        exists z. split; [apply B3, Iz|]. split; [exact Ez|]. rewrite E1 in Iz. apply in_app_or in Iz. destruct Iz as [Iz|Iz]; [apply HX; [exact Iz|left; reflexivity]|].
        rewrite (Hc z Iz). lia.
      * intros S HS HB'. eapply Best_ext; [|apply B6; eassumption]. intros o e. unfold hits. split.
        { intros [X|(X & z & Iz & Y)]; [left; exact X|right]. split; [exact X|]. exists z. split; [right; exact Iz|exact Y]. }
        { intros [X|(X & z & [<-|Iz] & Y & Y')]; [left; exact X| |right; split; [exact X|]; exists z; auto].
          exfalso. apply (accept_q i th Hth) in Y. assert (x = IAccept) by congruence. subst x. discriminate C. }
    + destruct (IH _ _ _ _ _ H HA' SA' HN SN HX') as (B1 & B2 & B3 & B4 & B5 & B6).
      split; [exact B1|]. split; [exact B2|]. split; [exact B3|]. split; [|split].
      * intros z Iz. destruct (B4 z Iz) as [I1|(y & Iy & Ey)]; [left; exact I1|right; exists y; split; [right; exact Iy|exact Ey]].
      * intros th0 x0 n0 y [<-|I0] D0 C0 P0 T0; [|eapply B5; eassumption].
        assert (x0 = x) by congruence. subst x0. congruence.
      * intros S HS HB'. eapply Best_ext; [|apply B6; eassumption]. intros o e. unfold hits. split.
        { intros [X|(X & z & Iz & Y)]; [left; exact X|right]. split; [exact X|]. exists z. split; [right; exact Iz|exact Y]. }
        { intros [X|(X & z & [<-|Iz] & Y & Y')]; [left; exact X| |right; split; [exact X|]; exists z; auto].
          exfalso. apply (accept_q i th Hth) in Y. assert (x = IAccept) by congruence. subst x. discriminate C. }
    + assert (Ex : x = IAccept).
      { destruct x; try reflexivity; try discriminate C; cbn [consume] in C.
        - destruct (char_at t i =? 0); [discriminate|]. apply cassert_ok in C. destruct C. discriminate.
        - destruct (char_at t i =? 0); [discriminate|]. apply cassert_ok in C. destruct C as [_ C]. bind C b Eb. destruct b; discriminate. }
      subst x. pose proof (proj1 (accept_q i th Hth) D) as Eq. cbv zeta in H.
      destruct (IH _ _ _ _ _ H HA' SA' HN SN HX') as (B1 & B2 & B3 & B4 & B5 & B6).
      split; [exact B1|]. split; [exact B2|]. split; [exact B3|]. split; [|split].
      * intros z Iz. destruct (B4 z Iz) as [I1|(y & Iy & Ey)]; [left; exact I1|right; exists y; split; [right; exact Iy|exact Ey]].
      * intros th0 x0 n0 y [<-|I0] D0 C0 P0 T0; [|eapply B5; eassumption].
        assert (x0 = IAccept) by congruence. subst x0. discriminate C0.
      * intros S HS HB'. eapply Best_ext; [|apply (B6 (fun o e => S o e \/ (o = cap th /\ e = i)))].
        { intros o e. unfold hits. split.
          - intros [[X|[-> ->]]|(X & z & Iz & Y)]; [left; exact X|right|right].
            + split; [reflexivity|]. exists th. split; [left; reflexivity|auto].
            + split; [exact X|]. exists z. split; [right; exact Iz|exact Y].
          - intros [X|(X & z & [<-|Iz] & Y & Y')]; [auto|left; right; auto|right; split; [exact X|]; exists z; auto]. }
        { intros o e [X|[_ ->]]; [apply HS in X; exact X|lia]. }
        { apply better_best; assumption. }
Qed.

(** ** Entering the region, and the search loop around it *)
Variables (start search anyst jmp : Z).
Hypothesis Dstart : decode P start = Ok (ICapStart 0 rs).
Hypothesis Dsearch : decode P search = Ok (ISplit start anyst).
Hypothesis Dany : decode P anyst = Ok (IAny jmp).
Hypothesis Djmp : decode P jmp = Ok (IJump search).
Hypothesis Hout : start < rs /\ q < search /\ q < anyst /\ q < jmp.
Hypothesis Hdiff : search <> anyst /\ jmp <> anyst /\ jmp <> search.

Lemma not_dup th d l i : Forall (okth i) l -> ~ rs <= t_station th <= q -> duplicate th d 0 l = false.
Proof.
  intros F N. destruct (duplicate th d 0 l) eqn:E; [|reflexivity]. apply dup_in in E. unfold stations in E. apply in_map_iff in E.
  destruct E as (x & Ex & Ix). rewrite Forall_forall in F. destruct (good_decode _ _ (okth_good _ _ (F x Ix))) as (? & _ & _ & B). rewrite Ex in B. contradiction.
Qed.
Lemma not_shunt s sh : ~ In s sh -> existsb (Z.eqb s) sh = false.
Proof.
  intros N. destruct (existsb _ _) eqn:E; [|reflexivity]. apply existsb_exists in E. destruct E as (x & I & E). apply Z.eqb_eq in E. subst. contradiction.
Qed.
Lemma sorted_le l i : Forall (okth i) l -> forall x, In x l -> cap x <= i.
Proof. intros F x I. rewrite Forall_forall in F. apply okth_le, F, I. Qed.

Lemma enter_ok f r i sh next next' : addthread f (mkthread start r) i sh 0 next = Ok next' -> St i ->
  ~ In start sh -> (forall x, In x sh -> ~ rs <= x <= q) -> Forall (okth i) next -> sorted next ->
  Forall (okth i) next' /\ sorted next' /\ incl next next' /\
  (forall s, terminal s -> reach (rs, i) (s, i) -> In s (stations next')).
Proof.
  intros H Si Ns Hsh HN SN. destruct f as [|f]; [discriminate|]. rewrite addS in H. cbn [t_station] in H.
  rewrite not_shunt in H by exact Ns. apply cassert_ok in H. destruct H as [_ H]. rewrite (not_dup _ _ _ i) in H by (assumption || cbn; lia).
  destruct f as [|f]; [discriminate|]. rewrite goS in H. cbn [t_station t_result] in H. rewrite Dstart in H. cbn [obind] in H. cbv zeta in H.
  bind H r' Er. assert (Hr : r_cap0 r' = i) by (cbn in Er; assert (Hr : r' = mkresult i (r_cap1 r) (r_caps r) (r_counters r)) by congruence; rewrite Hr; reflexivity).
  assert (G : Good i rs) by (exists i; split; [apply HSt, Si|apply reach_refl]).
  assert (Hsh' : forall x, In x (start :: sh) -> ~ rs <= x <= q) by (intros x [<-|I]; [lia|apply Hsh, I]).
  destruct (go_all _ _ _ _ _ _ _ G (okths _ _ HN) Hsh' H) as [(add & -> & FA) HC]. cbn [t_result t_station] in FA. rewrite Forall_forall in FA.
  assert (Hc : forall x, In x add -> cap x = i) by (intros z Iz; destruct (FA z Iz) as (Ez & _); unfold cap; congruence).
  split; [|split; [|split]].
  - apply Forall_app. split; [exact HN|]. apply Forall_forall. intros z Iz. destruct (FA z Iz) as (Ez & Tz & Pz).
    split; [exact Tz|]. rewrite (Hc z Iz). split; [exact Si|]. apply epss_reach, Pz.
  - apply sorted_app; [exact SN|apply (sorted_same i); exact Hc|]. intros a b Ia Ib. rewrite (Hc b Ib). eapply sorted_le; eassumption.
  - intros z Iz. apply in_or_app. auto.
  - intros s Ts [n Hs]. apply HC; [|exact Ts]. apply (steps_off _ _ _ _ _ Hs). reflexivity.
Qed.

Lemma search_ok f r i sh next next' : go f (mkthread search r) i sh next = Ok next' -> St i ->
  (forall x, In x sh -> x = search \/ x = jmp) -> Forall (okth i) next -> sorted next ->
  exists A, next' = A ++ [mkthread anyst r] /\ Forall (okth i) A /\ sorted A /\ incl next A /\
    (forall s, terminal s -> reach (rs, i) (s, i) -> In s (stations A)).
Proof.
  intros H Si Hsh HN SN. destruct f as [|f]; [discriminate|]. rewrite goS in H. cbn [t_station t_result] in H. rewrite Dsearch in H. cbn [obind] in H. cbv zeta in H.
  bind H A E. apply enter_ok in E; [|exact Si|intros I; apply Hsh in I; lia|intros x I; apply Hsh in I; lia|exact HN|exact SN].
  destruct E as (B1 & B2 & B3 & B4). exists A. split; [|auto].
  destruct f as [|f]; [discriminate|]. rewrite addS in H. cbn [t_station] in H.
  rewrite not_shunt in H by (intros I; apply Hsh in I; lia). apply cassert_ok in H. destruct H as [_ H]. rewrite (not_dup _ _ _ i) in H by (assumption || cbn; lia).
  destruct f as [|f]; [discriminate|]. rewrite goS in H. cbn [t_station t_result] in H. rewrite Dany in H. cbn [obind] in H. cbv zeta in H.
  apply cassert_ok in H. destruct H as [_ H]. congruence.
Qed.

Definition Srch : Prop := forall i, St i -> (char_at t i = 0 -> forall o, St o -> o <= i) /\ (char_at t i <> 0 -> St (i + 1)).
Definition complete (i : Z) (A : list thread) : Prop :=
  forall o s, St o -> o <= i -> terminal s -> reach (rs, o) (s, i) -> exists x, In x A /\ t_station x = s /\ cap x <= o.
Definition Inv (i : Z) (cur : list thread) : Prop :=
  exists A (live : bool) r, cur = A ++ (if live then [mkthread anyst r] else []) /\ Forall (okth i) A /\ sorted A /\ complete i A /\
    if live then St i /\ Srch else forall o, St o -> o <= i.

Lemma cycle_app f A B : forall i next res x, cycle P h t g lk f (A ++ B) i next res = Ok x ->
  exists y, cycle P h t g lk f A i next res = Ok y /\ cycle P h t g lk f B i (fst y) (snd y) = Ok x.
Proof.
  induction A as [|th A IH]; intros i next res x H; [exists (next, res); auto|].
  cbn [app] in H. rewrite cycleS in *. bind H d D. bind H c C. rewrite D. cbn [obind]. rewrite C. cbn [obind]. destruct c as [[n|]|].
  - bind H n1 E. rewrite E. cbn [obind]. apply IH, H.
  - apply IH, H.
  - apply IH, H.
Qed.

Definition Sound (S : Z -> Z -> Prop) : Prop := forall o e, S o e -> St o /\ R o e.
Lemma cycles_ok f k : forall i cur res res' off' S, cycles P h t g lk f k cur i res = Ok (res', off') -> Inv i cur ->
  Best S res -> Sound S -> (forall o e, S o e -> e < i) -> (forall o e, St o -> R o e -> e < i -> exists o', o' <= o /\ S o' e) ->
  exists S', Best S' res' /\ Sound S' /\ forall o e, St o -> R o e -> exists o', o' <= o /\ S' o' e.
Proof.
  induction k as [|k IH]; intros i cur res res' off' S H (A & live & r & Ecur & HA & SA & CA & HL) HBest HSound HSlt HComp.
  - destruct cur as [|c cur0] eqn:E0; cbn [cycles] in H.
    + assert (res' = res) by congruence. subst res'. exists S. split; [exact HBest|]. split; [exact HSound|].
      intros o e So Ro. destruct A; [|discriminate]. destruct live; [discriminate|].
      destruct (Z.lt_ge_cases e i) as [L|L]; [apply HComp; assumption|]. exfalso.
      destruct (HF _ _ (HSt _ So) Ro) as [_ Rq]. destruct (through _ _ _ _ i Rq ltac:(split; [apply HL, So|lia]) q_terminal) as (s0 & T0 & R0).
      destruct (CA o s0 So (HL o So) T0 R0) as (x & [] & _).
    + destruct (i <=? len t) eqn:El; [discriminate|]. assert (res' = res) by congruence. subst res'. exists S. split; [exact HBest|]. split; [exact HSound|].
      intros o e So Ro. apply HComp; [exact So|exact Ro|]. destruct (HF _ _ (HSt _ So) Ro) as [Pe _]. unfold RxVm.pos, zl in Pe. unfold len in El. lia.
  - destruct cur as [|c cur0] eqn:E0; cbn [cycles] in H.
    + assert (res' = res) by congruence. subst res'. exists S. split; [exact HBest|]. split; [exact HSound|].
      intros o e So Ro. destruct A; [|discriminate]. destruct live; [discriminate|].
      destruct (Z.lt_ge_cases e i) as [L|L]; [apply HComp; assumption|]. exfalso.
      destruct (HF _ _ (HSt _ So) Ro) as [_ Rq]. destruct (through _ _ _ _ i Rq ltac:(split; [apply HL, So|lia]) q_terminal) as (s0 & T0 & R0).
      destruct (CA o s0 So (HL o So) T0 R0) as (x & [] & _).
    + destruct (i <=? len t) eqn:El.
      * bind H x Hx. destruct x as [next1 res1]. cbn [fst snd] in H. rewrite Ecur in Hx. apply cycle_app in Hx. destruct Hx as ([nA rA] & HcA & HcL). cbn [fst snd] in HcL.
        destruct (cycle_ok _ _ _ _ _ _ _ HcA HA SA ltac:(constructor) ltac:(constructor) ltac:(intros ? ? [])) as (B1 & B2 & _ & _ & B5 & B6).
        (* what the threads of A lead to *)
        assert (CN : forall o s, St o -> o <= i -> terminal s -> reach (rs, o) (s, i + 1) -> exists x, In x nA /\ t_station x = s /\ cap x <= o).
        { intros o s So Lo Ts Rs. destruct (last_eat _ _ _ _ Rs Lo) as (s0 & x & n & R0 & D0 & C0 & P0).
          destruct (CA o s0 So Lo (consume_terminal _ _ _ _ D0 C0) R0) as (th & Ith & Eth & Lth).
          destruct (B5 th x n s Ith ltac:(rewrite Eth; exact D0) C0 P0 Ts) as (z & Iz & Ez & Lz). exists z. split; [exact Iz|]. split; [exact Ez|lia]. }
        assert (G : res1 = rA /\ Inv (i + 1) next1).
        { destruct live.
          - rewrite cycleS in HcL. cbn [t_station t_result] in HcL. rewrite Dany in HcL. cbn [obind consume] in HcL.
            destruct HL as [Si HSr]. destruct (HSr i Si) as [H0 H1]. destruct (char_at t i =? 0) eqn:Ec.
            + cbn [obind cycle] in HcL. assert (next1 = nA) by congruence. assert (res1 = rA) by congruence. subst. split; [reflexivity|].
              exists nA, false, r. rewrite app_nil_r. split; [reflexivity|]. split; [exact B1|]. split; [exact B2|].
              assert (HO : forall o, St o -> o <= i) by (apply H0; lia). split; [intros o s So _; apply CN; [exact So|apply HO, So]|].
              intros o So. specialize (HO o So). lia.
            + cbn [obind] in HcL. bind HcL nx En. cbn [cycle] in HcL. assert (next1 = nx) by congruence. assert (res1 = rA) by congruence. subst next1 res1. clear HcL.
              split; [reflexivity|]. assert (Si1 : St (i + 1)) by (apply H1; lia).
              destruct f as [|f]; [discriminate|]. rewrite addS in En. cbn [t_station existsb] in En. apply cassert_ok in En. destruct En as [_ En].
              rewrite (not_dup _ _ _ (i + 1)) in En by (assumption || cbn; lia).
              destruct f as [|f]; [discriminate|]. rewrite goS in En. cbn [t_station t_result] in En. rewrite Djmp in En. cbn [obind] in En. cbv zeta in En.
              destruct (search_ok _ _ _ _ _ _ En Si1 ltac:(intros x [<-|[]]; auto) B1 B2) as (A' & -> & C1 & C2 & C3 & C4).
              exists A', true, r. split; [reflexivity|]. split; [exact C1|]. split; [exact C2|]. split; [|split; assumption].
              intros o s So Lo Ts Rs. destruct (Z.eq_dec o (i + 1)) as [->|Ne].
              * specialize (C4 s Ts Rs). unfold stations in C4. apply in_map_iff in C4. destruct C4 as (x & Ex & Ix). exists x. split; [exact Ix|]. split; [exact Ex|].
                eapply sorted_le; eassumption.
              * destruct (CN o s So ltac:(lia) Ts Rs) as (x & Ix & Y). exists x. split; [apply C3, Ix|exact Y].
          - cbn [cycle] in HcL. assert (next1 = nA) by congruence. assert (res1 = rA) by congruence. subst. split; [reflexivity|].
            exists nA, false, r. rewrite app_nil_r. split; [reflexivity|]. split; [exact B1|]. split; [exact B2|].
            split; [intros o s So _; apply CN; [exact So|apply HL, So]|]. intros o So. specialize (HL o So). lia. }
        destruct G as [-> HInv].
        apply (IH _ _ _ _ _ (hits A i S) H HInv).
        { apply B6; [|exact HBest]. intros o e X. apply HSlt in X. lia. }
        { intros o e [X|(-> & x & Ix & Ex & <-)]; [apply HSound, X|]. rewrite Forall_forall in HA. destruct (HA x Ix) as (_ & Sx & Rx).
          split; [exact Sx|]. rewrite Ex in Rx. destruct (HB _ _ _ (HSt _ Sx) Rx) as [[L _]|[_ Y]]; [lia|exact Y]. }
        { intros o e [X|(-> & _)]; [apply HSlt in X|]; lia. }
        { intros o e So Ro Le. destruct (Z.eq_dec e i) as [->|Ne].
          - destruct (HF _ _ (HSt _ So) Ro) as [_ Rq]. assert (Lo : o <= i) by (destruct Rq as [n Rq]; apply (steps_off _ _ _ _ _ Rq)).
            destruct (CA o q So Lo q_terminal Rq) as (x & Ix & Ex & Lx). exists (cap x). split; [exact Lx|]. right. split; [reflexivity|]. exists x. auto.
          - destruct (HComp o e So Ro ltac:(lia)) as (o' & Lo' & X). exists o'. split; [exact Lo'|]. left. exact X. }
      * assert (res' = res) by congruence. subst res'. exists S. split; [exact HBest|]. split; [exact HSound|].
        intros o e So Ro. apply HComp; [exact So|exact Ro|]. destruct (HF _ _ (HSt _ So) Ro) as [Pe _]. unfold RxVm.pos, zl in Pe. unfold len in El. lia.
Qed.

(** The result is the leftmost, and of those the longest *)
Definition chosen (r : result) : Prop :=
  match r_cap1 r with
  | None => forall o e, St o -> ~ R o e
  | Some e => St (r_cap0 r) /\ R (r_cap0 r) e /\ forall o' e', St o' -> R o' e' -> r_cap0 r < o' \/ (r_cap0 r = o' /\ e' <= e)
  end.
Lemma best_chosen S r : Best S r -> Sound S -> (forall o e, St o -> R o e -> exists o', o' <= o /\ S o' e) -> chosen r.
Proof.
  unfold Best, chosen. intros HBest HS HC. destruct (r_cap1 r) as [e|].
  - destruct HBest as [X Y]. destruct (HS _ _ X) as [Sx Rx]. split; [exact Sx|]. split; [exact Rx|].
    intros o' e' So' Ro'. destruct (HC _ _ So' Ro') as (o'' & L & Z''). destruct (Y _ _ Z'') as [L'|[E L']]; [left; lia|].
    destruct (Z.eq_dec o'' o') as [->|Ne]; [right; auto|left; lia].
  - intros o e So Ro. destruct (HC _ _ So Ro) as (o' & _ & X). exact (HBest _ _ X).
Qed.
Lemma no_best : Best (fun _ _ => False) no_result.
Proof. unfold Best. cbn. auto. Qed.

Lemma match_start f off x : match_from P h t g lk f start off = Ok x -> (forall o, St o <-> o = off) -> chosen (fst x).
Proof.
  intros H HS. unfold match_from in H. bind H cur E. destruct x as [res off']. cbn [fst].
  assert (Soff : St off) by (apply HS; reflexivity).
  destruct (enter_ok _ _ _ _ _ _ E Soff) as (A1 & A2 & _ & A4); [intros []|intros ? []|constructor|constructor|].
  destruct (cycles_ok _ _ _ _ _ _ _ (fun _ _ => False) H) as (S' & B1 & B2 & B3).
  - exists cur, false, no_result. rewrite app_nil_r. split; [reflexivity|]. split; [exact A1|]. split; [exact A2|]. split.
    + intros o s So _ Ts Rs. apply HS in So. subst o. specialize (A4 s Ts Rs). unfold stations in A4. apply in_map_iff in A4. destruct A4 as (z & Ez & Iz).
      exists z. split; [exact Iz|]. split; [exact Ez|]. eapply sorted_le; eassumption.
    + intros o So. apply HS in So. lia.
  - exact no_best.
  - intros o e [].
  - intros o e [].
  - intros o e So Ro Le. exfalso. apply HS in So. subst o. destruct (HF _ _ (HSt _ Soff) Ro) as [_ [n Rq]]. pose proof (proj1 (steps_off _ _ _ _ _ Rq)). lia.
  - eapply best_chosen; eassumption.
Qed.
Lemma match_search f off x : match_from P h t g lk f search off = Ok x -> St off -> Srch -> (forall o, St o -> off <= o) -> chosen (fst x).
Proof.
  intros H Soff HSr HS. unfold match_from in H. bind H cur E. destruct x as [res off']. cbn [fst].
  destruct f as [|f]; [discriminate|]. rewrite addS in E. cbn [t_station existsb duplicate] in E. apply cassert_ok in E. destruct E as [_ E].
  destruct (search_ok _ _ _ _ _ _ E Soff ltac:(intros x [<-|[]]; auto) ltac:(constructor) ltac:(constructor)) as (A & -> & A1 & A2 & _ & A4).
  destruct (cycles_ok _ _ _ _ _ _ _ (fun _ _ => False) H) as (S' & B1 & B2 & B3).
  - exists A, true. eexists. split; [reflexivity|]. split; [exact A1|]. split; [exact A2|]. split; [|split; assumption].
    intros o s So Lo Ts Rs. assert (o = off) by (specialize (HS o So); lia). subst o. specialize (A4 s Ts Rs). unfold stations in A4. apply in_map_iff in A4. destruct A4 as (z & Ez & Iz).
    exists z. split; [exact Iz|]. split; [exact Ez|]. eapply sorted_le; eassumption.
  - exact no_best.
  - intros o e [].
  - intros o e [].
  - intros o e So Ro Le. exfalso. specialize (HS o So). destruct (HF _ _ (HSt _ So) Ro) as [_ [n Rq]]. pose proof (proj1 (steps_off _ _ _ _ _ Rq)). lia.
  - eapply best_chosen; eassumption.
Qed.
End Run.
