(** Properties C23 (comparison) and C24 (search) of strings. *)
From Verif Require Import Base RefModel RefProofs UTF8Model UTF8Spec UTF8Proofs ArrayModel ArraySpec ArrayProofs StrModel StrSpec StrHeap StrState StrText StrOps StrEdit StrMore StrInv StrProps.
From Verif Require Import StrFindModel StrFindSpec StrFindProofs.
Ltac Zify.zify_post_hook ::= Z.div_mod_to_equations.

Lemma reached_inv n st : reached n st -> Inv st.
Proof. intros (os & OK & E). destruct (run_inv os (sinit n) (sinit_inv n) OK) as (st1 & E1 & I & _). rewrite E1 in E. injection E as <-. exact I. Qed.
Lemma sim_unchanged st h' : BG (sh st) -> BG h' -> hsim (sh st) h' -> unchanged st h'.
Proof.
  intros G G' [L S] u. unfold text. cbn [sv sh]. destruct (nth_error (sv st) u) as [s|]; [|reflexivity]. unfold val_text.
  specialize (S (v_body s)). unfold arr in S.
  destruct (nth_error h' (v_body s)) as [[x|]|]; destruct (nth_error (sh st) (v_body s)) as [[y|]|]; try reflexivity; try discriminate.
  injection S as S. unfold body_chars. rewrite S. reflexivity.
Qed.
Lemma var_ok n st v s : reached n st -> nth_error (sv st) v = Some s ->
  exists chs, vin (sh st) s chs /\ BG (sh st) /\ T st v = vtext s chs /\ body_text st v = chs /\ Z.of_nat (length (T st v)) = v_len s.
Proof.
  intros R E. apply reached_inv in R. destruct (inv_vok st v s R E) as (chs & V & _ & ET & EB & EL). exists chs. split; [exact V|]. split; [apply R|]. auto.
Qed.
Lemma text_good st s chs v : vin (sh st) s chs -> T st v = vtext s chs -> Forall good (T st v).
Proof. intros V ->. apply good_text. eapply vin_good. exact V. Qed.

(** ** C23 *)
(** operator== is equality of texts, for any two strings, slices included. *)
Theorem C23_equality_is_equality_of_texts :
  forall n st v w s t, reached n st -> nth_error (sv st) v = Some s -> nth_error (sv st) w = Some t ->
  exists h' b, equal (sh st) s t = Ok (h', b) /\ unchanged st h' /\ (b = true <-> T st v = T st w).
Proof.
  intros n st v w s t R EV EW. destruct (var_ok n st v s R EV) as (cs & V & G & TV & _ & LV). destruct (var_ok n st w t R EW) as (ct & W & _ & TW & _ & LW).
  unfold equal. destruct (Z.eqb_spec (v_len s) (v_len t)) as [E|E].
  - destruct (compare_ok (sh st) s t cs ct G V W) as (h' & -> & G' & S'); [right; rewrite <- TV, <- TW; lia|]. cbn [obind fst snd].
    eexists _, _. split; [reflexivity|]. split; [apply sim_unchanged; assumption|]. rewrite <- TV, <- TW.
    destruct (Z.eqb_spec (pcmp (T st v) (T st w ++ rest t ct)) 0) as [P|P].
    + assert (P0 := P). apply pcmp_0 in P0. destruct P0 as (r & P0). rewrite Z.eqb_eq.
      assert (EQ : T st v = T st w). { assert (A : firstn (length (T st v)) (T st w ++ rest t ct) = T st v) by (rewrite P0, firstn_app, Nat.sub_diag, firstn_all; cbn [firstn]; apply app_nil_r).
        rewrite firstn_app in A. replace (length (T st v) - length (T st w))%nat with 0%nat in A by lia. replace (length (T st v)) with (length (T st w)) in A by lia. rewrite firstn_all in A. cbn [firstn] in A. rewrite app_nil_r in A. congruence. }
      rewrite EQ. split; [reflexivity|lia].
    + rewrite Z.eqb_eq. split; [lia|]. intros EQ. exfalso. apply P, pcmp_0. exists (rest t ct). rewrite EQ. reflexivity.
  - eexists _, _. split; [reflexivity|]. split; [intros u; unfold text; reflexivity|]. split; [discriminate|]. intros EQ. rewrite EQ in LV. lia.
Qed.

(** compare() is 0 exactly for equal texts, when the left text has no NUL. *)
Theorem C23_compare_zero_means_equal_partial :
  forall n st v w s t, reached n st -> nth_error (sv st) v = Some s -> nth_error (sv st) w = Some t -> ~ In 0 (T st v) ->
  exists h' r, compare (sh st) s t = Ok (h', r) /\ unchanged st h' /\ (r = 0 <-> T st v = T st w).
Proof.
  intros n st v w s t R EV EW NZ. destruct (var_ok n st v s R EV) as (cs & V & G & TV & _ & LV). destruct (var_ok n st w t R EW) as (ct & W & _ & TW & _ & LW).
  destruct (compare_ok (sh st) s t cs ct G V W) as (h' & -> & G' & S'); [left; rewrite <- TV; exact NZ|]. eexists _, _. split; [reflexivity|]. split; [apply sim_unchanged; assumption|].
  rewrite <- TV, <- TW. destruct (Z.eqb_spec (pcmp (T st v) (T st w ++ rest t ct)) 0) as [P|P].
  - apply pcmp_0 in P. destruct P as (r & P). split; [|intros ->; lia]. intros E. symmetry. eapply same_start with (r := rest t ct) (q := r); [exact (text_good _ _ _ _ W TW)|exact (text_good _ _ _ _ V TV)|exact P|lia].
  - split; [contradiction|]. intros EQ. exfalso. apply P, pcmp_0. exists (rest t ct). rewrite EQ. reflexivity.
Qed.

(** Its sign is the lexicographic order by code point, when moreover nothing was
    cut off the end of the right-hand string, or the left one is not longer. *)
Theorem C23_compare_is_lexicographic_partial :
  forall n st v w s t, reached n st -> nth_error (sv st) v = Some s -> nth_error (sv st) w = Some t -> ~ In 0 (T st v) ->
  to_end st w \/ (length (T st v) <= length (T st w))%nat ->
  exists h' r, compare (sh st) s t = Ok (h', r) /\ unchanged st h' /\ sign r = lex (T st v) (T st w).
Proof.
  intros n st v w s t R EV EW NZ H. destruct (var_ok n st v s R EV) as (cs & V & G & TV & _ & LV). destruct (var_ok n st w t R EW) as (ct & W & _ & TW & BW & LW).
  destruct (compare_ok (sh st) s t cs ct G V W) as (h' & -> & G' & S'); [left; rewrite <- TV; exact NZ|]. eexists _, _. split; [reflexivity|]. split; [apply sim_unchanged; assumption|].
  rewrite <- TV, <- TW.
  assert (H' : rest t ct = [] \/ (length (T st v) <= length (T st w))%nat).
  { destruct H as [(t' & E & EE)|H]; [left|right; exact H]. rewrite EW in E. injection E as <-. unfold rest. rewrite BW in EE. rewrite EE, Nat2Z.id. apply skipn_all. }
  destruct (Z.eqb_spec (pcmp (T st v) (T st w ++ rest t ct)) 0) as [P|P].
  - apply pcmp_0 in P. destruct P as (r & P). eapply lex_prefix; [exact H'|exact P|exact (text_good _ _ _ _ V TV)|exact (text_good _ _ _ _ W TW)].
  - apply pcmp_lex; assumption.
Qed.

(** The six operators say how the texts compare. *)
Theorem C23_operators_partial :
  forall n st v w s t, reached n st -> nth_error (sv st) v = Some s -> nth_error (sv st) w = Some t -> ~ In 0 (T st v) ->
  to_end st w \/ (length (T st v) <= length (T st w))%nat ->
  exists h1 h2 h3 h4 h5 h6 eq ne lt le ge gt,
    equal (sh st) s t = Ok (h1, eq) /\ unequal (sh st) s t = Ok (h2, ne) /\ less (sh st) s t = Ok (h3, lt) /\
    less_eq (sh st) s t = Ok (h4, le) /\ greater_eq (sh st) s t = Ok (h5, ge) /\ greater (sh st) s t = Ok (h6, gt) /\
    Forall (unchanged st) [h1; h2; h3; h4; h5; h6] /\
    (eq = true <-> T st v = T st w) /\ (ne = true <-> T st v <> T st w) /\
    (lt = true <-> lex (T st v) (T st w) = Lt) /\ (le = true <-> lex (T st v) (T st w) <> Gt) /\
    (ge = true <-> lex (T st v) (T st w) <> Lt) /\ (gt = true <-> lex (T st v) (T st w) = Gt).
Proof.
  intros n st v w s t R EV EW NZ H. destruct (C23_equality_is_equality_of_texts n st v w s t R EV EW) as (h' & b & E & U & EQ). destruct (C23_compare_is_lexicographic_partial n st v w s t R EV EW NZ H) as (h2 & r & C & U2 & L).
  exists h', h', h2, h2, h2, h2, b, (negb b), (r <? 0), (r <=? 0), (r >=? 0), (r >? 0). unfold unequal, less, less_eq, greater_eq, greater. rewrite E, C. cbn [obind fst snd]. do 6 (split; [reflexivity|]).
  split; [repeat constructor; assumption|]. split; [exact EQ|]. split; [rewrite <- EQ; destruct b; cbn [negb]; split; congruence|]. rewrite <- L. unfold sign.
  destruct (Z.compare_spec r 0); repeat split; intros; try congruence; try lia.
Qed.

(** The order is total and transitive on such strings, so they can key ordered
    maps: exactly one of <, ==, > holds; < is transitive. *)
Theorem C23_order_laws_partial :
  forall n st u v w a b c, reached n st -> nth_error (sv st) u = Some a -> nth_error (sv st) v = Some b -> nth_error (sv st) w = Some c ->
  Forall (fun x => ~ In 0 (T st x) /\ to_end st x) [u; v; w] ->
  exists hab rab hba rba hbc rbc hac rac,
    compare (sh st) a b = Ok (hab, rab) /\ compare (sh st) b a = Ok (hba, rba) /\ compare (sh st) b c = Ok (hbc, rbc) /\ compare (sh st) a c = Ok (hac, rac) /\
    sign rba = CompOpp (sign rab) /\ (rab < 0 -> rbc < 0 -> rac < 0).
Proof.
  intros n st u v w a b c R EU EV EW F. inversion F as [|? ? [ZU TU] F1]; subst. inversion F1 as [|? ? [ZV TV] F2]; subst. inversion F2 as [|? ? [ZW TW] _]; subst.
  destruct (C23_compare_is_lexicographic_partial n st u v a b R EU EV ZU (or_introl TV)) as (h1 & r1 & E1 & _ & L1).
  destruct (C23_compare_is_lexicographic_partial n st v u b a R EV EU ZV (or_introl TU)) as (h2 & r2 & E2 & _ & L2).
  destruct (C23_compare_is_lexicographic_partial n st v w b c R EV EW ZV (or_introl TW)) as (h3 & r3 & E3 & _ & L3).
  destruct (C23_compare_is_lexicographic_partial n st u w a c R EU EW ZU (or_introl TW)) as (h4 & r4 & E4 & _ & L4).
  exists h1, r1, h2, r2, h3, r3, h4, r4. split; [exact E1|]. split; [exact E2|]. split; [exact E3|]. split; [exact E4|]. rewrite L1, L2. split; [apply lex_opp|].
  unfold sign in *. unfold Z.lt. rewrite L1, L3, L4. apply lex_trans.
Qed.

(** The static compare and equiv, meant for a std::map: a strict order (the
    reverse of operator<) and its equivalence, which is equality. *)
Theorem C23_map_order_partial :
  forall n st v w s t, reached n st -> nth_error (sv st) v = Some s -> nth_error (sv st) w = Some t -> ~ In 0 (T st v) ->
  to_end st w \/ (length (T st v) <= length (T st w))%nat ->
  exists h1 h2 b e, map_before (sh st) s t = Ok (h1, b) /\ map_equiv (sh st) s t = Ok (h2, e) /\ unchanged st h1 /\ unchanged st h2 /\
    (b = true <-> lex (T st v) (T st w) = Gt) /\ (e = true <-> T st v = T st w).
Proof.
  intros n st v w s t R EV EW NZ H. destruct (C23_compare_is_lexicographic_partial n st v w s t R EV EW NZ H) as (h1 & r & C & U & L).
  destruct (C23_compare_zero_means_equal_partial n st v w s t R EV EW NZ) as (h2 & r2 & C2 & U2 & Z2). assert (r2 = r) by congruence. subst r2.
  exists h1, h1, (r >? 0), (r =? 0). unfold map_before, map_equiv, compare_style. rewrite C. cbn [obind fst snd]. do 4 (split; [first [reflexivity|exact U]|]).
  rewrite <- L. unfold sign. split; [|rewrite Z.eqb_eq; exact Z2]. rewrite Z.gtb_lt. unfold Z.lt. rewrite (Z.compare_antisym r 0). destruct (r ?= 0); cbn; intuition discriminate.
Qed.
(** Case independent equality and natural comparison end the program, whatever
    the strings (also equal ones). *)
Theorem C23_styles_refuted : forall h s t, equal_ci h s t = Abort /\ compare_style CompareNatural h s t = Abort.
Proof. intros h s t. split; reflexivity. Qed.

Definition cmp_of (st : sstate) (v w : nat) : option Z :=
  match nth_error (sv st) v, nth_error (sv st) w with
  | Some s, Some t => match compare (sh st) s t with Ok r => Some (snd r) | _ => None end
  | _, _ => None
  end.
(** In general the order fails: "abc" and "abz".substr(0, 2) are each less than
    the other (the bytes after the slice are compared). *)
Theorem C23_compare_slice_refuted :
  exists st, srun (sinit 2) [SLit 0 [97; 98; 99] false; SLit 1 [97; 98; 122] false; SSubstr 1 1 0 2] = Ok st /\
    T st 0 = [97; 98; 99] /\ T st 1 = [97; 98] /\ cmp_of st 0 1 = Some (-1) /\ cmp_of st 1 0 = Some (-1).
Proof. eexists. split; [vm_compute; reflexivity|]. split; [vm_compute; reflexivity|]. split; [vm_compute; reflexivity|]. split; vm_compute; reflexivity. Qed.
(** ... and comparing "a\0b" with "a" reads past the end of "a". *)
Theorem C23_compare_nul_refuted :
  exists st s t, srun (sinit 2) [SBytes 0 [97; 0; 98] 0; SLit 1 [97] false] = Ok st /\ nth_error (sv st) 0 = Some s /\ nth_error (sv st) 1 = Some t /\
    compare (sh st) s t = UB.
Proof. do 3 eexists. split; [vm_compute; reflexivity|]. split; [vm_compute; reflexivity|]. split; [vm_compute; reflexivity|]. vm_compute. reflexivity. Qed.

(** Concrete strings that meet the hypotheses: "aé" < "a€" < "b". *)
Definition prog3 : list sop := [SLit 0 [97; 195; 169] false; SLit 1 [97; 226; 130; 172] false; SLit 2 [98; 99] false].
Lemma prog3_ok : run_ok (sinit 3) prog3.
Proof.
  assert (P : forall c, 0 <= c < 2^31 -> plain c) by (intros c Hc; unfold plain; lia). unfold prog3.
  next. { split; [exists [97; 233]; split; [reflexivity|repeat constructor; apply P; lia]|]. split; [cbn; intuition lia|cbn; lia]. }
  next. { split; [exists [97; 8364]; split; [reflexivity|repeat constructor; apply P; lia]|]. split; [cbn; intuition lia|cbn; lia]. }
  next. { split; [exists [98; 99]; split; [reflexivity|repeat constructor; apply P; lia]|]. split; [cbn; intuition lia|cbn; lia]. }
  exact Logic.I.
Qed.
Example C23_example : exists st, reached 3 st /\ T st 0 = [97; 233] /\ T st 1 = [97; 8364] /\ T st 2 = [98; 99] /\
  Forall (fun x => ~ In 0 (T st x) /\ to_end st x) [0; 1; 2]%nat /\ cmp_of st 0 1 = Some (-1) /\ cmp_of st 2 1 = Some 1 /\ cmp_of st 1 1 = Some 0.
Proof.
  eexists. split; [exists prog3; split; [exact prog3_ok|vm_compute; reflexivity]|].
  split; [vm_compute; reflexivity|]. split; [vm_compute; reflexivity|]. split; [vm_compute; reflexivity|].
  split; [|split; [vm_compute; reflexivity|split; vm_compute; reflexivity]].
  repeat constructor; try (vm_compute; intuition discriminate); (eexists; split; [vm_compute; reflexivity|vm_compute; reflexivity]).
Qed.

(** ** C24 *)
Lemma char_at_in h s chs i : vin h s chs -> 0 <= i < v_len s -> nth_error (vtext s chs) (Z.to_nat i) = Some (char_at s chs i).
Proof.
  intros V Hi. assert (L := vtext_len _ _ _ V). destruct V as (_ & O & _ & OL & _). unfold vtext, l_slice, char_at.
  rewrite nth_firstn. destruct (Nat.ltb_spec (Z.to_nat i) (Z.to_nat (v_len s))); [|lia]. rewrite nth_skipn. replace (Z.to_nat (v_off s) + Z.to_nat i)%nat with (Z.to_nat (v_off s + i)) by lia.
  apply nth_error_nth'. lia.
Qed.
Lemma has_char h s chs i ch : vin h s chs -> 0 <= i < v_len s -> ((ch =? char_at s chs i) = true <-> has (vtext s chs) ch i).
Proof. intros V Hi. unfold has. rewrite (char_at_in _ _ _ _ V Hi), Z.eqb_eq. split; congruence. Qed.
Lemma has_any_at h s chs i set want : vin h s chs -> 0 <= i < v_len s ->
  (Bool.eqb (existsb (Z.eqb (char_at s chs i)) set) want = true <-> if want then has_any (vtext s chs) set i else has_not (vtext s chs) set i).
Proof.
  intros V Hi. rewrite Bool.eqb_true_iff. assert (E := char_at_in _ _ _ _ V Hi).
  assert (X : existsb (Z.eqb (char_at s chs i)) set = true <-> In (char_at s chs i) set).
  { rewrite existsb_exists. split; [intros (x & I & Q); apply Z.eqb_eq in Q; subst; exact I|intros I; exists (char_at s chs i); split; [exact I|apply Z.eqb_refl]]. }
  destruct want.
  - rewrite X. unfold has_any, has. rewrite E. split; [intros I; eauto|intros (c & Q & I); injection Q as <-; exact I].
  - unfold has_not, has. rewrite E. destruct (existsb _ set) eqn:EX.
    + split; [discriminate|]. intros (c & Q & NI). injection Q as <-. exfalso. apply NI, X. reflexivity.
    + split; [|reflexivity]. intros _. eexists. split; [reflexivity|]. intros I. apply X in I. discriminate.
Qed.
Lemma next_char_at st v s chs : nth_error (sv st) v = Some s -> body_text st v = chs -> next_char st v = char_at s chs (v_len s).
Proof. intros E B. unfold next_char, char_at. rewrite E, B. reflexivity. Qed.

(** Transfer of the result from the code's test to the text's. *)
Lemma first_mono Q P lo len r : (forall i, lo <= i < len -> (Q i = true <-> P i)) -> lo <= len -> Q len = false ->
  found_first (fun p => Q p = true) lo (len + 1) r -> found_first P lo len r.
Proof.
  intros H L N [[-> R]|(B & QR & R)].
  - left. split; [reflexivity|]. intros p Hp HP. apply (R p ltac:(lia)). apply H; assumption.
  - assert (r <> len) by congruence. right. split; [lia|]. split; [apply H; [lia|exact QR]|]. intros p Hp HP. apply (R p Hp). apply H; [lia|exact HP].
Qed.
Lemma last_mono Q P n r : (forall i, 0 <= i < n -> (Q i = true <-> P i)) ->
  found_last (fun p => Q p = true) 0 n r -> found_last P 0 n r.
Proof.
  intros H [[-> R]|(B & QR & R)].
  - left. split; [reflexivity|]. intros p Hp HP. apply (R p ltac:(lia)). apply H; assumption.
  - right. split; [lia|]. split; [apply H; [lia|exact QR]|]. intros p Hp HP. apply (R p ltac:(lia)). apply H; [lia|exact HP].
Qed.

Lemma fwd_search n st v s chs test Q P after : reached n st -> nth_error (sv st) v = Some s -> vin (sh st) s chs -> BG (sh st) -> -1 <= after < 2^31 - 1 ->
  tests (sh st) s chs test Q (v_len s) -> (forall i, 0 <= i < v_len s -> (Q i = true <-> P i)) -> Q (v_len s) = false ->
  exists h' r, (do k <- after1 after; scan (scan_fuel s) (sh st) s k no_lim 1 test) = Ok (h', r) /\ unchanged st h' /\ found_first P (after + 1) (v_len s) r.
Proof.
  intros R EV V G HA TS H N. assert (SM := proj2 (vin_small _ _ _ V)). assert (L0 : 0 <= v_len s) by apply V. unfold after1. destruct (Z.ltb_spec (after + 1) (2^31)); [|lia]. cbn [obind].
  replace (u32 (after + 1)) with (after + 1) by (unfold u32; lia). assert (M : Z.min no_lim (v_len s) = v_len s) by (unfold no_lim; lia).
  destruct (scan_fwd (sh st) s chs no_lim test Q V ltac:(rewrite M; exact TS) SM (scan_fuel s) (sh st) (after + 1) G (hsim_refl _) ltac:(lia) ltac:(unfold scan_fuel; lia) ltac:(unfold scan_fuel; lia)) as (h' & r & E & G' & S' & F).
  exists h', r. split; [exact E|]. split; [apply sim_unchanged; assumption|]. rewrite M in F. destruct (Z.le_gt_cases (after + 1) (v_len s)).
  - eapply first_mono; [|exact H1|exact N|exact F]. intros i Hi. apply H. lia.
  - destruct F as [[-> F]|(B & _)]; [left; split; [reflexivity|intros; lia]|lia].
Qed.
Lemma bwd_search n st v s chs test Q P m : reached n st -> nth_error (sv st) v = Some s -> vin (sh st) s chs -> BG (sh st) -> 0 <= m <= v_len s ->
  tests (sh st) s chs test Q (v_len s) -> (forall i, 0 <= i < v_len s -> (Q i = true <-> P i)) ->
  exists h' r, scan (scan_fuel s) (sh st) s (u32 (m - 1)) no_lim (-1) test = Ok (h', r) /\ unchanged st h' /\ found_last P 0 m r.
Proof.
  intros R EV V G HM TS H. assert (SM := proj2 (vin_small _ _ _ V)).
  destruct (Z.eq_dec m 0) as [->|NZ].
  - exists (sh st), (-1). rewrite scan_beyond; [|unfold scan_fuel; lia|change (u32 (0 - 1)) with 4294967295; unfold no_lim; lia]. split; [reflexivity|]. split; [intros u; reflexivity|]. left. split; [reflexivity|]. intros; lia.
  - replace (u32 (m - 1)) with (m - 1) by (unfold u32; lia).
    destruct (scan_bwd (sh st) s chs test Q (v_len s) V TS SM ltac:(lia) (scan_fuel s) (sh st) (m - 1) G (hsim_refl _) ltac:(lia) ltac:(unfold scan_fuel; lia)) as (h' & r & E & G' & S' & F).
    exists h', r. split; [exact E|]. split; [apply sim_unchanged; assumption|]. replace (m - 1 + 1) with m in F by lia. eapply last_mono; [|exact F]. intros i Hi. apply H. lia.
Qed.

(** find(ch, after): the first position after [after] holding [ch], or -1; given
    that [ch] is not the character stored just after the string. *)
Theorem C24_find_character_partial :
  forall n st v s ch after, reached n st -> nth_error (sv st) v = Some s -> -1 <= after < 2^31 - 1 -> next_char st v <> ch ->
  exists h' r, find_char (sh st) s ch after = Ok (h', r) /\ unchanged st h' /\
    found_first (has (T st v) ch) (after + 1) (Z.of_nat (length (T st v))) r.
Proof.
  intros n st v s ch after R EV HA NC. destruct (var_ok n st v s R EV) as (chs & V & G & TV & BV & LV). rewrite LV, TV.
  eapply fwd_search; [exact R|exact EV|exact V|exact G|exact HA|apply tests_char; exact V| |].
  - intros i Hi. eapply has_char; eassumption.
  - cbv beta. rewrite <- (next_char_at st v s chs EV BV). apply Z.eqb_neq. congruence.
Qed.
(** rfind(ch, before): the last position before [before] (-1: the end); given
    that [before] is at most the length. *)
Theorem C24_rfind_character_partial :
  forall n st v s ch before, reached n st -> nth_error (sv st) v = Some s -> -1 <= before <= Z.of_nat (length (T st v)) ->
  exists h' r, rfind_char (sh st) s ch before = Ok (h', r) /\ unchanged st h' /\
    found_last (has (T st v) ch) 0 (if before =? -1 then Z.of_nat (length (T st v)) else before) r.
Proof.
  intros n st v s ch before R EV HB. destruct (var_ok n st v s R EV) as (chs & V & G & TV & BV & LV). rewrite LV in *. rewrite TV.
  assert (SM := proj2 (vin_small _ _ _ V)). assert (L0 : 0 <= v_len s) by apply V. unfold rfind_char.
  replace (if before =? -1 then v_len s else u32 before) with (if before =? -1 then v_len s else before) by (destruct (Z.eqb_spec before (-1)); [reflexivity|unfold u32; lia]).
  eapply bwd_search; [exact R|exact EV|exact V|exact G| |apply tests_char; exact V|].
  - destruct (Z.eqb_spec before (-1)); lia.
  - intros i Hi. eapply has_char; eassumption.
Qed.

(** findAny, findNot: the first position after [after] whose character is (is
    not) in the set; given that the character stored just after the string is
    not (is) in the set. *)
Theorem C24_find_any_partial :
  forall n st v w s t after, reached n st -> nth_error (sv st) v = Some s -> nth_error (sv st) w = Some t -> -1 <= after < 2^31 - 1 -> ~ In (next_char st v) (T st w) ->
  exists h' r, find_any (sh st) s t after = Ok (h', r) /\ unchanged st h' /\
    found_first (has_any (T st v) (T st w)) (after + 1) (Z.of_nat (length (T st v))) r.
Proof.
  intros n st v w s t after R EV EW HA NC. destruct (var_ok n st v s R EV) as (chs & V & G & TV & BV & LV). destruct (var_ok n st w t R EW) as (cw & W & _ & TW & _ & _). rewrite LV, TV, TW.
  eapply fwd_search; [exact R|exact EV|exact V|exact G|exact HA|apply tests_any; [exact V|exact W]| |].
  - intros i Hi. cbv beta. exact (has_any_at _ _ _ _ _ true V Hi).
  - cbv beta. rewrite <- (next_char_at st v s chs EV BV). destruct (existsb _ (vtext t cw)) eqn:E; [|reflexivity]. exfalso. apply NC. rewrite TW. apply existsb_exists in E. destruct E as (x & I & Q). apply Z.eqb_eq in Q. congruence.
Qed.
Theorem C24_find_not_partial :
  forall n st v w s t after, reached n st -> nth_error (sv st) v = Some s -> nth_error (sv st) w = Some t -> -1 <= after < 2^31 - 1 -> In (next_char st v) (T st w) ->
  exists h' r, find_not (sh st) s t after = Ok (h', r) /\ unchanged st h' /\
    found_first (has_not (T st v) (T st w)) (after + 1) (Z.of_nat (length (T st v))) r.
Proof.
  intros n st v w s t after R EV EW HA NC. destruct (var_ok n st v s R EV) as (chs & V & G & TV & BV & LV). destruct (var_ok n st w t R EW) as (cw & W & _ & TW & _ & _). rewrite LV, TV, TW.
  eapply fwd_search; [exact R|exact EV|exact V|exact G|exact HA|apply tests_any; [exact V|exact W]| |].
  - intros i Hi. cbv beta. exact (has_any_at _ _ _ _ _ false V Hi).
  - cbv beta. rewrite <- (next_char_at st v s chs EV BV). rewrite TW in NC. replace (existsb (Z.eqb (next_char st v)) (vtext t cw)) with true; [reflexivity|].
    symmetry. apply existsb_exists. exists (next_char st v). split; [exact NC|apply Z.eqb_refl].
Qed.
Theorem C24_rfind_any_not_partial :
  forall n st v w s t before, reached n st -> nth_error (sv st) v = Some s -> nth_error (sv st) w = Some t -> -1 <= before <= Z.of_nat (length (T st v)) ->
  (exists h' r, rfind_any (sh st) s t before = Ok (h', r) /\ unchanged st h' /\
    found_last (has_any (T st v) (T st w)) 0 (if before =? -1 then Z.of_nat (length (T st v)) else before) r) /\
  (exists h' r, rfind_not (sh st) s t before = Ok (h', r) /\ unchanged st h' /\
    found_last (has_not (T st v) (T st w)) 0 (if before =? -1 then Z.of_nat (length (T st v)) else before) r).
Proof.
  intros n st v w s t before R EV EW HB. destruct (var_ok n st v s R EV) as (chs & V & G & TV & BV & LV). destruct (var_ok n st w t R EW) as (cw & W & _ & TW & _ & _). rewrite LV in *. rewrite TV, TW.
  assert (SM := proj2 (vin_small _ _ _ V)). assert (L0 : 0 <= v_len s) by apply V. unfold rfind_any, rfind_not.
  replace (if before =? -1 then v_len s else u32 before) with (if before =? -1 then v_len s else before) by (destruct (Z.eqb_spec before (-1)); [reflexivity|unfold u32; lia]).
  assert (E : (if before =? -1 then Ok (u32 (v_len s - 1)) else before1 before) = Ok (u32 ((if before =? -1 then v_len s else before) - 1))).
  { destruct (Z.eqb_spec before (-1)); [reflexivity|]. unfold before1. destruct (Z.leb_spec (-2^31) (before - 1)); [reflexivity|lia]. }
  rewrite E. cbn [obind]. assert (HM : 0 <= (if before =? -1 then v_len s else before) <= v_len s) by (destruct (Z.eqb_spec before (-1)); lia).
  split; (eapply bwd_search; [exact R|exact EV|exact V|exact G|exact HM|apply tests_any; [exact V|exact W]|]); intros i Hi; cbv beta.
  - exact (has_any_at _ _ _ _ _ true V Hi).
  - exact (has_any_at _ _ _ _ _ false V Hi).
Qed.

(** Substrings *)
Lemma occurs_iff h s chs u i : vin h s chs -> 0 <= i -> i + Z.of_nat (length u) <= v_len s ->
  (firstn (length u) (skipn (Z.to_nat (v_off s + i)) chs) = u <-> occurs (vtext s chs) u i).
Proof.
  intros V Hi HL. assert (L := vtext_len _ _ _ V). assert (FS := from_split _ _ _ V). assert (O : 0 <= v_off s) by apply V.
  assert (E : firstn (length u) (skipn (Z.to_nat (v_off s + i)) chs) = firstn (length u) (skipn (Z.to_nat i) (vtext s chs))).
  { rewrite Z2Nat.inj_add by lia. rewrite <- ArrayOps.skipn_skipn, FS, skipn_app, firstn_app. replace (length u - length (skipn (Z.to_nat i) (vtext s chs)))%nat with 0%nat by (rewrite skipn_length; lia). cbn [firstn]. apply app_nil_r. }
  rewrite E. split.
  - intros Q. exists (firstn (Z.to_nat i) (vtext s chs)), (skipn (length u) (skipn (Z.to_nat i) (vtext s chs))). rewrite <- Q at 1. rewrite firstn_skipn, firstn_skipn. split; [reflexivity|]. rewrite firstn_length. lia.
  - intros (a & b & -> & LA). replace (Z.to_nat i) with (length a) by lia. rewrite skipn_app, skipn_all, Nat.sub_diag. cbn [skipn app]. rewrite firstn_app, firstn_all, Nat.sub_diag. cbn [firstn]. apply app_nil_r.
Qed.
Lemma occurs_bound t u i : occurs t u i -> 0 <= i /\ i + Z.of_nat (length u) <= Z.of_nat (length t).
Proof. intros (a & b & -> & <-). rewrite !app_length. lia. Qed.
Lemma no_long_occurrence h s chs u i : vin h s chs -> rest s chs = [] -> v_len s < Z.of_nat (length u) -> 0 <= i <= v_len s ->
  firstn (length u) (skipn (Z.to_nat (v_off s + i)) chs) <> u.
Proof.
  intros V E H Hi Q. assert (LL : length (firstn (length u) (skipn (Z.to_nat (v_off s + i)) chs)) = length u) by (rewrite Q; reflexivity).
  rewrite firstn_length, skipn_length in LL. unfold rest in E. assert (X : length (skipn (Z.to_nat (v_off s + v_len s)) chs) = 0%nat) by (rewrite E; reflexivity). rewrite skipn_length in X.
  assert (O : 0 <= v_off s) by apply V. lia.
Qed.

(** find(needle, after): the first position after [after] at which the needle
    stands inside the string; given that the needle is not longer than the
    string, or the string reaches the end of its body and the needle has no NUL. *)
Theorem C24_find_string_partial :
  forall n st v w s t after, reached n st -> nth_error (sv st) v = Some s -> nth_error (sv st) w = Some t -> -1 <= after < 2^31 - 1 ->
  (length (T st w) <= length (T st v))%nat \/ to_end st v /\ ~ In 0 (T st w) ->
  exists h' r, find_str (sh st) s t after = Ok (h', r) /\ unchanged st h' /\
    found_first (occurs (T st v) (T st w)) (after + 1) (Z.of_nat (length (T st v)) + 1) r.
Proof.
  intros n st v w s t after R EV EW HA H. destruct (var_ok n st v s R EV) as (chs & V & G & TV & BV & LV). destruct (var_ok n st w t R EW) as (cw & W & _ & TW & _ & LW).
  assert (SM := proj2 (vin_small _ _ _ V)). assert (SW := proj2 (vin_small _ _ _ W)). assert (L0 : 0 <= v_len s) by apply V. assert (L1 : 0 <= v_len t) by apply W.
  unfold find_str, after1. destruct (Z.ltb_spec (after + 1) (2^31)); [|lia]. cbn [obind].
  destruct (nth_c_ok (sh st) t cw 0 G W ltac:(lia)) as (h1 & -> & G1 & S1 & W1). cbn [obind fst snd]. rewrite Z.add_0_r, (at_ptr_ok _ _ _ _ W1). cbn [obind].
  rewrite (from_split _ _ _ W), enc_app, <- app_assoc. replace (u32 (after + 1)) with (after + 1) by (unfold u32; lia).
  set (lim := u32 (v_len s - v_len t)). assert (LIM : v_len t <= v_len s /\ lim = v_len s - v_len t \/ v_len s < v_len t /\ v_len s < lim) by (unfold lim, u32; lia).
  assert (TS := tests_str (sh st) s chs t cw (Z.min lim (v_len s)) (enc (rest t cw) ++ [0]) V W).
  destruct (scan_fwd (sh st) s chs lim _ _ V (TS ltac:(rewrite <- TW; destruct H as [H|[_ H]]; [right; lia|left; exact H])) SM (scan_fuel s) h1 (after + 1) G1 S1 ltac:(lia) ltac:(unfold scan_fuel; lia) ltac:(unfold scan_fuel; lia)) as (h' & r & E & G' & S' & F).
  exists h', r. split; [exact E|]. split; [apply sim_unchanged; assumption|]. clear TS E. rewrite <- TW in *.
  assert (Q : forall i, 0 <= i <= Z.min lim (v_len s) -> ((if list_eq_dec Z.eq_dec (firstn (length (T st w)) (skipn (Z.to_nat (v_off s + i)) chs)) (T st w) then true else false) = true <-> occurs (T st v) (T st w) i)).
  { intros i Hi. rewrite TV. destruct LIM as [[A B]|[A B]].
    - rewrite <- (occurs_iff (sh st) s chs (T st w) i V ltac:(lia) ltac:(lia)). destruct (list_eq_dec _ _ _); split; congruence.
    - destruct H as [H|[(s' & ES & TE) _]]; [lia|]. rewrite EV in ES. injection ES as <-.
      destruct (list_eq_dec _ _ _) as [Q|Q]; [exfalso; eapply (no_long_occurrence (sh st) s chs (T st w) i); [exact V| |lia|lia|exact Q]; unfold rest; rewrite BV in TE; rewrite TE, Nat2Z.id; apply skipn_all|].
      split; [discriminate|]. intros OC. apply occurs_bound in OC. rewrite <- TV in OC. lia. }
  destruct F as [[-> F]|(B & QR & F)].
  - left. split; [reflexivity|]. intros p Hp OC. assert (BO := occurs_bound _ _ _ OC). apply (F p ltac:(lia)). apply Q; [lia|exact OC].
  - right. split; [lia|]. split; [apply Q; [lia|exact QR]|]. intros p Hp OC. apply (F p ltac:(lia)). apply Q; [lia|exact OC].
Qed.

(** rfind(needle, before): the last position before [before] (-1: anywhere) at
    which the needle stands inside the string; given that [before] is not 0 and
    the needle is not longer than the string. *)
Theorem C24_rfind_string_partial :
  forall n st v w s t before, reached n st -> nth_error (sv st) v = Some s -> nth_error (sv st) w = Some t -> before = -1 \/ 1 <= before < 2^31 ->
  (length (T st w) <= length (T st v))%nat ->
  exists h' r, rfind_str (sh st) s t before = Ok (h', r) /\ unchanged st h' /\
    found_last (occurs (T st v) (T st w)) 0 (if before =? -1 then Z.of_nat (length (T st v)) + 1 else before) r.
Proof.
  intros n st v w s t before R EV EW HB H. destruct (var_ok n st v s R EV) as (chs & V & G & TV & BV & LV). destruct (var_ok n st w t R EW) as (cw & W & _ & TW & _ & LW).
  assert (SM := proj2 (vin_small _ _ _ V)). assert (SW := proj2 (vin_small _ _ _ W)). assert (L0 : 0 <= v_len s) by apply V. assert (L1 : 0 <= v_len t) by apply W.
  unfold rfind_str. replace (u32 (v_len s - v_len t)) with (v_len s - v_len t) by (unfold u32; lia).
  assert (E : (if before =? -1 then Ok (v_len s - v_len t) else before1 before) = Ok (if before =? -1 then v_len s - v_len t else before - 1)).
  { destruct (Z.eqb_spec before (-1)); [reflexivity|]. unfold before1. destruct (Z.leb_spec (-2^31) (before - 1)); [|lia]. f_equal. unfold u32. lia. }
  rewrite E. cbn [obind]. set (b := if before =? -1 then v_len s - v_len t else before - 1). set (m := if b >? v_len s - v_len t then v_len s - v_len t else b).
  assert (HM : 0 <= m <= v_len s - v_len t /\ m <= b /\ (m = b \/ m = v_len s - v_len t)) by (unfold m, b; destruct (Z.eqb_spec before (-1)); match goal with |- context [?x >? ?y] => destruct (Z.gtb_spec x y) end; lia).
  destruct (nth_c_ok (sh st) t cw 0 G W ltac:(lia)) as (h1 & -> & G1 & S1 & W1). cbn [obind fst snd]. rewrite Z.add_0_r, (at_ptr_ok _ _ _ _ W1). cbn [obind].
  rewrite (from_split _ _ _ W), enc_app, <- app_assoc.
  assert (TS := tests_str (sh st) s chs t cw (v_len s - v_len t) (enc (rest t cw) ++ [0]) V W ltac:(right; lia)).
  destruct (scan_bwd (sh st) s chs _ _ (v_len s - v_len t) V TS SM ltac:(lia) (scan_fuel s) h1 m G1 S1 ltac:(lia) ltac:(unfold scan_fuel; lia)) as (h' & r & ER & G' & S' & F).
  exists h', r. split; [exact ER|]. split; [apply sim_unchanged; assumption|]. clear TS ER. rewrite <- TW in *.
  assert (Q : forall i, 0 <= i <= v_len s - v_len t -> ((if list_eq_dec Z.eq_dec (firstn (length (T st w)) (skipn (Z.to_nat (v_off s + i)) chs)) (T st w) then true else false) = true <-> occurs (T st v) (T st w) i)).
  { intros i Hi. rewrite TV. rewrite <- (occurs_iff (sh st) s chs (T st w) i V ltac:(lia) ltac:(lia)). destruct (list_eq_dec _ _ _); split; congruence. }
  assert (HH : forall p, p < (if before =? -1 then Z.of_nat (length (T st v)) + 1 else before) -> occurs (T st v) (T st w) p -> p < m + 1).
  { intros p Hp OC. apply occurs_bound in OC. unfold b in HM. destruct (Z.eqb_spec before (-1)); lia. }
  assert (HB2 : m < (if before =? -1 then Z.of_nat (length (T st v)) + 1 else before)) by (unfold b in HM; destruct (Z.eqb_spec before (-1)); lia).
  destruct F as [[-> F]|(B & QR & F)].
  - left. split; [reflexivity|]. intros p Hp OC. assert (BO := occurs_bound _ _ _ OC). apply (F p ltac:(split; [lia|apply HH; [lia|exact OC]])). apply Q; [lia|exact OC].
  - right. split; [lia|]. split; [apply Q; [lia|exact QR]|]. intros p Hp OC. assert (BO := occurs_bound _ _ _ OC). apply (F p ltac:(split; [lia|apply HH; [lia|exact OC]])). apply Q; [lia|exact OC].
Qed.

(** What fails in general. *)
Definition on2 (st : sstate) (v w : nat) (f : sheap -> sval -> sval -> outcome (sheap * Z)) : option Z :=
  match nth_error (sv st) v, nth_error (sv st) w with
  | Some s, Some t => match f (sh st) s t with Ok r => Some (snd r) | _ => None end
  | _, _ => None
  end.
(** Searches for a character look at the one after the string: in
    "abc".substr(0, 2), 'c' is found at 2; in "aaa", findNot("a") is 3. *)
Theorem C24_find_beyond_end_refuted :
  exists st, srun (sinit 3) [SLit 0 [97; 98; 99] false; SLit 1 [97; 97; 97] false; SLit 2 [97] false; SSubstr 0 0 0 2] = Ok st /\
    T st 0 = [97; 98] /\ on2 st 0 2 (fun h s _ => find_char h s 99 (-1)) = Some 2 /\
    T st 1 = [97; 97; 97] /\ T st 2 = [97] /\ on2 st 1 2 (fun h s t => find_not h s t (-1)) = Some 3.
Proof.
  eexists. split; [vm_compute; reflexivity|]. split; [vm_compute; reflexivity|]. split; [vm_compute; reflexivity|]. split; [vm_compute; reflexivity|]. split; vm_compute; reflexivity.
Qed.
(** rfind with [before] beyond the string finds nothing: 'a' in "abc" before 5. *)
Theorem C24_rfind_before_end_refuted :
  exists st, srun (sinit 1) [SLit 0 [97; 98; 99] false] = Ok st /\ T st 0 = [97; 98; 99] /\
    on2 st 0 0 (fun h s _ => rfind_char h s 97 5) = Some (-1).
Proof. eexists. split; [vm_compute; reflexivity|]. split; vm_compute; reflexivity. Qed.
(** A needle longer than the string is found across the string's end: "bcd" in
    "abcdef".substr(0, 2); rfind(needle, 0) looks everywhere. *)
Theorem C24_find_long_needle_refuted :
  exists st, srun (sinit 3) [SLit 0 [97; 98; 99; 100; 101; 102] false; SLit 1 [98; 99; 100] false; SSubstr 0 0 0 2; SLit 2 [97; 98] false] = Ok st /\
    T st 0 = [97; 98] /\ T st 1 = [98; 99; 100] /\ on2 st 0 1 (fun h s t => find_str h s t (-1)) = Some 1 /\
    T st 2 = [97; 98] /\ on2 st 0 2 (fun h s t => rfind_str h s t 0) = Some 0.
Proof.
  eexists. split; [vm_compute; reflexivity|]. split; [vm_compute; reflexivity|]. split; [vm_compute; reflexivity|]. split; [vm_compute; reflexivity|]. split; vm_compute; reflexivity.
Qed.

(** The hypotheses are met, and the answers are right, e.g. here (in "aé",
    "a€", "bc"): *)
Example C24_example : exists st, reached 3 st /\ next_char st 1 <> 8364 /\ to_end st 1 /\
  on2 st 1 0 (fun h s _ => find_char h s 8364 (-1)) = Some 1 /\ on2 st 1 0 (fun h s _ => find_char h s 233 (-1)) = Some (-1) /\
  on2 st 1 0 (fun h s t => find_any h s t (-1)) = Some 0 /\ on2 st 1 0 (fun h s t => rfind_not h s t (-1)) = Some 1 /\
  on2 st 1 0 (fun h s t => find_str h s t (-1)) = Some (-1) /\ on2 st 1 1 (fun h s t => rfind_str h s t (-1)) = Some 0.
Proof.
  eexists. split; [exists prog3; split; [exact prog3_ok|vm_compute; reflexivity]|].
  split; [vm_compute; discriminate|]. split; [eexists; split; [vm_compute; reflexivity|vm_compute; reflexivity]|].
  split; [vm_compute; reflexivity|]. split; [vm_compute; reflexivity|]. split; [vm_compute; reflexivity|]. split; [vm_compute; reflexivity|]. split; vm_compute; reflexivity.
Qed.

Print Assumptions C23_equality_is_equality_of_texts.
Print Assumptions C23_compare_zero_means_equal_partial.
Print Assumptions C23_compare_is_lexicographic_partial.
Print Assumptions C23_operators_partial.
Print Assumptions C23_order_laws_partial.
Print Assumptions C23_map_order_partial.
Print Assumptions C23_styles_refuted.
Print Assumptions C23_compare_slice_refuted.
Print Assumptions C23_compare_nul_refuted.
Print Assumptions C24_find_character_partial.
Print Assumptions C24_rfind_character_partial.
Print Assumptions C24_find_any_partial.
Print Assumptions C24_find_not_partial.
Print Assumptions C24_rfind_any_not_partial.
Print Assumptions C24_find_string_partial.
Print Assumptions C24_rfind_string_partial.
Print Assumptions C24_find_beyond_end_refuted.
Print Assumptions C24_rfind_before_end_refuted.
Print Assumptions C24_find_long_needle_refuted.
