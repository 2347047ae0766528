(** C68: StrRawBinary strings are lists of bytes. *)
From Verif Require Import Base RefModel RefProofs ArrayModel ArraySpec StrModel StrSpec StrState StrFindModel RawModel RawSpec RawProofs.

Lemma spec_len os ts : length (fold_left r_spec_step os ts) = length ts.
Proof. revert ts. induction os as [|o os IH]; intros ts; cbn [fold_left]; [reflexivity|]. rewrite IH. unfold r_spec_step. apply upd_length. Qed.
Lemma run_rel n os : r_run_ok (sinit n) os -> exists st, rrun (sinit n) os = Ok st /\ Rel st (r_spec n os) /\ length (sv st) = n.
Proof.
  intros OK. destruct (rrun_ok os _ _ (rinit_rel n) OK) as (st & E & RL). exists st. split; [exact E|]. split; [exact RL|].
  assert (L := proj1 (proj2 (proj2 (proj2 RL)))). rewrite spec_len, repeat_length in L. congruence.
Qed.

(** A program of literals, binary data of a given length, assignments, copies, substrings, insertions, +=,
    + of neighbours and asUTF8 runs without undefined behaviour, and afterwards every variable has
    the length, the byte count and the bytes that list operations give. *)
Theorem C68_programs_partial n os : r_run_ok (sinit n) os ->
  exists st, rrun (sinit n) os = Ok st /\ forall v, (v < n)%nat -> raw_reads st v (nth v (r_spec n os) []).
Proof.
  intros OK. destruct (run_rel n os OK) as (st & E & RL & L). exists st. split; [exact E|]. intros v HV. apply rel_reads; [exact RL|lia].
Qed.
Print Assumptions C68_programs_partial.

(** == is equality of the byte lists. *)
Theorem C68_equal n os st v w s t : r_run_ok (sinit n) os -> rrun (sinit n) os = Ok st ->
  nth_error (sv st) v = Some s -> nth_error (sv st) w = Some t ->
  exists q, r_equal (sh st) s t = Ok q /\ (q = true <-> nth v (r_spec n os) [] = nth w (r_spec n os) []).
Proof.
  intros OK E EV EW. destruct (run_rel n os OK) as (st' & E' & (_ & _ & _ & _ & F) & L). assert (st' = st) by congruence. subst st'.
  destruct (F _ _ EV) as (bs & V & <-). destruct (F _ _ EW) as (cs & W & <-). apply r_equal_ok; assumption.
Qed.
Print Assumptions C68_equal.

(** find(ch) is the first place where operator[] gives [ch]; if there is none it
    is -1, or the length (what follows the string in its body is looked at, too). *)
Theorem C68_find_partial n os st v s ch : r_run_ok (sinit n) os -> rrun (sinit n) os = Ok st -> nth_error (sv st) v = Some s ->
  exists r, r_find (sh st) s ch = Ok r /\
    match r_first ch (map seen (nth v (r_spec n os) [])) with
    | Some i => r = Z.of_nat i
    | None => r = -1 \/ r = Z.of_nat (length (nth v (r_spec n os) []))
    end.
Proof.
  intros OK E EV. destruct (run_rel n os OK) as (st' & E' & (_ & _ & _ & _ & F) & L). assert (st' = st) by congruence. subst st'.
  destruct (F _ _ EV) as (bs & V & <-). assert (RL := rbytes_len _ _ _ V). unfold r_find.
  destruct (r_find_loop_ok _ s bs ch V (length (rbytes s bs)) 0 (Z.to_nat (v_len s) + 2) ltac:(lia) ltac:(lia)) as (r & Q & H). exists r. split; [exact Q|]. cbn [skipn] in H.
  destruct (r_first ch _); [exact H|]. rewrite RL. exact H.
Qed.
Print Assumptions C68_find_partial.

(** asUTF8() points to the bytes, with a NUL after the last. *)
Theorem C68_as_utf8 n os st v s : r_run_ok (sinit n) os -> rrun (sinit n) os = Ok st -> nth_error (sv st) v = Some s ->
  exists h s' p m, r_as_utf8 (sh st) s = Ok (h, s', p) /\ sv_mem h s' = Ok m /\ 0 <= p /\
    skipn (Z.to_nat p) m = nth v (r_spec n os) [] ++ [0].
Proof.
  intros OK E EV. destruct (run_rel n os OK) as (st' & E' & (R & G & _ & _ & F) & L). assert (st' = st) by congruence. subst st'.
  destruct (F _ _ EV) as (bs & V & <-). destruct (take st v s EV R) as (hs & R1 & _).
  destruct (r_as_utf8_ok _ s hs bs G R1 V) as (h' & s' & cs & E1 & G' & V' & T' & _ & _ & W). exists h', s', (v_off s'), (cs ++ [0]). split; [exact E1|]. split; [eapply rin_mem; exact V'|].
  assert (V0 := V'). destruct V0 as (_ & O & LL & OL & _). split; [exact O|]. rewrite <- T'. unfold rbytes, l_slice. rewrite skipn_app. replace (Z.to_nat (v_off s') - length cs)%nat with 0%nat by lia. cbn [skipn].
  rewrite firstn_all2 by (rewrite skipn_length; lia). reflexivity.
Qed.
Print Assumptions C68_as_utf8.

(** The hypotheses are met by a program that uses every operation, with bytes
    above 127. *)
Definition tour : list rop :=
  [RLit 0 [0xC3; 0xA9; 0x41; 0xFF]; RBody 1 [0x80; 0; 7] 2; RCopy 2 0; RSubstr 3 0 1 2; RInsert 0 2 1; RAddEq 1 3; RAsUTF8 3; RAssign 2 1;
   RLit 3 []; RAddEq 3 0; RSubstr 1 0 1 2; RSubstr 2 0 3 1; RPlus 1 1 2; RSubstr 2 0 5 (-1)].
Definition at_frontb (st : sstate) (v : nat) : bool :=
  match nth_error (sv st) v with
  | Some s => match nth_error (sh st) (v_body s) with Some (Some x) => (v_off s =? 0) || (1 <? b_refs (sb_arr x)) | _ => false end
  | None => false
  end.
Definition roomb (st : sstate) (v w : nat) : bool :=
  match nth_error (sv st) v, nth_error (sv st) w with
  | Some s, Some t => match nth_error (sh st) (v_body s) with Some (Some x) => b_num (sb_arr x) + v_len t <? 2^30 | _ => false end
  | _, _ => false
  end.
Definition step_okb (st : sstate) (o : rop) : bool :=
  forallb (fun v => (v <? length (sv st))%nat) (r_operands o) &&
  match o with
  | RLit _ bs => forallb (fun b => (0 <? b) && (b <? 256)) bs && (Z.of_nat (length bs) <? 2^30)
  | RBody _ data len => forallb (fun b => (0 <=? b) && (b <? 256)) data && (0 <? len) && (len <? 2^30) && (len <? Z.of_nat (length data))
  | RAssign _ _ | RCopy _ _ | RAsUTF8 _ => true
  | RSubstr _ _ at_ len => (0 <=? at_) && (at_ <? 2^32) && (-2^31 <=? len) && (len <? 2^31)
  | RInsert v pos w => negb (v =? w)%nat && at_frontb st v && roomb st v w &&
      match nth_error (sv st) v with Some s => (0 <? v_len s) && (0 <=? pos) && (pos <=? v_len s) | None => false end
  | RAddEq v w => negb (v =? w)%nat && at_frontb st v && roomb st v w
  | RPlus _ v w =>
      match nth_error (sv st) v, nth_error (sv st) w with
      | Some s, Some t => (v_body s =? v_body t)%nat && (v_off t =? v_off s + v_len s)
      | _, _ => false
      end
  | _ => false
  end.
Fixpoint run_okb (st : sstate) (os : list rop) : bool :=
  match os with
  | [] => true
  | o :: r => step_okb st o && match rstep st o with Ok st' => run_okb st' r | _ => true end
  end.
Lemma at_frontb_ok st v : at_frontb st v = true -> at_front st v.
Proof.
  unfold at_frontb, at_front. destruct (nth_error (sv st) v) as [s|]; [|discriminate]. destruct (nth_error (sh st) (v_body s)) as [[x|]|] eqn:E; try discriminate.
  intros H. exists s, x. split; [reflexivity|]. split; [exact E|]. lia.
Qed.
Lemma roomb_ok st v w : roomb st v w = true -> room st v w.
Proof.
  unfold roomb, room. destruct (nth_error (sv st) v) as [s|]; [|discriminate]. destruct (nth_error (sv st) w) as [t|]; [|discriminate]. destruct (nth_error (sh st) (v_body s)) as [[x|]|] eqn:E; try discriminate.
  intros H. exists s, x, t. split; [reflexivity|]. split; [exact E|]. split; [reflexivity|]. lia.
Qed.
Lemma run_okb_ok os : forall st, run_okb st os = true -> r_run_ok st os.
Proof.
  induction os as [|o os IH]; intros st H; cbn [run_okb r_run_ok] in *; [exact Logic.I|]. apply andb_true_iff in H as [H1 H2]. unfold step_okb in H1. apply andb_true_iff in H1 as [H0 H1].
  split; [|split].
  - apply Forall_forall. intros v Hv. rewrite forallb_forall in H0. specialize (H0 v Hv). apply Nat.ltb_lt. exact H0.
  - destruct o; cbn [r_step_ok]; try discriminate; try exact Logic.I; repeat rewrite andb_true_iff in H1.
    + destruct H1 as [H1 HL]. split; [|lia]. apply Forall_forall. intros b Hb. rewrite forallb_forall in H1. specialize (H1 b Hb). cbv beta in H1. lia.
    + destruct H1 as (((H1 & HL) & HM) & HD). split; [|lia]. apply Forall_forall. intros b Hb. rewrite forallb_forall in H1. specialize (H1 b Hb). cbv beta in H1. lia.
    + lia.
    + destruct H1 as (((H1 & HF) & HR) & HX). destruct (nth_error (sv st) v) as [s|] eqn:EV; [|discriminate]. rewrite !andb_true_iff in HX.
      split; [intros ->; rewrite Nat.eqb_refl in H1; discriminate|]. split; [apply at_frontb_ok; exact HF|]. split; [apply roomb_ok; exact HR|].
      split; [intros (s2 & E2 & Z0); exfalso; assert (s2 = s) by congruence; subst s2; lia|]. exists s. split; [reflexivity|lia].
    + destruct H1 as ((H1 & HF) & HR). split; [intros ->; rewrite Nat.eqb_refl in H1; discriminate|]. split; [apply at_frontb_ok; exact HF|apply roomb_ok; exact HR].
    + unfold adjacent. destruct (nth_error (sv st) v) as [s|]; [|discriminate]. destruct (nth_error (sv st) w) as [t|]; [|discriminate]. apply andb_true_iff in H1 as [H1 H3].
      exists s, t. split; [reflexivity|]. split; [reflexivity|]. split; [apply Nat.eqb_eq; exact H1|lia].
  - intros st' E. rewrite E in H2. apply IH. exact H2.
Qed.
Example C68_tour : r_run_ok (sinit 4) tour /\ r_spec 4 tour =
  [[0xC3; 0xA9; 0x80; 0; 0x41; 0xFF]; [0xA9; 0x80; 0]; [0xFF]; [0xC3; 0xA9; 0x80; 0; 0x41; 0xFF]].
Proof. split; [apply run_okb_ok; vm_compute; reflexivity|vm_compute; reflexivity]. Qed.
Example C68_tour_reads st : rrun (sinit 4) tour = Ok st -> raw_reads st 2 [0xFF].
Proof. intros E. destruct (C68_programs_partial 4 tour (proj1 C68_tour)) as (st' & E' & H). assert (st' = st) by congruence. subst st'. specialize (H 2%nat ltac:(lia)). rewrite (proj2 C68_tour) in H. exact H. Qed.

(** Find and == on a program's result *)
Definition ask (st : outcome sstate) (v : nat) {A} (k : sheap -> sval -> outcome A) : outcome A :=
  do t <- st; match nth_error (sv t) v with Some s => k (sh t) s | None => UB end.
Example C68_find_ok : ask (rrun (sinit 4) tour) 0 (fun h s => r_find h s 0x41) = Ok 4.
Proof. vm_compute. reflexivity. Qed.

(** find() takes a UCS4, and a byte above 127 is compared as a negative char:
    StrVal("\xE9", StrRawBinary).find(0xE9) is -1. *)
Theorem C68_find_high_refuted : ask (rrun (sinit 1) [RLit 0 [0xE9]]) 0 (fun h s => r_find h s 0xE9) = Ok (-1).
Proof. vm_compute. reflexivity. Qed.
Print Assumptions C68_find_high_refuted.

(** operator+ makes its result UTF-8: raw C3 A9 plus raw 78 has length 2, not 3. *)
Theorem C68_plus_refuted : exists st, rrun (sinit 3) [RLit 0 [0xC3; 0xA9]; RLit 1 [0x78]; RPlus 2 0 1] = Ok st /\
  map v_len (sv st) = [2; 1; 2].
Proof. eexists. split; vm_compute; reflexivity. Qed.
Print Assumptions C68_plus_refuted.

(** Inserting raw bytes into an empty string makes a string that is not raw: it
    claims length 2 and its first character is U+00E9. *)
Theorem C68_insert_empty_refuted : exists st, rrun (sinit 2) [RLit 1 [0xC3; 0xA9]; RInsert 0 0 1] = Ok st /\
  map v_len (sv st) = [2; 2] /\ ask (Ok st) 0 (fun h s => do r <- r_index h s 0; Ok (snd r)) = Ok 0xE9.
Proof. eexists. split; [vm_compute; reflexivity|split; vm_compute; reflexivity]. Qed.
Print Assumptions C68_insert_empty_refuted.

(** toLower() on raw bytes decodes them as UTF-8: C3 89 becomes a string of length 1. *)
Theorem C68_to_case_refuted : exists st, rrun (sinit 1) [RLit 0 [0xC3; 0x89]; RToCase 0 false] = Ok st /\ map v_len (sv st) = [1].
Proof. eexists. split; vm_compute; reflexivity. Qed.
Print Assumptions C68_to_case_refuted.

(** A UTF-8 string appended to a raw one brings its characters' count, not its
    bytes': raw 41 += "\xC3\xA9" has length 2 and 3 bytes, so one is cut off. *)
Theorem C68_mixed_refuted : exists st, rrun (sinit 2) [RLit 0 [0x41]; RText 1 [0xC3; 0xA9]; RAddEq 0 1] = Ok st /\
  map v_len (sv st) = [2; 1] /\ ask (Ok st) 0 (fun h s => sv_mem h s) = Ok [0x41; 0xC3; 0xA9; 0].
Proof. eexists. split; [vm_compute; reflexivity|split; vm_compute; reflexivity]. Qed.
Print Assumptions C68_mixed_refuted.

(** find() also looks at the byte after the last: "ab" of "abc" finds 'c' at 2. *)
Theorem C68_find_past_refuted : ask (rrun (sinit 2) [RLit 0 [97; 98; 99]; RSubstr 1 0 0 2]) 1 (fun h s => r_find h s 99) = Ok 2.
Proof. vm_compute. reflexivity. Qed.
Print Assumptions C68_find_past_refuted.

(** StrBody(data, StrRawBinary, len) reads len + 1 bytes of the caller's data. *)
Theorem C68_overread_refuted : rrun (sinit 1) [RBody 0 [1; 2] 2] = UB /\ exists st, rrun (sinit 1) [RBody 0 [1; 2; 3] 2] = Ok st.
Proof. split; [vm_compute; reflexivity|]. eexists. vm_compute. reflexivity. Qed.
Print Assumptions C68_overread_refuted.
