(** Properties C21, C22, C25: the texts string programs compute. *)
From Verif Require Import Base RefModel RefProofs UTF8Model ArrayModel ArraySpec ArrayProofs StrModel StrSpec StrHeap StrState StrText StrOps StrEdit StrMore StrInv.
Ltac Zify.zify_post_hook ::= Z.div_mod_to_equations.

Lemma run_inv os : forall st, Inv st -> run_ok st os -> exists st', srun st os = Ok st' /\ Inv st' /\ length (sv st') = length (sv st) /\
  forall ts, (forall v, (v < length (sv st))%nat -> text st v = nth_error ts v) -> length ts = length (sv st) ->
    forall v, (v < length (sv st))%nat -> text st' v = nth_error (fold_left spec_step os ts) v.
Proof.
  induction os as [|o os IH]; intros st I OK; cbn [srun fold_left run_ok] in *.
  - exists st. auto.
  - destruct OK as (OPS & SO & REST). destruct (step_inv st o I OPS SO) as (st1 & E1 & I1 & T1). destruct (IH st1 I1 (REST st1 E1)) as (st2 & E2 & I2 & L2 & S2).
    destruct (sstep_good _ _ _ (proj1 I) E1) as (_ & L1 & K1). exists st2. rewrite E1. cbn [obind]. split; [exact E2|]. split; [exact I2|]. split; [congruence|].
    intros ts TS TL v Hv. apply S2; [|unfold spec_step; rewrite upd_length; congruence|congruence].
    intros u Hu. unfold spec_step. rewrite nth_upd. destruct (Nat.eqb_spec u (starget o)) as [->|NU].
    + destruct (Nat.ltb_spec (starget o) (length ts)); [|rewrite TL, <- L1 in *; lia]. cbn [andb]. rewrite T1. f_equal.
      assert (TE : forall w, In w (operands o) -> T st w = nth w ts []).
      { intros w Hw. rewrite Forall_forall in OPS. specialize (OPS w Hw). unfold T. rewrite (TS w OPS). rewrite (nth_error_nth' ts []) by lia. reflexivity. }
      destruct o; cbn [operands expected] in *; try reflexivity; rewrite ?TE by (cbn [In]; auto); reflexivity.
    + cbn [andb]. rewrite <- TS by congruence. apply same_win_text; [congruence|exact (K1 u NU)].
Qed.

(** C22 (what holds): a program of string operations whose every step is
    well-formed (arguments in range, valid UTF-8, below 1 GiB) and which edits
    in place only strings that start their body or share it, and inserts before
    no remembered position, never fails, and every variable's text is the one
    the same program computes on plain lists of characters. *)
Theorem C22_programs_compute_on_texts_partial :
  forall n os, run_ok (sinit n) os ->
  exists st, srun (sinit n) os = Ok st /\
    forall v, (v < n)%nat -> text st v = nth_error (fold_left spec_step os (repeat [] n)) v.
Proof.
  intros n os OK. destruct (run_inv os (sinit n) (sinit_inv n) OK) as (st & E & I & L & S). exists st. split; [exact E|].
  assert (LN : length (sv (sinit n)) = n) by apply repeat_length.
  intros v Hv. apply S; [|rewrite LN; apply repeat_length|rewrite LN; exact Hv].
  intros u Hu. rewrite LN in Hu. rewrite (nth_error_nth' (repeat [] n) []) by (rewrite repeat_length; exact Hu). rewrite nth_repeat.
  destruct (sinit_inv n) as (_ & _ & _ & F). destruct (nth_some_lt (sv (sinit n)) u ltac:(lia)) as [s Es].
  assert (s = null_val) by (apply nth_error_In, repeat_spec in Es; exact Es). subst s.
  destruct (inv_vok _ _ _ (sinit_inv n) Es) as (chs & V & _). unfold text. rewrite Es, (vin_text _ _ _ V). reflexivity.
Qed.

(** One more step, from any state such a program reaches: it succeeds and its
    target gets the text the operation is named for. *)
Theorem C22_each_operation_computes_its_text_partial :
  forall n os st o, run_ok (sinit n) os -> srun (sinit n) os = Ok st ->
    Forall (fun v => (v < n)%nat) (operands o) -> step_ok st o ->
    exists st', sstep st o = Ok st' /\ text st' (starget o) = Some (expected (T st) o).
Proof.
  intros n os st o OK E OPS SO. destruct (run_inv os (sinit n) (sinit_inv n) OK) as (st1 & E1 & I & L & _). rewrite E1 in E. injection E as <-.
  assert (LN : length (sv (sinit n)) = n) by apply repeat_length.
  destruct (step_inv st1 o I) as (st' & S & _ & TX); [rewrite L, LN; exact OPS|exact SO|]. eauto.
Qed.

(** C21 (what holds): indexing any string of such a program, with any int: the
    character at that position; 0 at the length; UCS4_NONE outside. *)
Theorem C21_index_returns_nth_character_partial :
  forall n os st v s i, run_ok (sinit n) os -> srun (sinit n) os = Ok st -> nth_error (sv st) v = Some s -> -2^31 <= i < 2^31 ->
    exists h', sv_index (sh st) s i = Ok (h',
      if (0 <=? i) && (i <? Z.of_nat (length (T st v))) then nth (Z.to_nat i) (T st v) 0
      else if i =? Z.of_nat (length (T st v)) then 0 else 0xFFFFFFFF).
Proof.
  intros n os st v s i OK E EV Hi. destruct (run_inv os (sinit n) (sinit_inv n) OK) as (st1 & E1 & I & L & _). rewrite E1 in E. injection E as <-.
  destruct (inv_vok st1 v s I EV) as (chs & V & _ & ET & _ & EL). destruct (sv_index_ok (sh st1) s chs i (proj1 (proj2 I)) V Hi) as (h' & EI & _).
  exists h'. rewrite EI. do 2 f_equal. rewrite <- ET, <- EL. destruct (Z.eqb_spec i (Z.of_nat (length (T st1 v)))) as [->|N].
  - destruct (Z.ltb_spec (Z.of_nat (length (T st1 v))) (Z.of_nat (length (T st1 v)))); [lia|]. rewrite andb_false_r. reflexivity.
  - destruct (Z.leb_spec 0 i); destruct (Z.ltb_spec i (Z.of_nat (length (T st1 v)))); cbn [andb].
    + rewrite (nth_error_nth' (T st1 v) 0) by lia. destruct (Z.ltb_spec i 0); [lia|reflexivity].
    + assert (X : nth_error (T st1 v) (Z.to_nat i) = None) by (apply nth_error_None; lia). rewrite X. reflexivity.
    + destruct (nth_error (T st1 v) (Z.to_nat i)); [|reflexivity]. destruct (Z.ltb_spec i 0); [reflexivity|lia].
    + lia.
Qed.

(** C25 (what holds): substr for every unsigned position and int length; head,
    tail and shorter for arguments up to the string's length. *)
Theorem C25_substr_clips :
  forall n os st v s, run_ok (sinit n) os -> srun (sinit n) os = Ok st -> nth_error (sv st) v = Some s ->
  forall at_ len, 0 <= at_ < 2^32 -> -2^31 <= len < 2^31 ->
    exists h' r, substr (sh st) s at_ len = Ok (h', r) /\
      val_text h' r = Some (l_slice (T st v) (Z.to_nat at_) (if len =? -1 then length (T st v) else Z.to_nat len)).
Proof.
  intros n os st v s OK E EV a l Ha Hl. destruct (run_inv os (sinit n) (sinit_inv n) OK) as (st1 & E1 & I & L & _). rewrite E1 in E. injection E as <-.
  destruct (inv_vok st1 v s I EV) as (chs & V & _ & ET & _ & EL). destruct I as (R & G & NO & _).
  destruct (substr_ok (sh st1) s _ chs a l [] G R V NO Ha Hl) as (h' & r & cs & ES & G' & V' & T' & _). exists h', r. split; [exact ES|].
  rewrite (vin_text _ _ _ V'), T', <- ET. f_equal. apply sub_spec; lia.
Qed.

Theorem C25_head_tail_shorter_partial :
  forall n os st v s, run_ok (sinit n) os -> srun (sinit n) os = Ok st -> nth_error (sv st) v = Some s ->
  (forall k, 0 <= k < 2^31 -> exists h' r, head (sh st) s k = Ok (h', r) /\ val_text h' r = Some (firstn (Z.to_nat k) (T st v))) /\
  (forall k, 0 <= k <= Z.of_nat (length (T st v)) ->
     exists h' r, tail (sh st) s k = Ok (h', r) /\ val_text h' r = Some (skipn (length (T st v) - Z.to_nat k) (T st v))) /\
  (forall k, 0 <= k <= Z.of_nat (length (T st v)) ->
     exists h' r, shorter (sh st) s k = Ok (h', r) /\ val_text h' r = Some (firstn (length (T st v) - Z.to_nat k) (T st v))).
Proof.
  intros n os st v s OK E EV. assert (SUB := C25_substr_clips n os st v s OK E EV).
  destruct (run_inv os (sinit n) (sinit_inv n) OK) as (st1 & E1 & I & L & _). rewrite E1 in E. injection E as <-.
  destruct (inv_vok st1 v s I EV) as (chs & V & _ & ET & _ & EL). assert (SM : v_len s < 2^30) by (destruct V as ((x & _ & BX) & V1 & V2 & V3 & _); apply bchars_small in BX; lia).
  assert (S32 : forall z, -2^31 <= z < 2^31 -> s32 z = z) by (intros z Hz; unfold s32, u32; match goal with |- context [?a <? ?b] => destruct (Z.ltb_spec a b) end; lia).
  unfold head, tail, shorter. rewrite <- EL. set (t := T st1 v) in *. split; [|split].
  - intros k Hk. rewrite S32 by lia. destruct (SUB 0 k ltac:(lia) ltac:(lia)) as (h' & r & ER & TR). exists h', r. split; [exact ER|]. rewrite TR. destruct (Z.eqb_spec k (-1)); [lia|]. reflexivity.
  - intros k Hk. rewrite S32 by lia. replace (u32 (Z.of_nat (length t) - k)) with (Z.of_nat (length t) - k) by (unfold u32; lia).
    destruct (SUB (Z.of_nat (length t) - k) k ltac:(lia) ltac:(lia)) as (h' & r & ER & TR). exists h', r. split; [exact ER|]. rewrite TR. destruct (Z.eqb_spec k (-1)); [lia|].
    f_equal. unfold l_slice. rewrite firstn_all2 by (rewrite skipn_length; lia). f_equal. lia.
  - intros k Hk. rewrite S32 by lia. destruct (SUB 0 (Z.of_nat (length t) - k) ltac:(lia) ltac:(lia)) as (h' & r & ER & TR). exists h', r. split; [exact ER|]. rewrite TR.
    destruct (Z.eqb_spec (Z.of_nat (length t) - k) (-1)); [lia|]. unfold l_slice. cbn [Z.to_nat skipn]. f_equal. f_equal. lia.
Qed.

(** C25, for every other argument, exactly: head of 2^31 or more gives nothing,
    but of 2^32-1 everything; tail of more than there is gives nothing; shorter by
    one more than the length gives everything, by more nothing, but from 2^31 more
    than the length on a beginning again. *)
Theorem C25_beyond :
  forall n os st v s, run_ok (sinit n) os -> srun (sinit n) os = Ok st -> nth_error (sv st) v = Some s ->
  let t := T st v in let len := Z.of_nat (length t) in
  (forall k, 2^31 <= k < 2^32 -> exists h' r, head (sh st) s k = Ok (h', r) /\
     val_text h' r = Some (if k =? 2^32 - 1 then t else [])) /\
  (forall k, len < k < 2^32 -> exists h' r, tail (sh st) s k = Ok (h', r) /\ val_text h' r = Some []) /\
  (forall k, len < k < 2^32 -> exists h' r, shorter (sh st) s k = Ok (h', r) /\
     val_text h' r = Some (if k =? len + 1 then t else if k <=? len + 2^31 then [] else firstn (Z.to_nat (len + 2^32 - k)) t)).
Proof.
  intros n os st v s OK E EV. assert (SUB := C25_substr_clips n os st v s OK E EV).
  destruct (run_inv os (sinit n) (sinit_inv n) OK) as (st1 & E1 & I & L & _). rewrite E1 in E. injection E as <-.
  destruct (inv_vok st1 v s I EV) as (chs & V & _ & ET & _ & EL). assert (SM : v_len s < 2^30) by (destruct V as ((x & _ & BX) & V1 & V2 & V3 & _); apply bchars_small in BX; lia).
  cbv zeta. unfold head, tail, shorter. rewrite <- EL in SM |- *. set (t := T st1 v) in *.
  assert (S32 : forall z, -2^31 <= z < 2^31 -> s32 z = z) by (intros z Hz; unfold s32, u32; match goal with |- context [?a <? ?b] => destruct (Z.ltb_spec a b) end; lia).
  assert (S32n : forall z, 2^31 <= z < 2^32 -> s32 z = z - 2^32) by (intros z Hz; unfold s32, u32; match goal with |- context [?a <? ?b] => destruct (Z.ltb_spec a b) end; lia).
  assert (S32m : forall z, -2^32 <= z < -2^31 -> s32 z = z + 2^32) by (intros z Hz; unfold s32, u32; match goal with |- context [?a <? ?b] => destruct (Z.ltb_spec a b) end; lia).
  assert (NEG : forall z, z <= 0 -> Z.to_nat z = 0%nat) by lia.
  assert (SKIP : forall z m, Z.of_nat (length t) <= z -> l_slice t (Z.to_nat z) m = []) by (intros z m Hz; unfold l_slice; rewrite skipn_all2 by lia; apply firstn_nil).
  assert (ALL : l_slice t 0 (length t) = t) by (unfold l_slice; cbn [skipn]; apply firstn_all).
  split; [|split].
  - intros k Hk. rewrite S32n by lia. destruct (SUB 0 (k - 2^32) ltac:(lia) ltac:(lia)) as (h' & r & ER & TR). exists h', r. split; [exact ER|]. rewrite TR.
    destruct (Z.eqb_spec (k - 2^32) (-1)), (Z.eqb_spec k (2^32 - 1)); try (exfalso; lia); [exact (f_equal Some ALL)|]. rewrite (NEG (k - 2^32)) by lia. reflexivity.
  - intros k Hk.
    assert (U : u32 (Z.of_nat (length t) - k) = Z.of_nat (length t) - k + 2^32) by (unfold u32; lia). rewrite U.
    assert (R : -2^31 <= s32 k < 2^31) by (unfold s32, u32; match goal with |- context [?a <? ?b] => destruct (Z.ltb_spec a b) end; lia).
    destruct (SUB (Z.of_nat (length t) - k + 2^32) (s32 k) ltac:(lia) R) as (h' & r & ER & TR). exists h', r. split; [exact ER|]. rewrite TR, SKIP by lia. reflexivity.
  - intros k Hk. destruct (Z.leb_spec k (Z.of_nat (length t) + 2^31)) as [HS|HS].
    + rewrite S32 by lia. destruct (SUB 0 (Z.of_nat (length t) - k) ltac:(lia) ltac:(lia)) as (h' & r & ER & TR). exists h', r. split; [exact ER|]. rewrite TR.
      destruct (Z.eqb_spec (Z.of_nat (length t) - k) (-1)), (Z.eqb_spec k (Z.of_nat (length t) + 1)); try (exfalso; lia); [exact (f_equal Some ALL)|]. rewrite (NEG (Z.of_nat (length t) - k)) by lia. reflexivity.
    + rewrite S32m by lia. destruct (SUB 0 (Z.of_nat (length t) - k + 2^32) ltac:(lia) ltac:(lia)) as (h' & r & ER & TR). exists h', r. split; [exact ER|]. rewrite TR.
      destruct (Z.eqb_spec (Z.of_nat (length t) - k + 2^32) (-1)), (Z.eqb_spec k (Z.of_nat (length t) + 1)); try (exfalso; lia). unfold l_slice. cbn [Z.to_nat skipn]. do 2 f_equal. lia.
Qed.

Ltac opv := cbn [length sv]; repeat apply Forall_cons; try apply Forall_nil; vm_compute; lia.
Ltac frontv := do 2 eexists; split; [vm_compute; reflexivity|]; split; [vm_compute; reflexivity|]; first [left; vm_compute; reflexivity | right; vm_compute; reflexivity].
(** A program that meets the hypotheses: slices, shared bodies, non-ASCII. *)
Definition demo : list sop :=
  [SLit 0 [104; 195; 169; 226; 130; 172; 33] false; SSubstr 1 0 1 2; SAddEq 1 0; SPlusChar 2 1 128512; SInsert 0 2 2; STimes 2 0 2; SAsCase 1 1 true].
Lemma run_cons : forall st o r s1, Forall (fun v => (v < length (sv st))%nat) (operands o) -> step_ok st o ->
  sstep st o = Ok s1 -> run_ok s1 r -> run_ok st (o :: r).
Proof. intros st o r s1 A B E H. split; [exact A|]. split; [exact B|]. intros st' E'. congruence. Qed.
Ltac next := eapply run_cons; [cbn [operands]; opv|cbn [step_ok]|vm_compute; reflexivity|].
Example C22_example : run_ok (sinit 3) demo.
Proof.
  unfold demo.
  assert (P : forall c, 0 <= c < 2^31 -> plain c) by (intros c Hc; unfold plain; lia).
  next. { split; [exists [104; 233; 8364; 33]; split; [reflexivity|repeat constructor; apply P; lia]|]. split; [cbn; intuition lia|cbn; lia]. }
  next. { lia. }
  next. { split; [discriminate|split; [frontv|vm_compute; reflexivity]]. }
  next. { split; [apply P; lia|vm_compute; reflexivity]. }
  next. { split; [discriminate|]. split; [match goal with |- 0 <= _ <= Z.of_nat (length ?t) => assert (L : Z.of_nat (length t) = 4) by (vm_compute; reflexivity); rewrite L; lia end|].
          split; [frontv|]. split; [|vm_compute; reflexivity].
          left. eexists. split; [vm_compute; reflexivity|]. left. cbn [fst v_mk v_off]. lia. }
  next. { vm_compute; reflexivity. }
  next. { vm_compute; reflexivity. }
  exact Logic.I.
Qed.
Example C22_example_result : fold_left spec_step demo (repeat [] 3) =
  [[104; 233; 233; 8364; 104; 233; 8364; 33; 128512; 8364; 33]; [201; 8364; 72; 201; 8364; 33];
   [104; 233; 233; 8364; 104; 233; 8364; 33; 128512; 8364; 33; 104; 233; 233; 8364; 104; 233; 8364; 33; 128512; 8364; 33]].
Proof. vm_compute. reflexivity. Qed.

(** C21 refuted in general: insert moves the characters after the insertion
    point but not the bookmark: twenty é; insert one character at 10 (which
    leaves a bookmark at 10), insert one at the front; now [10] is wrong. *)
Definition es : list Z := concat (repeat [195; 169] 20).
Definition stale : list sop := [SLit 0 es false; SLit 1 [120] false; SInsert 0 10 1; SInsert 0 0 1].
Theorem C21_index_after_insert_refuted :
  exists st s, srun (sinit 2) stale = Ok st /\ nth_error (sv st) 0 = Some s /\
    text st 0 = Some (120 :: repeat 233 10 ++ 120 :: repeat 233 10) /\
    exists h' c, sv_index (sh st) s 10 = Ok (h', c) /\ nth 10 (T st 0) 0 = 233 /\ c <> 233.
Proof. do 2 eexists. split; [vm_compute; reflexivity|]. split; [vm_compute; reflexivity|]. split; [vm_compute; reflexivity|]. do 2 eexists. split; [vm_compute; reflexivity|]. split; [vm_compute; reflexivity|discriminate]. Qed.

(** C22 refuted in general: appending to a slice that does not start its
    (unshared) body puts the characters in the wrong place: "abcdef" sliced to
    "cd", the original gone, "x" appended gives "cx" and not "cdx". *)
Theorem C22_append_to_slice_refuted :
  exists st, srun (sinit 2) [SLit 0 [97; 98; 99; 100; 101; 102] false; SSubstr 0 0 2 2; SAddEqChar 0 120] = Ok st /\
    text st 0 <> Some [99; 100; 120].
Proof. eexists. split; [vm_compute; reflexivity|]. vm_compute. discriminate. Qed.

(** ... upper-casing such a slice makes it the whole upper-cased body: *)
Theorem C22_upcase_slice_refuted :
  exists st, srun (sinit 1) [SLit 0 [97; 98; 99; 100] false; SSubstr 0 0 0 2; SToCase 0 true] = Ok st /\
    text st 0 = Some [65; 66; 67; 68].
Proof. eexists. split; [vm_compute; reflexivity|]. vm_compute. reflexivity. Qed.

(** ... and s += s reads freed storage. *)
Theorem C22_self_append_refuted :
  srun (sinit 1) [SLit 0 [97; 98; 99; 100; 101; 102; 103] false; SAddEq 0 0] = UB.
Proof. vm_compute. reflexivity. Qed.

(** C25 refuted for tail beyond the length (empty, not the whole string),
    shorter by one more than the length (the whole string, not empty), and
    head of 2^31 or more (empty). *)
Theorem C25_tail_shorter_head_refuted :
  exists st s, srun (sinit 1) [SLit 0 [97; 98; 99] false] = Ok st /\ nth_error (sv st) 0 = Some s /\
    (exists h r, tail (sh st) s 4 = Ok (h, r) /\ val_text h r = Some []) /\
    (exists h r, shorter (sh st) s 4 = Ok (h, r) /\ val_text h r = Some [97; 98; 99]) /\
    (exists h r, head (sh st) s (2^31) = Ok (h, r) /\ val_text h r = Some []).
Proof.
  do 2 eexists. split; [vm_compute; reflexivity|]. split; [vm_compute; reflexivity|].
  split; [|split]; (do 2 eexists; split; [vm_compute; reflexivity|vm_compute; reflexivity]).
Qed.

Print Assumptions C22_programs_compute_on_texts_partial.
Print Assumptions C22_each_operation_computes_its_text_partial.
Print Assumptions C21_index_returns_nth_character_partial.
Print Assumptions C25_substr_clips.
Print Assumptions C25_head_tail_shorter_partial.
Print Assumptions C25_beyond.
Print Assumptions C21_index_after_insert_refuted.
Print Assumptions C22_append_to_slice_refuted.
Print Assumptions C22_upcase_slice_refuted.
Print Assumptions C22_self_append_refuted.
Print Assumptions C25_tail_shorter_head_refuted.
