(** Property C53: transform with any callback. *)
From Verif Require Import Base RefModel RefProofs UTF8Model UTF8Spec UTF8Proofs ArrayModel ArraySpec ArrayProofs StrModel StrSpec StrHeap StrState StrText StrOps StrEdit StrMore StrJson StrInv StrProps.
From Verif Require Import XformModel XformSpec XformProofs.
Ltac Zify.zify_post_hook ::= Z.div_mod_to_equations.

Lemma transform_inv {K} (cb : callback K) after k st v s out k' : Inv st -> nth_error (sv st) v = Some s ->
  covers st v -> -2^31 <= after < 2^31 - 1 -> minds_the_text cb (T st v) -> transforms cb after k (T st v) out k' -> nbytes out < 2^30 ->
  exists st', transform_var st v cb after k = Ok (st', k') /\ Inv st' /\ length (sv st') = length (sv st) /\ text st' v = Some out /\
    (forall w, w <> v -> same_win st st' w) /\ option_map v_len (nth_error (sv st') v) = Some (Z.of_nat (length out)).
Proof.
  intros I EV CV A MT TR OB. destruct (inv_vok st v s I EV) as (chs & V & TI & ET & EB & EL). assert (CV' := covers_whole _ _ _ _ EV EB CV). rewrite ET in MT, TR.
  destruct I as (R & G & NO & F). destruct (take st v s EV R) as (hs & R1 & I1 & O1 & NI & P1).
  destruct (str_transform_ok cb after k out k' (sh st) s hs chs A G R1 V TI CV' MT TR OB) as (h' & s' & E & G' & V' & T' & TI' & W').
  destruct (str_transform_rc cb after k (sh st) s hs h' s' k' R1 E) as [R2 K2].
  unfold transform_var. rewrite EV, E. cbn [obind].
  assert (K3 := K2). unfold keep in K3. rewrite Forall_forall in K3.
  eexists. split; [reflexivity|]. assert (R3 : RC h' (null_val :: upd (sv st) v s')) by (eapply RC_perm; [apply P1|exact R2]).
  assert (KV : forall w u, w <> v -> nth_error (sv st) w = Some u -> obits h' (v_body u) = obits (sh st) (v_body u)) by (intros w u Hw Hu; apply K3; eapply O1; eassumption).
  split; [|split; [apply upd_length|split; [|split]]].
  - split; [exact R3|]. cbn [sh sv]. split; [exact G'|]. split; [eapply keep_vin_in; [exact G'|exact K2|exact NI|exact NO]|].
    apply Forall_forall. intros u Hu. apply In_nth_error in Hu as (i & Hi). destruct (Nat.eq_dec i v) as [->|N].
    + rewrite (nth_upd_eq _ _ _ _ EV) in Hi. injection Hi as <-. exists out. auto.
    + rewrite nth_upd_ne in Hi by congruence. eapply keep_vok; [exact G'|exact K2|eapply O1; [exact N|exact Hi]|]. rewrite Forall_forall in F. apply F. eapply nth_error_In. exact Hi.
  - unfold text. cbn [sh sv]. rewrite (nth_upd_eq _ _ _ _ EV). rewrite (vin_text _ _ _ V'), T'. reflexivity.
  - intros w Hw u Hu. exists u. cbn [sh sv]. rewrite nth_upd_ne by congruence. repeat split; auto. eapply KV; eassumption.
  - cbn [sv]. rewrite (nth_upd_eq _ _ _ _ EV). cbn [option_map]. f_equal. apply W'.
Qed.

(** C53 (what holds): after any program of string operations (within C22's
    limits), on any string that covers its text's storage or shares it, for any
    [after] but INT_MAX and any callback that minds the text: transform does not
    fail; the string's text becomes the one [transforms] describes, its length
    the number of characters in that; the callback's state becomes what its
    calls make of it, so it was called exactly as described; and no other
    variable changes. *)
Theorem C53_transform_partial :
  forall (K : Type) (cb : callback K) after k n os st v,
    run_ok (sinit n) os -> srun (sinit n) os = Ok st -> (v < n)%nat -> covers st v ->
    -2^31 <= after < 2^31 - 1 -> minds_the_text cb (T st v) ->
  forall out k', transforms cb after k (T st v) out k' -> nbytes out < 2^30 ->
  exists st', transform_var st v cb after k = Ok (st', k') /\
    text st' v = Some out /\ option_map v_len (nth_error (sv st') v) = Some (Z.of_nat (length out)) /\
    forall w, w <> v -> text st' w = text st w.
Proof.
  intros K cb after k n os st v OK E HV CV A MT out k' TR OB.
  destruct (run_inv os (sinit n) (sinit_inv n) OK) as (st1 & E1 & I & L & _). rewrite E1 in E. injection E as <-.
  assert (LN : length (sv (sinit n)) = n) by apply repeat_length.
  destruct (nth_some_lt (sv st1) v ltac:(lia)) as [s EV].
  destruct (transform_inv cb after k st1 v s out k' I EV CV A MT TR OB) as (st' & ET & _ & L' & TX & SW & VL).
  exists st'. split; [exact ET|]. split; [exact TX|]. split; [exact VL|]. intros w Hw.
  destruct (Nat.lt_ge_cases w (length (sv st1))) as [LW|GW].
  - apply same_win_text; [exact LW|apply SW; exact Hw].
  - unfold text. rewrite (proj2 (nth_error_None (sv st') w)) by lia. rewrite (proj2 (nth_error_None (sv st1) w)) by lia. reflexivity.
Qed.

(** The string stays a string: whatever program (within C22's limits) runs on
    afterwards computes on texts as ever. *)
Theorem C53_string_goes_on_partial :
  forall (K : Type) (cb : callback K) after k n os st v,
    run_ok (sinit n) os -> srun (sinit n) os = Ok st -> (v < n)%nat -> covers st v ->
    -2^31 <= after < 2^31 - 1 -> minds_the_text cb (T st v) ->
  forall out k', transforms cb after k (T st v) out k' -> nbytes out < 2^30 ->
  exists st', transform_var st v cb after k = Ok (st', k') /\
    forall os', run_ok st' os' -> exists st'', srun st' os' = Ok st'' /\
      forall w, (w < n)%nat -> text st'' w = nth_error (fold_left spec_step os' (upd (map (T st) (List.seq 0 n)) v out)) w.
Proof.
  intros K cb after k n os st v OK E HV CV A MT out k' TR OB.
  destruct (run_inv os (sinit n) (sinit_inv n) OK) as (st1 & E1 & I & L & _). rewrite E1 in E. injection E as <-.
  assert (LN : length (sv (sinit n)) = n) by apply repeat_length.
  destruct (nth_some_lt (sv st1) v ltac:(lia)) as [s EV].
  destruct (transform_inv cb after k st1 v s out k' I EV CV A MT TR OB) as (st' & ET & I' & L' & TX & SW & VL).
  exists st'. split; [exact ET|]. intros os' OK'. destruct (run_inv os' st' I' OK') as (st2 & E2 & I2 & L2 & S2).
  exists st2. split; [exact E2|]. intros w Hw. apply S2; [|rewrite upd_length, map_length, seq_length; lia|lia].
  intros u Hu. assert (NU : nth_error (map (T st1) (List.seq 0 n)) u = Some (T st1 u)).
  { rewrite (nth_error_nth' _ []) by (rewrite map_length, seq_length; lia). f_equal. rewrite (nth_indep _ [] (T st1 O)) by (rewrite map_length, seq_length; lia). rewrite map_nth, seq_nth by lia. reflexivity. }
  destruct (Nat.eq_dec u v) as [->|N].
  - rewrite (nth_upd_eq _ _ _ _ NU). exact TX.
  - rewrite nth_upd_ne by congruence. rewrite NU. rewrite (same_win_text st1 st' u) by (try (apply SW; exact N); lia).
    destruct (nth_some_lt (sv st1) u ltac:(lia)) as [su EU]. destruct (inv_vok st1 u su I EU) as (chs & V & _). unfold T, text. rewrite EU, (vin_text _ _ _ V). reflexivity.
Qed.

(** Every callback that minds the text has an outcome on it, and one only. *)
Theorem C53_one_outcome :
  forall (K : Type) (cb : callback K) after k t, minds_the_text cb t ->
  exists out k', transforms cb after k t out k' /\ forall o l, transforms cb after k t o l -> o = out /\ l = k'.
Proof.
  intros K cb after k t MT. destruct (rewrites_total cb t MT (length t) k (firstn (kept after t) t) (skipn (kept after t) t)) as (o & k' & RW).
  - rewrite skipn_length. lia.
  - symmetry. apply firstn_skipn.
  - exists (firstn (kept after t) t ++ o), k'. split; [exists o; auto|]. intros o2 l (o3 & -> & RW3). destruct (rewrites_fun _ _ _ _ _ _ RW _ _ RW3) as [-> ->]. auto.
Qed.

(** Two special cases.  The callback is never called, and nothing changes, when
    [after] is below -1 or leaves no character. *)
Theorem C53_nothing_after :
  forall (K : Type) (cb : callback K) after k t, after < -1 \/ Z.of_nat (length t) <= after + 1 ->
  transforms cb after k t t k.
Proof.
  intros K cb after k t H. assert (L : (length t <= kept after t)%nat) by (unfold kept; destruct (Z.ltb_spec after (-1)); lia).
  exists []. rewrite firstn_all2, skipn_all2, app_nil_r by exact L. split; [reflexivity|constructor].
Qed.

(** A callback that always moves over the one character at cp, and returns
    [f] of it: the characters beyond [after] are replaced one by one. *)
Theorem C53_character_by_character :
  forall (f : Z -> list Z) (cb : callback unit) t,
    Forall plain t -> (forall c, In c t -> Forall plain (f c)) ->
    (forall pre c rest, t = pre ++ c :: rest ->
       cb tt (encode_all t ++ [0]) (length (encode_all pre)) = (tt, length (encode_all (pre ++ [c])), encode_all (f c))) ->
  forall after, -1 <= after ->
    let j := Z.to_nat (after + 1) in transforms cb after tt t (firstn j t ++ flat_map f (skipn j t)) tt.
Proof.
  intros f cb t PT PF HC after A j. exists (flat_map f (skipn j t)). unfold kept. destruct (Z.ltb_spec after (-1)); [lia|]. fold j. split; [reflexivity|].
  assert (SPL := firstn_skipn j t). revert SPL. generalize (firstn j t). generalize (skipn j t). intros rest. induction rest as [|c rest IH]; intros pre SPL; [constructor|].
  cbn [flat_map]. assert (X := HC pre c rest (eq_sym SPL)). assert (IC : In c t) by (rewrite <- SPL; apply in_elt).
  assert (GC : good c) by (rewrite Forall_forall in PT; apply plain_is_good, PT, IC). assert (PL := put_len_pos _ GC).
  assert (EP : length (enc (pre ++ [c])) = (length (enc pre) + length (UTF8Put c))%nat) by (rewrite enc_app, enc_cons, enc_nil, app_nil_r, app_length; reflexivity).
  eapply R_move with (next := length (enc (pre ++ [c]))); [discriminate|exact (PF c IC)|rewrite SPL; exact X|lia|].
  assert (SN : started (c :: rest) (Z.of_nat (length (enc (pre ++ [c]))) - Z.of_nat (length (enc pre))) = 1%nat).
  { cbn [started]. rewrite nb1, EP. destruct (Z.leb_spec (Z.of_nat (length (enc pre) + length (UTF8Put c)) - Z.of_nat (length (enc pre))) 0); [lia|].
    f_equal. destruct rest as [|d rest]; [reflexivity|]. cbn [started]. match goal with |- (if ?b then _ else _) = _ => replace b with true by lia end. reflexivity. }
  rewrite SN. cbn [firstn skipn]. apply IH. rewrite <- app_assoc. exact SPL.
Qed.

Definition same_char : callback unit := fun k m up =>
  match UTF8LenPtr (skipn up m) with Ok n => (k, (up + n)%nat, firstn n (skipn up m)) | _ => (k, S up, []) end.
(** C53 refuted for a slice that has its storage to itself: replacing every
    character by itself turns the slice "cd" of "abcdef" into "cdef". *)
Theorem C53_transform_slice_refuted :
  exists st st', srun (sinit 1) [SLit 0 [97; 98; 99; 100; 101; 102] false; SSubstr 0 0 2 2] = Ok st /\ text st 0 = Some [99; 100] /\
    transforms same_char (-1) tt [99; 100] [99; 100] tt /\
    transform_var st 0 same_char (-1) tt = Ok (st', tt) /\ text st' 0 = Some [99; 100; 101; 102].
Proof.
  do 2 eexists. split; [vm_compute; reflexivity|]. split; [vm_compute; reflexivity|]. split; [|split; [vm_compute; reflexivity|vm_compute; reflexivity]].
  apply (C53_character_by_character (fun c => [c]) same_char [99; 100]).
  - repeat constructor; unfold plain; lia.
  - intros c [<-|[<-|[]]]; repeat constructor; unfold plain; lia.
  - intros [|a [|b [|d pre]]] c rest E; cbn [app] in E; inversion E; subst; try (destruct pre; discriminate); reflexivity.
  - lia.
Qed.
(** ... and with [after] INT_MAX (nothing to transform at all) the addition in
    the loop's test overflows. *)
Theorem C53_after_max_refuted :
  exists st, srun (sinit 1) [SLit 0 [97] false] = Ok st /\ transform_var st 0 same_char (2^31 - 1) tt = UB.
Proof. eexists. split; [vm_compute; reflexivity|]. vm_compute. reflexivity. Qed.

(** The hypotheses are met: on "a\u00e9 bc", from the second character on, a
    callback that counts its calls, stops at b putting an exclamation mark
    there, replaces \u00e9 by e (leaving cp in the middle of it), and drops
    everything else. *)
Definition busy_callback : callback nat := fun k m up =>
  let b := nth up m 0 in
  if b =? 98 then (S k, up, [33]) else if b =? 195 then (S k, S up, [101]) else (S k, S up, []).
Definition busy_text : list Z := [97; 233; 32; 98; 99].
Example busy_minds : minds_the_text busy_callback busy_text.
Proof.
  intros k pre rest E NE.
  destruct pre as [|a [|b [|c [|d [|e [|f pre]]]]]]; unfold busy_text in E; cbn [app] in E; inversion E; subst; try congruence;
    (do 2 eexists; first [exists []; split; [vm_compute; reflexivity|]|exists [101]; split; [vm_compute; reflexivity|]|exists [33]; split; [vm_compute; reflexivity|]]; split; [vm_compute; lia|repeat constructor; unfold plain; lia]).
Qed.
Example busy_outcome : transforms busy_callback 0 0%nat busy_text [97; 101; 33; 98; 99] 3%nat.
Proof.
  exists ([101] ++ [] ++ [33] ++ [98; 99]). split; [reflexivity|]. assert (P : forall c, 0 <= c < 128 -> plain c) by (intros c Hc; unfold plain; lia).
  eapply R_move with (next := 2%nat); [discriminate|repeat constructor; apply P; lia|vm_compute; reflexivity|vm_compute; lia|].
  eapply R_move with (next := 4%nat); [discriminate|constructor|vm_compute; reflexivity|vm_compute; lia|].
  apply (R_stop _ _ _ _ _ [33]); [discriminate|repeat constructor; apply P; lia|vm_compute; reflexivity].
Qed.
Example busy_case : exists st st', run_ok (sinit 2) [SLit 0 (encode_all busy_text) false; SAssign 1 0] /\
  srun (sinit 2) [SLit 0 (encode_all busy_text) false; SAssign 1 0] = Ok st /\ covers st 0 /\ T st 0 = busy_text /\
  transform_var st 0 busy_callback 0 0%nat = Ok (st', 3%nat) /\ text st' 0 = Some [97; 101; 33; 98; 99] /\ text st' 1 = Some busy_text.
Proof.
  do 2 eexists. split.
  { cbn [run_ok operands step_ok]. split; [repeat constructor|]. split.
    { split; [exists busy_text; split; [reflexivity|unfold busy_text; repeat constructor; unfold plain; lia]|]. split; [vm_compute; intuition discriminate|vm_compute; reflexivity]. }
    intros st1 E. vm_compute in E. injection E as <-. split; [repeat constructor|]. auto. }
  split; [vm_compute; reflexivity|]. split; [do 2 eexists; split; [reflexivity|]; split; [reflexivity|]; right; vm_compute; reflexivity|].
  split; [vm_compute; reflexivity|]. split; [vm_compute; reflexivity|]. split; vm_compute; reflexivity.
Qed.

Print Assumptions C53_transform_partial.
Print Assumptions C53_string_goes_on_partial.
Print Assumptions C53_one_outcome.
Print Assumptions C53_nothing_after.
Print Assumptions C53_character_by_character.
Print Assumptions C53_transform_slice_refuted.
Print Assumptions C53_after_max_refuted.
