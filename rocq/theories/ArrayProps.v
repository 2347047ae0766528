(** Property theorems for Array (C15, C16, C17).  Histories start with [n] empty
    array variables; [hist_ok] says the arguments of each operation have the C++
    argument type and the positions lie inside the array at that moment. *)
From Verif Require Import Base RefModel ArrayModel ArraySpec ArrayProofs ArrayHeap ArrayOps ArrayState ArraySafe ArrayRead.
Ltac Zify.zify_post_hook ::= Z.div_mod_to_equations.

(** C15. Whatever happened before, an operation changes the contents of no
    variable but the one it assigns. *)
Theorem C15_isolation : forall A n (os : list (op A)) st o st' w,
  hist_ok (init n) os -> run (init n) os = Ok st -> op_ok st o -> step st o = Ok st' ->
  w <> target o -> contents st' w = contents st w.
Proof.
  intros A n os st o st' w H R K E N. destruct (run_inv os _ _ (init_inv n) H R) as [I _].
  destruct (step_spec st o st' I K E) as [[-> _]|(L & (_ & _ & _ & S & _) & _)]; [reflexivity|exact (S w N)].
Qed.

(** C15. Every variable always has well-defined contents: it lies inside storage
    that exists and was written. *)
Theorem C15_contents_defined : forall A n (os : list (op A)) st v,
  hist_ok (init n) os -> run (init n) os = Ok st -> (v < n)%nat -> exists l, contents st v = Some l.
Proof.
  intros A n os st v H R V. destruct (run_inv os _ _ (init_inv n) H R) as [I L]. cbn in L. rewrite repeat_length in L.
  destruct (nth_some_lt (vars st) v ltac:(lia)) as [s Es]. destruct (Inv_view st v s I Es) as (_ & l & _ & C). eauto.
Qed.

(** C15. Bodies are deleted exactly when the last variable lets go: every
    variable's body is alive, and every body alive has as many references as
    variables (one more if it is a static body, which owns itself). *)
Theorem C15_no_leak_no_dangling : forall A n (os : list (op A)) st,
  hist_ok (init n) os -> run (init n) os = Ok st ->
  (forall v s b, nth_error (vars st) v = Some s -> s_body s = Some b -> exists x, nth_error (hp st) b = Some (Some x)) /\
  (forall b x, nth_error (hp st) b = Some (Some x) ->
     b_refs x = Z.of_nat (handles st b) + (if b_static x then 1 else 0) /\ 0 < b_refs x).
Proof.
  intros A n os st H R. destruct (run_inv os _ _ (init_inv n) H R) as [[WB WS] L]. split.
  - intros v s b Es Eb. rewrite Forall_forall in WS. assert (K := WS s (nth_error_In _ _ Es)). unfold slice_ok in K. rewrite Eb in K.
    destruct K as (x & _ & Hx & _). eauto.
  - intros b x Hb. destruct (WB b x Hb) as (_ & P & Q). split; [exact P|exact Q].
Qed.

(** C15. With room for the elements, no operation in range reads or writes
    storage outside a live body (it may stop at an assertion). *)
Theorem C15_memory_safe : forall A n (os : list (op A)) st o,
  hist_ok (init n) os -> run (init n) os = Ok st -> op_ok st o -> fits st o -> step st o <> UB.
Proof.
  intros A n os st o H R K F. destruct (run_inv os _ _ (init_inv n) H R) as [I _]. exact (step_safe st o I K F).
Qed.

(** C16. Each operation leaves in its target the list operation it names -
    provided that, for an operation that works by position, a variable that does
    not share its body starts at the beginning of it.  (Missing: variables whose
    first elements were removed while unshared; see the refutations.) *)
Theorem C16_operations_partial : forall A n (os : list (op A)) st o st' l,
  hist_ok (init n) os -> run (init n) os = Ok st -> op_ok st o -> step st o = Ok st' ->
  contents st (target o) <> None -> expected st o = Some l ->
  (positional o = true -> unshared st (target o) -> at_start st (target o)) ->
  contents st' (target o) = Some l.
Proof.
  intros A n os st o st' l H R K E T X D. destruct (run_inv os _ _ (init_inv n) H R) as [I _].
  destruct (step_spec st o st' I K E) as [[_ [C|C]]|(L & (_ & _ & C & _) & P)]; [congruence..|].
  rewrite C, <- X. symmetry. exact (P D).
Qed.

(** C16. Removing at either end is right for every array. *)
Theorem C16_remove_ends : forall A n (os : list (op A)) st v at_ len st' l,
  hist_ok (init n) os -> run (init n) os = Ok st -> step st (ORemove v at_ len) = Ok st' ->
  contents st v = Some l -> 0 <= len -> (at_ = 0 /\ len <= Z.of_nat (length l) \/ 0 <= at_ /\ at_ + len = Z.of_nat (length l)) ->
  contents st' v = Some (l_remove l (Z.to_nat at_) (Z.to_nat len)).
Proof.
  intros A n os st v at_ len st' l H R E C LN B. destruct (run_inv os _ _ (init_inv n) H R) as [I _].
  cbn [step] in E. destruct (nth_error (vars st) v) as [s|] eqn:Ev; [|unfold contents in C; rewrite Ev in C; discriminate].
  destruct (Inv_view st v s I Ev) as (KS & L & V & C'). rewrite C in C'. injection C' as <-.
  destruct (store_spec st v s (fun _ => True) Ev I) as (hs & WS & _ & ST). unfold store in E. apply obind_ok in E as (r & E & H').
  destruct (remove_spec _ s hs at_ len r l len WS V E ltac:(lia) ltac:(right; lia)) as (L' & P & _ & Q).
  destruct (ST r _ st' P ltac:(cbn [store obind]; exact H')) as (_ & _ & C2 & _). rewrite C2. f_equal. apply Q. lia.
Qed.

(** C16. Edits whose positions exist always succeed (given room). *)
Theorem C16_edits_succeed : forall A n (os : list (op A)) st o,
  hist_ok (init n) os -> run (init n) os = Ok st -> op_ok st o -> fits st o -> in_range st o ->
  exists st', step st o = Ok st'.
Proof.
  intros A n os st o H R K F G. destruct (run_inv os _ _ (init_inv n) H R) as [I _]. exact (step_ok st o I K F G).
Qed.

(** C16. operator[] returns the element at the index exactly when the index is
    inside; pull, shift and delete_at return the element they remove. *)
Theorem C16_element_access : forall A n (os : list (op A)) st v s l i,
  hist_ok (init n) os -> run (init n) os = Ok st -> nth_error (vars st) v = Some s -> contents st v = Some l -> is_int i ->
  elem (hp st) s i = (if 0 <=? i then match nth_error l (Z.to_nat i) with Some a => Ok a | None => Abort end else Abort) /\
  (forall r a, pull (hp st) s = Ok (r, a) -> nth_error l (length l - 1) = Some a) /\
  (forall r a, shift (hp st) s = Ok (r, a) -> nth_error l 0 = Some a) /\
  (forall r a, 0 <= i -> delete_at (hp st) s i = Ok (r, a) -> nth_error l (Z.to_nat i) = Some a).
Proof.
  intros A n os st v s l i H R Es C BI. destruct (run_inv os _ _ (init_inv n) H R) as [I _].
  destruct (Inv_view st v s I Es) as (KS & L & V & C'). rewrite C in C'. injection C' as <-.
  destruct (view_len _ s l KS V) as (LN & _). unfold is_int in BI. split; [|split; [|split]].
  - destruct (Z.leb_spec 0 i).
    + destruct (nth_error l (Z.to_nat i)) as [a|] eqn:En; [exact (elem_ok _ s i l a KS V H0 En)|].
      apply nth_error_None in En. unfold elem, cassert. destruct (Z.leb_spec 0 i); [|lia]. destruct (Z.ltb_spec i (s_num s)); [lia|reflexivity].
    + unfold elem, cassert. destruct (Z.leb_spec 0 i); [lia|reflexivity].
  - intros r a E. unfold pull, cassert in E. destruct (Z.gtb_spec (s_num s) 0); [|discriminate].
    apply obind_ok in E as (e & EE & E). injection E as _ <-. destruct (elem_spec _ s _ _ l KS V EE) as [_ N].
    rewrite <- N. f_equal. lia.
  - intros r a E. unfold shift, cassert in E. destruct (_ >? _) in E; [|discriminate]. unfold delete_at in E.
    apply obind_ok in E as (e & EE & E). apply obind_ok in E as (r' & _ & E). injection E as _ <-.
    destruct (elem_spec _ s _ _ l KS V EE) as [_ N]. exact N.
  - intros r a I0 E. unfold delete_at in E. rewrite RefProofs.s32_small in E by lia.
    apply obind_ok in E as (e & EE & E). apply obind_ok in E as (r' & _ & E). injection E as _ <-.
    destruct (elem_spec _ s _ _ l KS V EE) as [_ N]. exact N.
Qed.

(** C16 refuted: a slice that reaches the end of its body stops the program
    (array.h 447-448 assert offs+len < length). *)
Theorem C16_slice_to_end_refuted : exists st,
  run (init 2) [OMake 0 [1;2;3] 0] = Ok st /\ contents st 0 = Some [1;2;3] /\
  step st (OSlice 1 0 1 2) = Abort /\ step st (OTail 1 0 1) = Abort /\ step st (OHead 1 0 3) = Abort.
Proof. eexists. split; [vm_compute; reflexivity|]. vm_compute. auto. Qed.

(** C16 refuted: after removing the first element of an unshared array, push,
    insert and remove act at the wrong place. *)
Theorem C16_offset_refuted : exists st s1 s2 s3,
  run (init 2) [OMake 0 [1;2;3;4] 0; ORemove 0 0 1; OMake 1 [7] 0] = Ok st /\ contents st 0 = Some [2;3;4] /\
  step st (OPush 0 9) = Ok s1 /\ contents s1 0 = Some [2;3;9;4] /\
  step st (OInsert 0 1 1) = Ok s2 /\ contents s2 0 = Some [7;2;3;4] /\
  step st (ORemove 0 1 1) = Ok s3 /\ contents s3 0 = Some [3;4].
Proof.
  do 4 eexists. split; [vm_compute; reflexivity|]. split; [reflexivity|]. split; [vm_compute; reflexivity|]. split; [reflexivity|].
  split; [vm_compute; reflexivity|]. split; [reflexivity|]. split; [vm_compute; reflexivity|reflexivity].
Qed.

(** C16 refuted: remove's range check wraps: removing 5 of 3 elements, or from a
    position past the end, is accepted and leaves an array of absurd length. *)
Theorem C16_remove_range_refuted : exists st s1 s2 a b,
  run (init 1) [OMake 0 [1;2;3] 0] = Ok st /\
  step st (ORemove 0 0 5) = Ok s1 /\ nth_error (vars s1) 0 = Some a /\ s_num a = 2^32 - 2 /\
  step st (ORemove 0 4 (-1)) = Ok s2 /\ nth_error (vars s2) 0 = Some b /\ s_num b = 4.
Proof.
  do 5 eexists. split; [vm_compute; reflexivity|]. split; [vm_compute; reflexivity|]. split; [vm_compute; reflexivity|]. split; [reflexivity|].
  split; [vm_compute; reflexivity|]. split; [vm_compute; reflexivity|reflexivity].
Qed.

(** C16 refuted: inserting an unshared array into itself uses freed storage, or
    copies from elements it has already moved. *)
Theorem C16_self_insert_refuted : exists s8 s3 s3',
  run (init 1) [OMake 0 [1;2;3;4;5;6;7;8] 0] = Ok s8 /\ step s8 (OInsert 0 1 0) = UB /\
  run (init 1) [OMake 0 [1;2;3] 0] = Ok s3 /\ step s3 (OInsert 0 1 0) = Ok s3' /\ contents s3' 0 = Some [1;1;1;1;2;3].
Proof.
  do 3 eexists. split; [vm_compute; reflexivity|]. split; [vm_compute; reflexivity|]. split; [vm_compute; reflexivity|].
  split; [vm_compute; reflexivity|]. vm_compute. reflexivity.
Qed.

(** C16 refuted: shorter(length+1) asks for the whole array. *)
Theorem C16_shorter_refuted : exists st st',
  run (init 2) [OMake 0 [1;2;3] 0; OHead 0 0 2] = Ok st /\ contents st 0 = Some [1;2] /\
  step st (OShorter 1 0 3) = Ok st' /\ contents st' 1 = Some [1;2].
Proof. do 2 eexists. split; [vm_compute; reflexivity|]. split; [reflexivity|]. split; [vm_compute; reflexivity|reflexivity]. Qed.

(** C17. Equality is equality of the contents. *)
Theorem C17_equality : forall A n (os : list (op A)) st v w s t l m eqb,
  (forall a b, eqb a b = true <-> a = b) ->
  hist_ok (init n) os -> run (init n) os = Ok st ->
  nth_error (vars st) v = Some s -> contents st v = Some l -> nth_error (vars st) w = Some t -> contents st w = Some m ->
  exists r, equal eqb (hp st) s t = Ok r /\ (r = true <-> l = m).
Proof.
  intros A n os st v w s t l m eqb EQ H R Ev Cv Ew Cw. destruct (run_inv os _ _ (init_inv n) H R) as [I _].
  destruct (Inv_view st v s I Ev) as (KS & L & V & C'). rewrite Cv in C'. injection C' as <-.
  destruct (Inv_view st w t I Ew) as (KT & M & W & C'). rewrite Cw in C'. injection C' as <-.
  exact (equal_spec eqb (hp st) s t l m EQ KS V KT W).
Qed.

(** C17. compare is the lexicographic comparison with the left array cut to the
    length of the right one - so it is right whenever the left is not longer. *)
Theorem C17_compare_partial : forall A n (os : list (op A)) st v w s t l m ltb,
  hist_ok (init n) os -> run (init n) os = Ok st ->
  nth_error (vars st) v = Some s -> contents st v = Some l -> nth_error (vars st) w = Some t -> contents st w = Some m ->
  compare ltb (hp st) s t = Ok (lex_compare ltb (firstn (length m) l) m) /\
  ((length l <= length m)%nat -> compare ltb (hp st) s t = Ok (lex_compare ltb l m)).
Proof.
  intros A n os st v w s t l m ltb H R Ev Cv Ew Cw. destruct (run_inv os _ _ (init_inv n) H R) as [I _].
  destruct (Inv_view st v s I Ev) as (KS & L & V & C'). rewrite Cv in C'. injection C' as <-.
  destruct (Inv_view st w t I Ew) as (KT & M & W & C'). rewrite Cw in C'. injection C' as <-.
  assert (X := compare_spec ltb (hp st) s t l m KS V KT W). split; [exact X|]. intros LE. rewrite X, firstn_all2 by lia. reflexivity.
Qed.
Theorem C17_compare_refuted : exists st s t,
  run (init 2) [OMake 0 [1;2] 0; OMake 1 [1] 0] = Ok st /\ nth_error (vars st) 0 = Some s /\ nth_error (vars st) 1 = Some t /\
  compare Z.ltb (hp st) s t = Ok 0 /\ compare Z.ltb (hp st) t s = Ok (-1) /\ equal Z.eqb (hp st) s t = Ok false.
Proof. do 3 eexists. split; [vm_compute; reflexivity|]. split; [reflexivity|]. split; [reflexivity|]. vm_compute. auto. Qed.

(** C17. find (with a value or a predicate) returns the first index after [after]
    that matches, or -1. *)
Theorem C17_find : forall A n (os : list (op A)) st v s b l p after,
  hist_ok (init n) os -> run (init n) os = Ok st -> nth_error (vars st) v = Some s -> s_body s = Some b -> contents st v = Some l ->
  is_int after ->
  exists r, find p (hp st) s after = Ok r /\ first_at p l (Z.to_nat (after + 1)) r.
Proof.
  intros A n os st v s b l p after H R Ev Eb Cv BI. destruct (run_inv os _ _ (init_inv n) H R) as [I _].
  destruct (Inv_view st v s I Ev) as (KS & L & V & C'). rewrite Cv in C'. injection C' as <-.
  destruct (view_len _ s l KS V) as (LN & _). unfold find, with_body. rewrite Eb. cbv zeta. unfold is_int in BI.
  replace (if after <? 0 then 0 else after + 1) with (Z.of_nat (Z.to_nat (after + 1))) by (destruct (Z.ltb_spec after 0); lia).
  apply (find_spec p (hp st) s l KS V). lia.
Qed.

(** C17. rfind returns the last matching index below [before] - but never looks
    at index 0. *)
Theorem C17_rfind_partial : forall A n (os : list (op A)) st v s b l p before,
  hist_ok (init n) os -> run (init n) os = Ok st -> nth_error (vars st) v = Some s -> s_body s = Some b -> contents st v = Some l ->
  is_int before -> before <= Z.of_nat (length l) -> l <> [] ->
  let hi := if before <? 0 then length l else Z.to_nat before in
  exists r, rfind p (hp st) s before = Ok r /\ last_in p l 1 hi r.
Proof.
  intros A n os st v s b l p before H R Ev Eb Cv BI BB NE hi. destruct (run_inv os _ _ (init_inv n) H R) as [I _].
  destruct (Inv_view st v s I Ev) as (KS & L & V & C'). rewrite Cv in C'. injection C' as <-.
  destruct (view_len _ s l KS V) as (LN & _). unfold rfind, with_body. rewrite Eb. unfold is_int in BI.
  assert (0 < length l)%nat by (destruct l; [congruence|cbn; lia]).
  set (i := Z.to_nat _). assert (Hi : i = (hi - 1)%nat) by (unfold i, hi; destruct (Z.ltb_spec before 0); lia).
  destruct (rfind_spec p (hp st) s l KS V i) as (r & E & F).
  { unfold i. destruct (Z.ltb_spec before 0); lia. }
  exists r. split; [exact E|]. destruct (Nat.eq_dec hi 0) as [Z0|].
  - replace (S i) with 1%nat in F by lia. rewrite Z0. destruct F as [[-> F]|(q & a & -> & F1 & _)]; [left; split; [reflexivity|intros; lia]|lia].
  - replace (S i) with hi in F by lia. exact F.
Qed.
Theorem C17_rfind_refuted : exists st s,
  run (init 1) [OMake 0 [5;6] 0] = Ok st /\ nth_error (vars st) 0 = Some s /\ contents st 0 = Some [5;6] /\ rfind (Z.eqb 5) (hp st) s (-1) = Ok (-1).
Proof. do 2 eexists. split; [vm_compute; reflexivity|]. split; [reflexivity|]. vm_compute. auto. Qed.

(** C17. The functional helpers fold the elements in order. *)
Theorem C17_functional_helpers : forall A B n (os : list (op A)) st v s b l p (f : B -> A -> B) start,
  hist_ok (init n) os -> run (init n) os = Ok st -> nth_error (vars st) v = Some s -> s_body s = Some b -> contents st v = Some l ->
  inject start f (hp st) s = Ok (fold_left f l start) /\
  all p (hp st) s = Ok (forallb p l) /\ any p (hp st) s = Ok (existsb p l) /\
  one p (hp st) s = Ok (Nat.eqb (length (filter p l)) 1).
Proof.
  intros A B n os st v s b l p f start H R Ev Eb Cv. destruct (run_inv os _ _ (init_inv n) H R) as [I _].
  destruct (Inv_view st v s I Ev) as (KS & L & V & C'). rewrite Cv in C'. injection C' as <-.
  destruct (view_len _ s l KS V) as (LN & _). unfold inject, all, any, one, with_body. rewrite Eb.
  split; [exact (visit_spec f (hp st) s l KS V (Z.to_nat (s_num s)) 0%nat start ltac:(lia))|].
  split; [exact (all_spec p (hp st) s l KS V (Z.to_nat (s_num s)) 0%nat ltac:(lia))|].
  split; [exact (any_spec p (hp st) s l KS V (Z.to_nat (s_num s)) 0%nat ltac:(lia))|].
  exact (one_spec p (hp st) s l KS V (Z.to_nat (s_num s)) 0%nat false ltac:(lia)).
Qed.

(** C17. select and map build the filtered / mapped list in a new array and
    change no other. *)
Theorem C17_select_map : forall A n (os : list (op A)) st v s l p f h' r,
  hist_ok (init n) os -> run (init n) os = Ok st -> nth_error (vars st) v = Some s -> contents st v = Some l ->
  (select p (hp st) s = Ok (h', r) -> view h' r = Some (filter p l) /\ forall w t, nth_error (vars st) w = Some t -> view h' t = view (hp st) t) /\
  (map_ f (hp st) s = Ok (h', r) -> view h' r = Some (map f l) /\ forall w t, nth_error (vars st) w = Some t -> view h' t = view (hp st) t).
Proof.
  intros A n os st v s l p f h' r H R Ev Cv. destruct (run_inv os _ _ (init_inv n) H R) as [I _].
  destruct (Inv_view st v s I Ev) as (KS & L & V & C'). rewrite Cv in C'. injection C' as <-.
  assert (IN := nth_error_In _ _ Ev).
  split; intros E.
  - destruct (select_spec p _ s _ l _ I IN V E) as (_ & SA & VW). split; [exact VW|]. intros w t Et. apply same_view.
    unfold same_all in SA. rewrite Forall_forall in SA. exact (SA t (nth_error_In _ _ Et)).
  - destruct (map_spec f _ s _ l _ I IN V E) as (_ & SA & VW). split; [exact VW|]. intros w t Et. apply same_view.
    unfold same_all in SA. rewrite Forall_forall in SA. exact (SA t (nth_error_In _ _ Et)).
Qed.

(** C17 refuted: bsearch probes one past the end (array of one element); every
    helper dereferences the null body of an empty array; delete_if deletes
    nothing. *)
Theorem C17_bsearch_refuted : exists st s,
  run (init 1) [OMake 0 [5] 0] = Ok st /\ nth_error (vars st) 0 = Some s /\
  bsearch_loop 10 0 (s_num s) (fun a => a - 5) (hp st) s = UB.
Proof. do 2 eexists. split; [vm_compute; reflexivity|]. split; [reflexivity|]. vm_compute. reflexivity. Qed.
(** C17 (what holds of bsearch): the search ends within as many probes as there
    are elements, and an index inside the array that it returns is the index of
    an element the comparator accepts. *)
Theorem C17_bsearch_partial : forall A n (os : list (op A)) st v s l c,
  hist_ok (init n) os -> run (init n) os = Ok st -> nth_error (vars st) v = Some s -> contents st v = Some l -> Z.of_nat (length l) < 2^31 ->
  bsearch_loop (S (length l)) 0 (s_num s) c (hp st) s <> Ok None /\
  forall fuel m, bsearch_loop fuel 0 (s_num s) c (hp st) s = Ok (Some m) -> m <> -1 ->
    0 < m /\ (m < Z.of_nat (length l) -> exists a, nth_error l (Z.to_nat m) = Some a /\ c a = 0).
Proof.
  intros A n os st v s l c H R Es C BL. destruct (run_inv os _ _ (init_inv n) H R) as [I _].
  destruct (Inv_view st v s I Es) as (KS & L & V & C'). rewrite C in C'. injection C' as <-.
  destruct (view_len _ s l KS V) as (LN & _).
  assert (MID : forall lo hi, 0 <= lo -> lo < hi -> hi < 2^31 -> lo < u32 (lo + u32 (hi - lo + 1) / 2) <= hi).
  { intros lo hi H1 H2 H3. unfold u32. rewrite (Z.mod_small (hi - lo + 1)) by lia. rewrite Z.mod_small by lia. lia. }
  assert (NX : forall m, 0 < m -> m < 2^31 -> u32 (m - 1) = m - 1 /\ u32 (m + 1) = m + 1).
  { clear. intros m H1 H2. unfold u32. split; apply Z.mod_small; lia. }
  assert (STEP : forall f lo hi, 0 <= lo -> hi < 2^31 -> (hi <= lo /\ bsearch_loop (S f) lo hi c (hp st) s = Ok (Some (-1))) \/
    exists m, lo < m <= hi /\ bsearch_loop (S f) lo hi c (hp st) s =
      (do a <- elem_at (hp st) s m; if c a =? 0 then Ok (Some m) else if c a >? 0 then bsearch_loop f lo (m - 1) c (hp st) s else bsearch_loop f (m + 1) hi c (hp st) s)).
  { intros f lo hi H1 H2. cbn [bsearch_loop]. destruct (Z.gtb_spec hi lo) as [G|G]; [right|left; split; [lia|reflexivity]].
    cbv zeta. pose proof (MID lo hi H1 G H2) as M. revert M. generalize (u32 (lo + u32 (hi - lo + 1) / 2)). intros m M.
    exists m. split; [exact M|]. destruct (NX m ltac:(lia) ltac:(lia)) as [-> ->]. reflexivity. }
  clear MID NX. split.
  - assert (T : forall fuel lo hi, 0 <= lo -> hi < 2^31 -> hi - lo <= Z.of_nat fuel -> bsearch_loop (S fuel) lo hi c (hp st) s <> Ok None).
    { induction fuel as [|fuel IH]; intros lo hi H1 H2 H3.
      - destruct (STEP O lo hi H1 H2) as [[_ ->]|(m & M & _)]; [discriminate|lia].
      - destruct (STEP (S fuel) lo hi H1 H2) as [[_ ->]|(m & M & ->)]; [discriminate|].
        destruct (elem_at (hp st) s m) as [a| |]; cbn [obind]; try discriminate. destruct (c a =? 0); [discriminate|].
        destruct (c a >? 0); apply IH; lia. }
    apply T; lia.
  - assert (T : forall fuel lo hi m, 0 <= lo -> hi < 2^31 -> bsearch_loop fuel lo hi c (hp st) s = Ok (Some m) -> m <> -1 ->
      0 < m /\ (m < Z.of_nat (length l) -> exists a, nth_error l (Z.to_nat m) = Some a /\ c a = 0)).
    { induction fuel as [|fuel IH]; intros lo hi m H1 H2 E NM; [discriminate|].
      destruct (STEP fuel lo hi H1 H2) as [[_ E']|(k & M & E')]; rewrite E' in E; [congruence|]. clear E'.
      apply obind_ok in E as (a & EA & E). destruct (Z.eqb_spec (c a) 0) as [CZ|].
      - assert (m = k) by congruence. subst m. split; [lia|]. intros LK. destruct (view_elem (hp st) s l k V KS ltac:(lia)) as (a' & EA' & NA).
        assert (a' = a) by congruence. subst a'. eauto.
      - destruct (c a >? 0); (eapply IH; [| |exact E|exact NM]); lia. }
    intros fuel m E NM. apply (T fuel 0 (s_num s) m); try assumption; lia.
Qed.
(** C17 refuted: the first element is never found, nor is one that is the only
    one left between the bounds; in a slice, bsearch may find an element after
    its end. *)
Theorem C17_bsearch_misses_refuted : exists st s t,
  run (init 2) [OMake 0 [1;2;3;4;5;6;7] 0; OSlice 1 0 0 1] = Ok st /\ nth_error (vars st) 0 = Some s /\ nth_error (vars st) 1 = Some t /\
  bsearch_loop 10 0 (s_num s) (fun a => a - 1) (hp st) s = Ok (Some (-1)) /\ bsearch_loop 10 0 (s_num s) (fun a => a - 4) (hp st) s = Ok (Some (-1)) /\
  contents st 1 = Some [1] /\ bsearch_loop 10 0 (s_num t) (fun a => a - 2) (hp st) t = Ok (Some 1).
Proof. do 3 eexists. split; [vm_compute; reflexivity|]. split; [reflexivity|]. split; [reflexivity|]. repeat match goal with |- _ /\ _ => split end; vm_compute; reflexivity. Qed.
Theorem C17_empty_refuted : exists s, nth_error (vars (init 1 : state Z)) 0 = Some s /\
  find (Z.eqb 1) (hp (init 1)) s (-1) = UB /\ inject 0 Z.add (hp (init 1)) s = UB /\ select (Z.eqb 1) (hp (init 1)) s = UB.
Proof. eexists. split; [reflexivity|]. auto. Qed.
Lemma delete_if_scan {A} (p : A -> bool) h s l : view h s = Some l -> slice_ok h s -> forall k i bp, (Z.to_nat i + k <= length l)%nat -> 0 <= i -> 0 <= bp ->
  exists r, delete_if_loop k i bp p h s = Ok r /\ 0 <= r.
Proof.
  intros V KS. induction k as [|k IH]; intros i bp H1 H2 H3; cbn [delete_if_loop]; [eauto|].
  destruct (view_elem h s l i V KS ltac:(lia)) as (a & -> & _). cbn [obind]. apply IH; [lia|lia|]. destruct (p a); lia.
Qed.
(** C17 refuted: on an array that shares its storage with no other, delete_if
    never deletes anything, whatever the condition. *)
Theorem C17_delete_if_refuted : forall A n (os : list (op A)) st v s p,
  hist_ok (init n) os -> run (init n) os = Ok st -> nth_error (vars st) v = Some s ->
  delete_if_unshared p (hp st) s = Ok (hp st, s).
Proof.
  intros A n os st v s p H R Es. destruct (run_inv os _ _ (init_inv n) H R) as [I _].
  destruct (Inv_view st v s I Es) as (KS & L & V & C'). destruct (view_len _ s L KS V) as (LN & _).
  unfold delete_if_unshared. destruct (Z.eqb_spec (s_num s) 0); [reflexivity|].
  destruct (delete_if_scan p (hp st) s L V KS (Z.to_nat (s_num s)) 0 0 ltac:(lia) ltac:(lia) ltac:(lia)) as (r & E & HR).
  unfold with_body. destruct (s_body s) as [b|] eqn:B; [|exfalso; unfold view in V; rewrite B in V; destruct (Z.eqb_spec (s_num s) 0); [contradiction|discriminate]].
  rewrite E. cbn [obind]. destruct (Z.ltb_spec r 0); [lia|reflexivity].
Qed.
Example C17_delete_if_ex : exists st s, run (init 1) [OMake 0 [1;2;3] 0] = Ok st /\ hist_ok (init 1) [OMake 0 [1;2;3] 0] /\
  nth_error (vars st) 0 = Some s /\ delete_if_unshared (fun _ => true) (hp st) s = Ok (hp st, s).
Proof. do 2 eexists. split; [vm_compute; reflexivity|]. split; [split; [unfold op_ok, is_index; cbn [length]; lia|exact Logic.I]|]. split; [reflexivity|]. vm_compute. reflexivity. Qed.

(** Non-vacuity: a history with sharing, slices and unsharing in which all the
    hypotheses hold. *)
Definition demo : list (op Z) :=
  [OMake 0 [1;2;3;4] 0; OCopy 1 0; OSlice 2 0 1 2; OSet 1 0 9; OPush 2 7; OInsert 0 2 1; OPull 1].
Lemma hist_cons (st st' : state Z) o r : step st o = Ok st' -> op_ok st o -> hist_ok st' r -> hist_ok st (o :: r).
Proof. intros E K H. cbn [hist_ok]. rewrite E. auto. Qed.
Example C15_demo_ok : hist_ok (init 3) demo.
Proof.
  unfold demo. do 5 (eapply hist_cons; [vm_compute; reflexivity|unfold op_ok, is_index, is_int; cbn [length]; try lia; exact Logic.I|]).
  eapply hist_cons; [vm_compute; reflexivity| |eapply hist_cons; [vm_compute; reflexivity|exact Logic.I|exact Logic.I]].
  split; [lia|]. split; [lia|]. intros l El. vm_compute in El. injection El as <-. cbn [length]. lia.
Qed.
Example C15_demo_run : exists st, run (init 3) demo = Ok st /\ contents st 0 = Some [1;2;9;2;3;4;3;4] /\
  contents st 1 = Some [9;2;3] /\ contents st 2 = Some [2;3;7].
Proof. eexists. split; [vm_compute; reflexivity|]. vm_compute. auto. Qed.
(** The side condition of C16 is met both by shared and by unshared variables. *)
Example C16_demo : exists st, run (init 3) demo = Ok st /\
  (unshared st 0 -> at_start st 0) /\ (unshared st 2 -> at_start st 2) /\ fits st (OPush 0 1) /\ expected st (OPush 0 1) = Some [1;2;9;2;3;4;3;4;1].
Proof.
  eexists. split; [vm_compute; reflexivity|]. split; [intros _; eexists; split; reflexivity|]. split; [intros _; eexists; split; reflexivity|].
  split; [|reflexivity]. split; [|exact Logic.I]. intros b x Hb. cbn in Hb. cbn [added].
  do 4 (destruct b as [|b]; [cbn in Hb; try discriminate; injection Hb as <-; cbn; lia|]). destruct b; discriminate.
Qed.

Print Assumptions C15_isolation.
Print Assumptions C15_contents_defined.
Print Assumptions C15_no_leak_no_dangling.
Print Assumptions C15_memory_safe.
Print Assumptions C16_operations_partial.
Print Assumptions C16_remove_ends.
Print Assumptions C16_edits_succeed.
Print Assumptions C16_element_access.
Print Assumptions C16_slice_to_end_refuted.
Print Assumptions C16_offset_refuted.
Print Assumptions C16_remove_range_refuted.
Print Assumptions C16_self_insert_refuted.
Print Assumptions C16_shorter_refuted.
Print Assumptions C17_equality.
Print Assumptions C17_compare_partial.
Print Assumptions C17_compare_refuted.
Print Assumptions C17_find.
Print Assumptions C17_rfind_partial.
Print Assumptions C17_rfind_refuted.
Print Assumptions C17_functional_helpers.
Print Assumptions C17_select_map.
Print Assumptions C17_bsearch_refuted.
Print Assumptions C17_bsearch_partial.
Print Assumptions C17_bsearch_misses_refuted.
Print Assumptions C17_empty_refuted.
Print Assumptions C17_delete_if_refuted.
