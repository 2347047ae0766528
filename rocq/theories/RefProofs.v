From Verif Require Import Base RefModel RefSpec.

(** ** Counting *)
Definition sum {A} (f : A -> nat) (l : list A) : nat := fold_right (fun x n => (f x + n)%nat) 0%nat l.

Lemma sum_upd {A} (f : A -> nat) l i x y : nth_error l i = Some y ->
  (sum f (upd l i x) + f y = sum f l + f x)%nat.
Proof.
  revert i. induction l as [|a l IH]; intros [|i] H; simpl in *; try discriminate.
  - inversion H; subst. lia.
  - specialize (IH i H). lia.
Qed.
Lemma upd_length {A} (l : list A) i x : length (upd l i x) = length l.
Proof. revert i; induction l as [|a l IH]; intros [|i]; simpl; auto. Qed.
Lemma nth_upd_eq {A} (l : list A) i x y : nth_error l i = Some y -> nth_error (upd l i x) i = Some x.
Proof. revert i; induction l as [|a l IH]; intros [|i] H; simpl in *; try discriminate; auto. Qed.
Lemma nth_upd_ne {A} (l : list A) i j x : i <> j -> nth_error (upd l i x) j = nth_error l j.
Proof. revert i j; induction l as [|a l IH]; intros [|i] [|j] H; simpl; auto; try congruence. Qed.
Lemma sum_le {A} (f : A -> nat) l : (forall x, (f x <= 1)%nat) -> (sum f l <= length l)%nat.
Proof. intros H. induction l as [|a l IH]; simpl; [lia|]. specialize (H a). lia. Qed.
Lemma sum_pos {A} (f : A -> nat) l i x : nth_error l i = Some x -> (f x <= sum f l)%nat.
Proof. revert i; induction l as [|a l IH]; intros [|i] H; simpl in *; try discriminate.
  - inversion H; subst; lia.
  - specialize (IH i H). lia. Qed.
Lemma sum_zero {A} (f : A -> nat) l : (forall x, In x l -> f x = 0%nat) -> sum f l = 0%nat.
Proof. induction l as [|a l IH]; intros H; simpl; [reflexivity|]. rewrite (H a) by (left; reflexivity).
  rewrite IH; [reflexivity|]. intros x Hx; apply H; right; exact Hx. Qed.
Lemma sum_two {A} (f : A -> nat) l i j x y : i <> j -> nth_error l i = Some x -> nth_error l j = Some y ->
  (f x + f y <= sum f l)%nat.
Proof.
  revert i j; induction l as [|a l IH]; intros [|i] [|j] N Hi Hj; simpl in *; try discriminate; try congruence.
  - inversion Hi; subst. assert (P := sum_pos f l j y Hj). lia.
  - inversion Hj; subst. assert (P := sum_pos f l i x Hi). lia.
  - assert (i <> j) by congruence. specialize (IH i j H Hi Hj). lia.
Qed.

Definition in_slot (o : nat) (v : option nat) : nat :=
  match v with Some p => if Nat.eqb p o then 1 else 0 | None => 0 end.
Definition token (o : nat) (p : pc) : nat :=
  match p with
  | AddChk _ q | Swap _ (Some q) | RelChk q | RelDec q => if Nat.eqb q o then 1 else 0
  | _ => 0
  end.
Definition deleting (o : nat) (p : pc) : nat :=
  match p with Del q => if Nat.eqb q o then 1 else 0 | _ => 0 end.

Definition handles (s : state) (o : nat) : nat := sum (in_slot o) (slots s).
Definition tokens (s : state) (o : nat) : nat := sum (token o) (pcs s).
Definition ndel (s : state) (o : nat) : nat := sum (deleting o) (pcs s).
Definition refs (s : state) (o : nat) : nat := (handles s o + tokens s o)%nat.

Definition pc_dst (p : pc) : option nat := match p with AddChk d _ | Swap d _ => Some d | _ => None end.

Definition obj_ok (s : state) (o : nat) (ob : obj) : Prop :=
  (o_dels ob = 0%nat /\ o_count ob = Z.of_nat (refs s o) /\
     ((refs s o > 0 /\ ndel s o = 0) \/ (refs s o = 0 /\ ndel s o = 1))%nat) \/
  (o_dels ob = 1%nat /\ refs s o = 0%nat /\ ndel s o = 0%nat).

Definition Inv (s : state) : Prop :=
  length (owner s) = length (slots s) /\
  (forall o ob, nth_error (objs s) o = Some ob -> obj_ok s o ob) /\
  (forall o, (length (objs s) <= o)%nat -> refs s o = 0%nat /\ ndel s o = 0%nat) /\
  (forall t p d, nth_error (pcs s) t = Some p -> pc_dst p = Some d -> (d < length (slots s))%nat) /\
  Z.of_nat (length (slots s) + length (pcs s)) < 2^31.

Lemma in_slot_le o v : (in_slot o v <= 1)%nat.
Proof. unfold in_slot. destruct v; [destruct (Nat.eqb _ _)|]; lia. Qed.
Lemma token_le o p : (token o p <= 1)%nat.
Proof. unfold token. destruct p as [| | ? [?|]| | |]; try destruct (Nat.eqb _ _); lia. Qed.

Lemma refs_bound s o : (refs s o <= length (slots s) + length (pcs s))%nat.
Proof.
  unfold refs, handles, tokens.
  assert (A := sum_le (in_slot o) (slots s) (in_slot_le o)).
  assert (B := sum_le (token o) (pcs s) (token_le o)). lia.
Qed.

Lemma s32_small x : - 2^31 <= x < 2^31 -> s32 x = x.
Proof.
  intros H. unfold s32. destruct (Z.ltb_spec (x mod 4294967296) 2147483648);
  destruct (Z.neg_nonneg_cases x).
  - exfalso. replace x with (x + 4294967296 + (-1) * 4294967296) in H0 by lia. rewrite Z.mod_add, Z.mod_small in H0; lia.
  - apply Z.mod_small; lia.
  - replace x with (x + 4294967296 + (-1) * 4294967296) at 1 by lia. rewrite Z.mod_add, Z.mod_small; lia.
  - rewrite Z.mod_small in H0; lia.
Qed.

Lemma access_ok s o : Inv s -> (refs s o > 0 \/ ndel s o > 0)%nat ->
  exists ob, nth_error (objs s) o = Some ob /\ access s o = Ok ob /\ o_dels ob = 0%nat /\
    o_count ob = Z.of_nat (refs s o).
Proof.
  intros (_ & HO & HN & _ & _) Hr. unfold access.
  destruct (nth_error (objs s) o) as [ob|] eqn:E.
  - destruct (HO o ob E) as [(D & C & _)|(_ & R & N)]; [|lia].
    exists ob. rewrite D. auto.
  - apply nth_error_None in E. destruct (HN o E). lia.
Qed.

(** Effect of replacing one thread's pc on the counts. *)
Lemma tokens_pc s t p q o : nth_error (pcs s) t = Some q ->
  (tokens (set_pc s t p) o + token o q = tokens s o + token o p)%nat.
Proof. intros H. unfold tokens; simpl. apply sum_upd; exact H. Qed.
Lemma ndel_pc s t p q o : nth_error (pcs s) t = Some q ->
  (ndel (set_pc s t p) o + deleting o q = ndel s o + deleting o p)%nat.
Proof. intros H. unfold ndel; simpl. apply sum_upd; exact H. Qed.

Lemma idle_true s t : idle s t = true -> nth_error (pcs s) t = Some Idle.
Proof. unfold idle. destruct (nth_error (pcs s) t) as [[]|]; try discriminate; reflexivity. Qed.
Lemma owns_lt s t d : Inv s -> owns s t d = true -> (d < length (slots s))%nat.
Proof.
  intros (L & _) H. unfold owns in H. destruct (nth_error (owner s) d) eqn:E; [|discriminate].
  rewrite <- L. apply nth_error_Some. congruence.
Qed.

Lemma nth_upd_inv {A} (l : list A) i x j y : nth_error (upd l i x) j = Some y ->
  (j = i /\ y = x /\ (i < length l)%nat) \/ (j <> i /\ nth_error l j = Some y).
Proof.
  intros H. destruct (Nat.eq_dec j i) as [->|N].
  - left. assert (i < length (upd l i x))%nat by (apply nth_error_Some; congruence).
    rewrite upd_length in *. destruct (nth_error l i) as [z|] eqn:E; [|apply nth_error_None in E; lia].
    rewrite (nth_upd_eq l i x z E) in H. inversion H; auto.
  - right. rewrite nth_upd_ne in H by congruence. auto.
Qed.

Ltac pcfacts s t p q Hq :=
  let T := fresh "T" in let N := fresh "N" in
  assert (T := fun o => tokens_pc s t p q o Hq); assert (N := fun o => ndel_pc s t p q o Hq).

(** ** Preservation, one lemma per kind of step.  The general shape: a new
    state whose objs/slots/pcs differ in one place. *)
Lemma Inv_intro s s' :
  Inv s ->
  length (owner s') = length (slots s') -> length (slots s') = length (slots s) -> length (pcs s') = length (pcs s) ->
  (forall t p d, nth_error (pcs s') t = Some p -> pc_dst p = Some d -> (d < length (slots s))%nat) ->
  (forall o ob, nth_error (objs s') o = Some ob -> obj_ok s' o ob) ->
  (forall o, (length (objs s') <= o)%nat -> refs s' o = 0%nat /\ ndel s' o = 0%nat) ->
  Inv s'.
Proof.
  intros (_ & _ & _ & _ & B) L1 L2 L3 P O N. unfold Inv.
  split; [exact L1|]. split; [exact O|]. split; [exact N|]. rewrite L2, L3. split; [exact P|exact B].
Qed.

Lemma pcs_dst_upd s t p : Inv s -> (forall d, pc_dst p = Some d -> (d < length (slots s))%nat) ->
  forall u q d, nth_error (upd (pcs s) t p) u = Some q -> pc_dst q = Some d -> (d < length (slots s))%nat.
Proof.
  intros (_ & _ & _ & P & _) Hp u q d H E. apply nth_upd_inv in H as [(-> & -> & _)|(_ & H)].
  - apply Hp; exact E.
  - eapply P; eassumption.
Qed.

(** A pc change that moves no token and no pending delete. *)
Lemma inv_pc_neutral s t p q : Inv s -> nth_error (pcs s) t = Some q ->
  (forall o, token o p = token o q) -> (forall o, deleting o p = deleting o q) ->
  (forall d, pc_dst p = Some d -> (d < length (slots s))%nat) ->
  Inv (set_pc s t p).
Proof.
  intros I Hq Ht Hd Hp. pcfacts s t p q Hq.
  assert (R : forall o, refs (set_pc s t p) o = refs s o).
  { intros o. unfold refs. specialize (T o). rewrite Ht in T. unfold handles; simpl. lia. }
  assert (D : forall o, ndel (set_pc s t p) o = ndel s o).
  { intros o. specialize (N o). rewrite Hd in N. lia. }
  destruct I as (L & O & NN & P & B) eqn:EI. clear EI.
  apply (Inv_intro s); [exact I|exact L|reflexivity|simpl; apply upd_length| | |].
  - simpl. apply pcs_dst_upd; [exact (conj L (conj O (conj NN (conj P B))))|exact Hp].
  - intros o ob Ho. simpl in Ho. specialize (O o ob Ho). unfold obj_ok in *. rewrite R, D. exact O.
  - intros o Ho. simpl in Ho. rewrite R, D. apply NN; exact Ho.
Qed.

Lemma inv_give s slot t' : Inv s ->
  Inv {| objs := objs s; slots := slots s; owner := upd (owner s) slot t'; pcs := pcs s |}.
Proof.
  intros (L & O & NN & P & B). unfold Inv. simpl. rewrite upd_length. auto.
Qed.

(** New object, owned by the creating thread's pending assignment. *)
Lemma inv_new s t dst : Inv s -> nth_error (pcs s) t = Some Idle -> (dst < length (slots s))%nat ->
  Inv (set_pc (add_obj s {| o_count := s32 (0 + 1); o_dels := 0 |}) t (AddChk dst (length (objs s)))).
Proof.
  intros I Hq Hd. set (s1 := add_obj s _). set (p := AddChk dst (length (objs s))).
  assert (Hq1 : nth_error (pcs s1) t = Some Idle) by exact Hq.
  pcfacts s1 t p Idle Hq1. simpl token in T. simpl deleting in N.
  destruct I as (L & O & NN & P & B) eqn:EI. clear EI.
  apply (Inv_intro s); [exact I|exact L|reflexivity|simpl; apply upd_length| | |].
  - simpl. apply pcs_dst_upd; [exact (conj L (conj O (conj NN (conj P B))))|].
    intros d E. inversion E; subst. exact Hd.
  - intros o ob Ho. simpl in Ho. destruct (Nat.lt_ge_cases o (length (objs s))) as [Hlt|Hge].
    + rewrite nth_error_app1 in Ho by exact Hlt. specialize (O o ob Ho). unfold obj_ok in *.
      specialize (T o). specialize (N o).
      destruct (Nat.eqb_spec (length (objs s)) o); [lia|].
      assert (R : refs (set_pc s1 t p) o = refs s o) by (unfold refs, handles, tokens in *; simpl in *; lia).
      assert (D : ndel (set_pc s1 t p) o = ndel s o) by (unfold ndel in *; simpl in *; lia).
      rewrite R, D. exact O.
    + rewrite nth_error_app2 in Ho by exact Hge.
      destruct (o - length (objs s))%nat as [|k] eqn:K; [|destruct k; discriminate].
      assert (o = length (objs s)) by lia. subst o. inversion Ho; subst ob.
      specialize (T (length (objs s))). specialize (N (length (objs s))). rewrite Nat.eqb_refl in T.
      destruct (NN (length (objs s)) (le_n _)) as [NR ND].
      left. simpl o_dels. simpl o_count. split; [reflexivity|].
      assert (R : refs (set_pc s1 t p) (length (objs s)) = 1%nat) by (unfold refs, handles, tokens in *; simpl in *; lia).
      assert (D : ndel (set_pc s1 t p) (length (objs s)) = 0%nat) by (unfold ndel in *; simpl in *; lia).
      rewrite R, D. split; [reflexivity|]. left; lia.
  - intros o Ho. simpl in Ho. rewrite app_length in Ho. simpl in Ho.
    destruct (NN o ltac:(lia)) as [NR ND]. specialize (T o). specialize (N o).
    destruct (Nat.eqb_spec (length (objs s)) o); [lia|].
    unfold refs, handles, tokens, ndel in *; simpl in *. lia.
Qed.

Lemma inv_copy s t dst o ob : Inv s -> nth_error (pcs s) t = Some Idle -> (dst < length (slots s))%nat ->
  nth_error (objs s) o = Some ob -> o_dels ob = 0%nat -> (refs s o > 0)%nat ->
  o_count ob = Z.of_nat (refs s o) ->
  Inv (set_pc (set_obj s o {| o_count := s32 (o_count ob + 1); o_dels := o_dels ob |}) t (AddChk dst o)).
Proof.
  intros I Hq Hd Ho D R C.
  set (s1 := set_obj s o _). set (p := AddChk dst o).
  assert (Hq1 : nth_error (pcs s1) t = Some Idle) by exact Hq.
  pcfacts s1 t p Idle Hq1. simpl token in T. simpl deleting in N.
  assert (BD := refs_bound (set_pc s1 t p) o).
  destruct I as (L & O & NN & P & B) eqn:EI. clear EI.
  apply (Inv_intro s); [exact I|exact L|reflexivity|simpl; apply upd_length| | |].
  - simpl. apply pcs_dst_upd; [exact (conj L (conj O (conj NN (conj P B))))|].
    intros d E. inversion E; subst. exact Hd.
  - intros o' ob' Ho'. simpl in Ho'. specialize (T o'). specialize (N o').
    apply nth_upd_inv in Ho' as [(-> & -> & _)|(Ne & Ho')].
    + rewrite Nat.eqb_refl in T.
      assert (Rn : refs (set_pc s1 t p) o = S (refs s o)) by (unfold refs, handles, tokens in *; simpl in *; lia).
      assert (Dn : ndel (set_pc s1 t p) o = ndel s o) by (unfold ndel in *; simpl in *; lia).
      left. simpl. split; [exact D|]. rewrite Rn in *. simpl slots in BD. simpl pcs in BD. rewrite upd_length in BD.
      rewrite s32_small by lia. rewrite Dn. split; [lia|]. left.
      destruct (O o ob Ho) as [(_ & _ & [[? ?]|[? ?]])|(? & ? & ?)]; lia.
    + destruct (Nat.eqb_spec o o'); [congruence|].
      specialize (O o' ob' Ho'). unfold obj_ok in *.
      assert (Rn : refs (set_pc s1 t p) o' = refs s o') by (unfold refs, handles, tokens in *; simpl in *; lia).
      assert (Dn : ndel (set_pc s1 t p) o' = ndel s o') by (unfold ndel in *; simpl in *; lia).
      rewrite Rn, Dn. exact O.
  - intros o' Hl. simpl in Hl. rewrite upd_length in Hl. specialize (T o'). specialize (N o').
    assert (o < length (objs s))%nat by (apply nth_error_Some; congruence).
    destruct (Nat.eqb_spec o o'); [lia|]. destruct (NN o' Hl).
    unfold refs, handles, tokens, ndel in *; simpl in *. lia.
Qed.

Lemma inv_swap s t dst v old : Inv s -> nth_error (pcs s) t = Some (Swap dst v) ->
  nth_error (slots s) dst = Some old ->
  Inv (set_pc (set_slot s dst v) t (match old with Some o => RelChk o | None => Idle end)).
Proof.
  intros I Hq Ho. set (s1 := set_slot s dst v). set (p := match old with Some o => RelChk o | None => Idle end).
  assert (Hq1 : nth_error (pcs s1) t = Some (Swap dst v)) by exact Hq.
  pcfacts s1 t p (Swap dst v) Hq1.
  assert (S : forall o, (sum (in_slot o) (upd (slots s) dst v) + in_slot o old = sum (in_slot o) (slots s) + in_slot o v)%nat)
    by (intros o; apply sum_upd; exact Ho).
  assert (R : forall o, refs (set_pc s1 t p) o = refs s o).
  { intros o. specialize (T o). specialize (S o). unfold refs, handles, tokens in *. simpl in *.
    unfold p in *. destruct old as [oo|], v as [vv|]; simpl in *; lia. }
  assert (D : forall o, ndel (set_pc s1 t p) o = ndel s o).
  { intros o. specialize (N o). unfold ndel in *. simpl in *. unfold p in *. destruct old; simpl in *; lia. }
  destruct I as (L & O & NN & P & B) eqn:EI. clear EI.
  apply (Inv_intro s); [exact (conj L (conj O (conj NN (conj P B))))| | | | | |].
  - simpl. rewrite upd_length. exact L.
  - simpl. apply upd_length.
  - simpl. apply upd_length.
  - simpl. apply pcs_dst_upd; [exact (conj L (conj O (conj NN (conj P B))))|].
    intros d E. unfold p in E. destruct old; discriminate.
  - intros o ob Hob. simpl in Hob. specialize (O o ob Hob). unfold obj_ok in *. rewrite R, D. exact O.
  - intros o Hob. simpl in Hob. rewrite R, D. apply NN; exact Hob.
Qed.

Lemma inv_dec s t o ob : Inv s -> nth_error (pcs s) t = Some (RelDec o) ->
  nth_error (objs s) o = Some ob -> o_dels ob = 0%nat -> o_count ob = Z.of_nat (refs s o) ->
  let c := s32 (o_count ob - 1) in
  Inv (set_pc (set_obj s o {| o_count := c; o_dels := o_dels ob |}) t (if c =? 0 then Del o else Idle)).
Proof.
  intros I Hq Ho D C c. set (s1 := set_obj s o _). set (p := if c =? 0 then Del o else Idle).
  assert (Hq1 : nth_error (pcs s1) t = Some (RelDec o)) by exact Hq.
  pcfacts s1 t p (RelDec o) Hq1.
  assert (TP : forall o', token o' p = 0%nat) by (intros; unfold p; destruct (c =? 0); reflexivity).
  assert (Tk := sum_pos (token o) (pcs s) t _ Hq). simpl in Tk. rewrite Nat.eqb_refl in Tk.
  assert (BD := refs_bound s o).
  assert (R1 : (1 <= refs s o)%nat) by (unfold refs, tokens; lia).
  destruct I as (L & O & NN & P & B) eqn:EI. clear EI.
  assert (Hc : c = Z.of_nat (refs s o) - 1) by (unfold c; rewrite C; apply s32_small; lia).
  apply (Inv_intro s); [exact I|exact L|reflexivity|simpl; apply upd_length| | |].
  - simpl. apply pcs_dst_upd; [exact (conj L (conj O (conj NN (conj P B))))|].
    intros d E. unfold p in E. destruct (c =? 0); discriminate.
  - intros o' ob' Ho'. simpl in Ho'. specialize (T o'). specialize (N o'). rewrite TP in T. simpl in T, N.
    apply nth_upd_inv in Ho' as [(-> & -> & _)|(Ne & Ho')].
    + rewrite Nat.eqb_refl in T.
      assert (Rn : S (refs (set_pc s1 t p) o) = refs s o) by (unfold refs, handles, tokens in *; simpl in *; lia).
      destruct (O o ob Ho) as [(_ & _ & [[_ ND]|[? _]])|(? & ? & ?)]; [|lia|lia].
      left. simpl. split; [exact D|]. split; [lia|].
      assert (EP : deleting o p = if c =? 0 then 1%nat else 0%nat) by (unfold p; destruct (c =? 0); simpl; rewrite ?Nat.eqb_refl; reflexivity).
      rewrite EP in N. destruct (Z.eqb_spec c 0) as [Ec|Ec].
      * right. unfold ndel in *. cbn [s1 set_obj set_pc pcs] in *. fold p in N. clear TP. lia.
      * left. unfold ndel in *. cbn [s1 set_obj set_pc pcs] in *. fold p in N. lia.
    + destruct (Nat.eqb_spec o o'); [congruence|].
      specialize (O o' ob' Ho'). unfold obj_ok in *.
      assert (Rn : refs (set_pc s1 t p) o' = refs s o') by (unfold refs, handles, tokens in *; simpl in *; lia).
      assert (DP : deleting o' p = 0%nat).
      { unfold p. destruct (c =? 0); simpl; [|reflexivity]. destruct (Nat.eqb_spec o o'); [congruence|reflexivity]. }
      assert (Dn : ndel (set_pc s1 t p) o' = ndel s o') by (unfold ndel in *; simpl in *; lia).
      rewrite Rn, Dn. exact O.
  - intros o' Hl. simpl in Hl. rewrite upd_length in Hl. specialize (T o'). specialize (N o'). rewrite TP in T. simpl in T, N.
    assert (o < length (objs s))%nat by (apply nth_error_Some; congruence).
    destruct (Nat.eqb_spec o o'); [lia|]. destruct (NN o' Hl).
    assert (DP : deleting o' p = 0%nat).
    { unfold p. destruct (c =? 0); simpl; [|reflexivity]. destruct (Nat.eqb_spec o o'); [congruence|reflexivity]. }
    unfold refs, handles, tokens, ndel in *; simpl in *. lia.
Qed.

Lemma inv_del s t o ob : Inv s -> nth_error (pcs s) t = Some (Del o) ->
  nth_error (objs s) o = Some ob -> o_dels ob = 0%nat ->
  Inv (set_pc (set_obj s o {| o_count := o_count ob; o_dels := S (o_dels ob) |}) t Idle).
Proof.
  intros I Hq Ho D. set (s1 := set_obj s o _).
  assert (Hq1 : nth_error (pcs s1) t = Some (Del o)) by exact Hq.
  pcfacts s1 t Idle (Del o) Hq1. simpl in T, N.
  assert (Dk := sum_pos (deleting o) (pcs s) t _ Hq). simpl in Dk. rewrite Nat.eqb_refl in Dk.
  destruct I as (L & O & NN & P & B) eqn:EI. clear EI.
  apply (Inv_intro s); [exact I|exact L|reflexivity|simpl; apply upd_length| | |].
  - simpl. apply pcs_dst_upd; [exact (conj L (conj O (conj NN (conj P B))))|]. discriminate.
  - intros o' ob' Ho'. simpl in Ho'. specialize (T o'). specialize (N o').
    apply nth_upd_inv in Ho' as [(-> & -> & _)|(Ne & Ho')].
    + rewrite Nat.eqb_refl in N.
      destruct (O o ob Ho) as [(_ & _ & [[_ ND]|[RZ ND]])|(? & ? & ?)]; [unfold ndel in *; lia| |lia].
      right. simpl. rewrite D. split; [reflexivity|].
      unfold refs, handles, tokens, ndel in *; simpl in *. lia.
    + destruct (Nat.eqb_spec o o'); [congruence|].
      specialize (O o' ob' Ho'). unfold obj_ok in *.
      assert (Rn : refs (set_pc s1 t Idle) o' = refs s o') by (unfold refs, handles, tokens in *; simpl in *; lia).
      assert (Dn : ndel (set_pc s1 t Idle) o' = ndel s o') by (unfold ndel in *; simpl in *; lia).
      rewrite Rn, Dn. exact O.
  - intros o' Hl. simpl in Hl. rewrite upd_length in Hl. specialize (T o'). specialize (N o').
    assert (o < length (objs s))%nat by (apply nth_error_Some; congruence).
    destruct (Nat.eqb_spec o o'); [lia|]. destruct (NN o' Hl).
    unfold refs, handles, tokens, ndel in *; simpl in *. lia.
Qed.

Lemma slot_refs s i o : nth_error (slots s) i = Some (Some o) -> (refs s o > 0)%nat.
Proof.
  intros H. assert (P := sum_pos (in_slot o) (slots s) i _ H). simpl in P. rewrite Nat.eqb_refl in P.
  unfold refs, handles. lia.
Qed.
Lemma token_refs s t p o : nth_error (pcs s) t = Some p -> token o p = 1%nat -> (refs s o > 0)%nat.
Proof. intros H E. assert (P := sum_pos (token o) (pcs s) t _ H). unfold refs, tokens. lia. Qed.

Lemma step_inv s e : Inv s -> exists s', step s e = Ok s' /\ Inv s'.
Proof.
  intros I. destruct e as [t dst src|t dst|t dst|t dst|t slot t'|t]; cbn [step].
  - destruct (idle s t && owns s t dst && owns s t src) eqn:G; [|eauto].
    apply andb_true_iff in G as [G G3]. apply andb_true_iff in G as [G1 G2].
    apply idle_true in G1. assert (Hd := owns_lt _ _ _ I G2).
    destruct (nth_error (slots s) src) as [[o|]|] eqn:E; [| |eauto].
    + assert (R := slot_refs _ _ _ E). destruct (access_ok s o I (or_introl R)) as (ob & Ho & A & D & C).
      unfold addref. rewrite A. cbn [obind]. eexists. split; [reflexivity|].
      apply inv_copy; assumption.
    + eexists. split; [reflexivity|]. apply (inv_pc_neutral s t _ Idle); auto. intros d X. inversion X; subst; exact Hd.
  - destruct (idle s t && owns s t dst) eqn:G; [|eauto]. apply andb_true_iff in G as [G1 G2].
    apply idle_true in G1. assert (Hd := owns_lt _ _ _ I G2).
    eexists. split; [reflexivity|]. apply (inv_pc_neutral s t _ Idle); auto. intros d X. inversion X; subst; exact Hd.
  - destruct (idle s t && owns s t dst) eqn:G; [|eauto]. apply andb_true_iff in G as [G1 G2].
    apply idle_true in G1. assert (Hd := owns_lt _ _ _ I G2).
    eexists. split; [reflexivity|]. apply inv_new; assumption.
  - destruct (idle s t && owns s t dst) eqn:G; [|eauto]. apply andb_true_iff in G as [G1 G2].
    apply idle_true in G1. assert (Hd := owns_lt _ _ _ I G2).
    destruct (nth_error (slots s) dst) as [[o|]|] eqn:E; [|eauto|eauto].
    assert (R := slot_refs _ _ _ E). destruct (access_ok s o I (or_introl R)) as (ob & Ho & A & D & C).
    rewrite A. cbn [obind]. destruct (o_count ob <=? 1); [eauto|].
    eexists. split; [reflexivity|]. apply inv_new; assumption.
  - destruct (idle s t && owns s t slot && idle s t') eqn:G; [|eauto].
    eexists. split; [reflexivity|]. apply inv_give; exact I.
  - destruct (nth_error (pcs s) t) as [p|] eqn:Hp; [|eauto].
    destruct p as [|dst o|dst v|o|o|o].
    + eauto.
    + assert (R := token_refs s t _ o Hp ltac:(simpl; rewrite Nat.eqb_refl; reflexivity)).
      destruct (access_ok s o I (or_introl R)) as (ob & Ho & A & D & C). rewrite A. cbn [obind].
      destruct (Z.eqb_spec (o_count ob) 0); [lia|]. cbn [negb cassert].
      eexists. split; [reflexivity|]. apply (inv_pc_neutral s t _ (AddChk dst o)); auto.
      intros d X. destruct I as (_ & _ & _ & P & _). apply (P t _ d Hp). exact X.
    + assert (Hd : (dst < length (slots s))%nat) by (destruct I as (_ & _ & _ & P & _); apply (P t _ dst Hp); reflexivity).
      destruct (nth_error (slots s) dst) as [old|] eqn:E; [|apply nth_error_None in E; lia].
      assert (J := inv_swap s t dst v old I Hp E).
      destruct old as [old|]; eexists; (split; [reflexivity|exact J]).
    + assert (R := token_refs s t _ o Hp ltac:(simpl; rewrite Nat.eqb_refl; reflexivity)).
      destruct (access_ok s o I (or_introl R)) as (ob & Ho & A & D & C). rewrite A. cbn [obind].
      destruct (Z.gtb_spec (o_count ob) 0); [|lia]. cbn [cassert].
      eexists. split; [reflexivity|]. apply (inv_pc_neutral s t _ (RelChk o)); auto. discriminate.
    + assert (R := token_refs s t _ o Hp ltac:(simpl; rewrite Nat.eqb_refl; reflexivity)).
      destruct (access_ok s o I (or_introl R)) as (ob & Ho & A & D & C). rewrite A. cbn [obind].
      eexists. split; [reflexivity|]. exact (inv_dec s t o ob I Hp Ho D C).
    + assert (Dk := sum_pos (deleting o) (pcs s) t _ Hp). simpl in Dk. rewrite Nat.eqb_refl in Dk.
      destruct (access_ok s o I ltac:(right; unfold ndel; lia)) as (ob & Ho & A & D & C). rewrite A. cbn [obind].
      eexists. split; [reflexivity|]. exact (inv_del s t o ob I Hp Ho D).
Qed.

Lemma run_inv es : forall s, Inv s -> exists s', run s es = Ok s' /\ Inv s'.
Proof.
  induction es as [|e es IH]; intros s I; [exists s; split; [reflexivity|exact I]|].
  cbn [run]. destruct (step_inv s e I) as (s1 & -> & I1). cbn [obind]. apply IH; exact I1.
Qed.

Lemma init_inv nt owners : Z.of_nat (length owners + nt) < 2^31 -> Inv (init nt owners).
Proof.
  intros B. unfold Inv, init, refs, handles, tokens, ndel. simpl.
  split; [rewrite repeat_length; reflexivity|].
  split; [intros [|o] ob H; discriminate|].
  split.
  - intros o _. rewrite !sum_zero; [lia| | |].
    + intros x Hx. apply repeat_spec in Hx; subst; reflexivity.
    + intros x Hx. apply repeat_spec in Hx; subst; reflexivity.
    + intros x Hx. apply repeat_spec in Hx; subst; reflexivity.
  - split.
    + intros t p d H E. apply nth_error_In, repeat_spec in H. subst. discriminate.
    + rewrite !repeat_length. exact B.
Qed.

Lemma all_idle_zero (f : pc -> nat) l : (forall p, In p l -> p = Idle) -> f Idle = 0%nat -> @sum pc f l = 0%nat.
Proof. intros H E. apply sum_zero. intros x Hx. rewrite (H x Hx). exact E. Qed.

(** ** Sole ownership is stable against other threads. *)

Definition Sole (s : state) (t dst o : nat) : Prop :=
  nth_error (slots s) dst = Some (Some o) /\ owns s t dst = true /\ idle s t = true /\ refs s o = 1%nat.

Lemma sole_others s t dst o : Sole s t dst o ->
  (forall i, i <> dst -> nth_error (slots s) i <> Some (Some o)) /\
  (forall u p, nth_error (pcs s) u = Some p -> token o p = 0%nat).
Proof.
  intros (Hs & _ & _ & R).
  assert (P := sum_pos (in_slot o) (slots s) dst _ Hs). simpl in P. rewrite Nat.eqb_refl in P.
  unfold refs, handles, tokens in R. split.
  - intros i Ni Hi. assert (Q := sum_two (in_slot o) (slots s) i dst _ _ Ni Hi Hs). simpl in Q.
    rewrite Nat.eqb_refl in Q. lia.
  - intros u p Hp. assert (Q := sum_pos (token o) (pcs s) u p Hp). lia.
Qed.

Lemma refs_set_obj s o ob x : refs (set_obj s o ob) x = refs s x.
Proof. reflexivity. Qed.

Lemma access_inv s o ob : access s o = Ok ob -> nth_error (objs s) o = Some ob.
Proof. unfold access. destruct (nth_error (objs s) o) as [x|]; [|discriminate]. destruct (Nat.eqb (o_dels x) 0); [congruence|discriminate]. Qed.

Lemma idle_upd s t u p : t <> u -> idle s t = true -> idle (set_pc s u p) t = true.
Proof. intros N H. unfold idle in *. simpl. rewrite nth_upd_ne by congruence. exact H. Qed.

Lemma sole_pc s u p q t dst o : Sole s t dst o -> u <> t -> nth_error (pcs s) u = Some q ->
  token o p = 0%nat -> Sole (set_pc s u p) t dst o.
Proof.
  intros S N Hq Tp. destruct (sole_others _ _ _ _ S) as [_ TO]. specialize (TO u q Hq).
  destruct S as (A & B & C & R). split; [exact A|]. split; [exact B|].
  split; [apply idle_upd; congruence|].
  assert (T := tokens_pc s u p q o Hq). unfold refs, handles in *. simpl. lia.
Qed.

(** Every handle a thread is in the middle of assigning belongs to it. *)
Definition Own (s : state) : Prop :=
  forall t p d, nth_error (pcs s) t = Some p -> pc_dst p = Some d -> owns s t d = true.

Lemma own_pc s t p : Own s -> (forall d, pc_dst p = Some d -> owns s t d = true) -> Own (set_pc s t p).
Proof.
  intros O H u q d Hq E. simpl in Hq. unfold owns in *. simpl. apply nth_upd_inv in Hq as [(-> & -> & _)|(_ & Hq)].
  - apply H; exact E.
  - exact (O u q d Hq E).
Qed.
Lemma own_obj s o ob : Own s -> Own (set_obj s o ob). Proof. intros O; exact O. Qed.
Lemma own_add s ob : Own s -> Own (add_obj s ob). Proof. intros O; exact O. Qed.
Lemma own_slot s i v : Own s -> Own (set_slot s i v). Proof. intros O; exact O. Qed.

Lemma step_own s e s' : Own s -> step s e = Ok s' -> Own s'.
Proof.
  intros O H. destruct e as [t dst src|t dst|t dst|t dst|t slot t'|t]; cbn [step] in H.
  - destruct (idle s t && owns s t dst && owns s t src) eqn:G; [|inversion H; subst; exact O].
    apply andb_true_iff in G as [G _]. apply andb_true_iff in G as [_ G].
    destruct (nth_error (slots s) src) as [[o|]|]; [| |inversion H; subst; exact O].
    + apply obind_ok in H as (s1 & A & H). unfold addref in A. apply obind_ok in A as (ob & _ & A).
      inversion A; subst s1. inversion H; subst s'. apply own_pc; [apply own_obj; exact O|].
      intros d E; inversion E; subst; exact G.
    + inversion H; subst s'. apply own_pc; [exact O|]. intros d E; inversion E; subst; exact G.
  - destruct (idle s t && owns s t dst) eqn:G; inversion H; subst; [|exact O]. apply andb_true_iff in G as [_ G].
    apply own_pc; [exact O|]. intros d E; inversion E; subst; exact G.
  - destruct (idle s t && owns s t dst) eqn:G; inversion H; subst; [|exact O]. apply andb_true_iff in G as [_ G].
    apply own_pc; [apply own_add; exact O|]. intros d E; inversion E; subst; exact G.
  - destruct (idle s t && owns s t dst) eqn:G; [|inversion H; subst; exact O]. apply andb_true_iff in G as [_ G].
    destruct (nth_error (slots s) dst) as [[o|]|]; [|inversion H; subst; exact O|inversion H; subst; exact O].
    apply obind_ok in H as (ob & A & H). destruct (o_count ob <=? 1); [inversion H; subst; exact O|].
    rewrite A in H. cbn [obind] in H. inversion H; subst s'.
    apply own_pc; [apply own_add; exact O|]. intros d E; inversion E; subst; exact G.
  - destruct (idle s t && owns s t slot && idle s t') eqn:G; inversion H; subst; [|exact O].
    apply andb_true_iff in G as [G G3]. apply andb_true_iff in G as [G1 G2]. apply idle_true in G1.
    intros u p d Hp E. simpl in Hp. specialize (O u p d Hp E). unfold owns in *. simpl.
    destruct (Nat.eq_dec slot d) as [->|N]; [|rewrite nth_upd_ne by exact N; exact O].
    destruct (nth_error (owner s) d) as [w|] eqn:W; [|discriminate].
    apply Nat.eqb_eq in O. apply Nat.eqb_eq in G2. subst. rewrite G1 in Hp. inversion Hp; subst. discriminate.
  - destruct (nth_error (pcs s) t) as [p|] eqn:Hp; [|inversion H; subst; exact O].
    destruct p as [|dst o|dst v|o|o|o].
    + inversion H; subst; exact O.
    + apply obind_ok in H as (ob & _ & H). unfold cassert in H.
      destruct (negb (o_count ob =? 0)); [|discriminate]. inversion H; subst.
      apply own_pc; [exact O|]. intros d E; inversion E; subst. exact (O t _ d Hp eq_refl).
    + destruct (nth_error (slots s) dst) as [[old|]|]; inversion H; subst;
        (apply own_pc; [apply own_slot; exact O|discriminate]).
    + apply obind_ok in H as (ob & _ & H). unfold cassert in H. destruct (o_count ob >? 0); [|discriminate].
      inversion H; subst. apply own_pc; [exact O|discriminate].
    + apply obind_ok in H as (ob & _ & H). inversion H; subst. apply own_pc; [apply own_obj; exact O|].
      destruct (_ =? 0); discriminate.
    + apply obind_ok in H as (ob & _ & H). inversion H; subst. apply own_pc; [apply own_obj; exact O|discriminate].
Qed.

Lemma init_own nt owners : Own (init nt owners).
Proof. intros t p d H E. apply nth_error_In, repeat_spec in H. subst. discriminate. Qed.

Lemma run_own es : forall s s', Own s -> run s es = Ok s' -> Own s'.
Proof.
  induction es as [|e es IH]; intros s s' O H; [inversion H; subst; exact O|].
  cbn [run] in H. apply obind_ok in H as (s1 & E & H). eapply IH; [|exact H]. eapply step_own; eassumption.
Qed.

Lemma step_sole s e s' t dst o : Inv s -> Own s -> Sole s t dst o -> by_thread e <> t ->
  step s e = Ok s' -> Sole s' t dst o /\
    (forall ob, nth_error (objs s) o = Some ob -> nth_error (objs s') o = Some ob).
Proof.
  intros I O S N H. destruct (sole_others _ _ _ _ S) as [SO TO].
  assert (Hex : (o < length (objs s))%nat).
  { destruct S as (A & _ & _ & _). destruct (access_ok s o I (or_introl (slot_refs _ _ _ A))) as (ob & E & _).
    apply nth_error_Some. congruence. }
  destruct e as [u d src|u d|u d|u d|u slot u'|u]; cbn [step by_thread] in *.
  - destruct (idle s u && owns s u d && owns s u src) eqn:G; [|inversion H; subst; auto].
    apply andb_true_iff in G as [G G3]. apply andb_true_iff in G as [G1 G2]. apply idle_true in G1.
    destruct (nth_error (slots s) src) as [[q|]|] eqn:E; [| |inversion H; subst; auto].
    + apply obind_ok in H as (s1 & A & H). unfold addref in A. apply obind_ok in A as (ob & A & A2).
      inversion A2; subst s1. inversion H; subst s'. clear A2 H.
      assert (Nq : q <> o).
      { intros ->. destruct (Nat.eq_dec src dst) as [->|Ns]; [|exact (SO src Ns E)].
        destruct S as (_ & B & _). unfold owns in *. destruct (nth_error (owner s) dst); [|discriminate].
        apply Nat.eqb_eq in B. apply Nat.eqb_eq in G3. congruence. }
      split.
      * apply (sole_pc _ _ _ Idle); [|exact N|exact G1|simpl; destruct (Nat.eqb_spec q o); congruence].
        destruct S as (A1 & B & C & R). exact (conj A1 (conj B (conj C R))).
      * intros ob' Hob. simpl. rewrite nth_upd_ne by exact Nq. exact Hob.
    + inversion H; subst s'. split; [apply (sole_pc _ _ _ Idle); auto|auto].
  - destruct (idle s u && owns s u d) eqn:G; [|inversion H; subst; auto].
    apply andb_true_iff in G as [G1 G2]. apply idle_true in G1. inversion H; subst s'.
    split; [apply (sole_pc _ _ _ Idle); auto|auto].
  - destruct (idle s u && owns s u d) eqn:G; [|inversion H; subst; auto].
    apply andb_true_iff in G as [G1 G2]. apply idle_true in G1. inversion H; subst s'. split.
    + apply (sole_pc _ _ _ Idle); [|exact N|exact G1|simpl; destruct (Nat.eqb_spec (length (objs s)) o); [lia|reflexivity]].
      exact S.
    + intros ob Hob. simpl. rewrite nth_error_app1 by exact Hex. exact Hob.
  - destruct (idle s u && owns s u d) eqn:G; [|inversion H; subst; auto].
    apply andb_true_iff in G as [G1 G2]. apply idle_true in G1.
    destruct (nth_error (slots s) d) as [[q|]|] eqn:E; [|inversion H; subst; auto|inversion H; subst; auto].
    apply obind_ok in H as (ob & A & H). destruct (o_count ob <=? 1); [inversion H; subst; auto|].
    rewrite A in H. cbn [obind] in H. inversion H; subst s'. split.
    + apply (sole_pc _ _ _ Idle); [|exact N|exact G1|simpl; destruct (Nat.eqb_spec (length (objs s)) o); [lia|reflexivity]].
      exact S.
    + intros ob' Hob. simpl. rewrite nth_error_app1 by exact Hex. exact Hob.
  - destruct (idle s u && owns s u slot && idle s u') eqn:G; inversion H; subst s'; [|auto].
    apply andb_true_iff in G as [G _]. apply andb_true_iff in G as [_ G].
    split; [|auto]. destruct S as (A & B & C & R). split; [exact A|]. split; [|split; [exact C|exact R]].
    unfold owns in *. simpl. destruct (Nat.eq_dec slot dst) as [->|Ns]; [|rewrite nth_upd_ne by exact Ns; exact B].
    destruct (nth_error (owner s) dst); [|discriminate]. apply Nat.eqb_eq in B. apply Nat.eqb_eq in G. congruence.
  - destruct (nth_error (pcs s) u) as [p|] eqn:Hp; [|inversion H; subst; auto].
    assert (TP := TO u p Hp).
    destruct p as [|d q|d v|q|q|q].
    + inversion H; subst; auto.
    + apply obind_ok in H as (ob & _ & H). unfold cassert in H.
      destruct (negb (o_count ob =? 0)); [|discriminate]. inversion H; subst s'.
      split; [apply (sole_pc _ _ _ (AddChk d q)); auto|auto].
    + assert (Od := O u _ d Hp eq_refl).
      assert (Nd : d <> dst).
      { intros ->. destruct S as (_ & B & _). unfold owns in *. destruct (nth_error (owner s) dst); [|discriminate].
        apply Nat.eqb_eq in B. apply Nat.eqb_eq in Od. congruence. }
      destruct (nth_error (slots s) d) as [old|] eqn:E; [|discriminate].
      assert (S1 : Sole (set_slot s d v) t dst o).
      { destruct S as (A & B & C & R). split; [simpl; rewrite nth_upd_ne by exact Nd; exact A|].
        split; [exact B|]. split; [exact C|].
        assert (Su := sum_upd (in_slot o) (slots s) d v old E).
        assert (Zo : in_slot o old = 0%nat).
        { destruct old as [w|]; [|reflexivity]. simpl. destruct (Nat.eqb_spec w o); [subst; exfalso; exact (SO d Nd E)|reflexivity]. }
        assert (Zv : in_slot o v = 0%nat) by (destruct v; [exact TP|reflexivity]).
        unfold refs, handles, tokens in *. simpl. lia. }
      destruct old as [old|]; inversion H; subst s'; (split; [|auto]).
      * apply (sole_pc _ _ _ (Swap d v)); [exact S1|exact N|exact Hp|]. simpl.
        destruct (Nat.eqb_spec old o); [subst; exfalso; exact (SO d Nd E)|reflexivity].
      * apply (sole_pc _ _ _ (Swap d v)); [exact S1|exact N|exact Hp|reflexivity].
    + apply obind_ok in H as (ob & _ & H). unfold cassert in H. destruct (o_count ob >? 0); [|discriminate].
      inversion H; subst s'. split; [apply (sole_pc _ _ _ (RelChk q)); auto|auto].
    + apply obind_ok in H as (ob & A & H). inversion H; subst s'.
      assert (Nq : q <> o) by (intros ->; simpl in TP; rewrite Nat.eqb_refl in TP; discriminate). split.
      * apply (sole_pc _ _ _ (RelDec q)); [exact S|exact N|exact Hp|destruct (_ =? 0); reflexivity].
      * intros ob' Hob. simpl. rewrite nth_upd_ne by exact Nq. exact Hob.
    + apply obind_ok in H as (ob & A & H). inversion H; subst s'.
      assert (Nq : q <> o).
      { intros ->. destruct S as (A1 & _ & _ & R). destruct I as (_ & IO & _).
        apply access_inv in A. destruct (IO o ob A) as [(_ & _ & [[_ ND]|[RZ _]])|(_ & RZ & _)]; [|lia|lia].
        assert (Dk := sum_pos (deleting o) (pcs s) u _ Hp). simpl in Dk. rewrite Nat.eqb_refl in Dk. unfold ndel in ND. lia. }
      split.
      * apply (sole_pc _ _ _ (Del q)); [exact S|exact N|exact Hp|reflexivity].
      * intros ob' Hob. simpl. rewrite nth_upd_ne by exact Nq. exact Hob.
Qed.

Lemma run_sole es : forall s s' t dst o, Inv s -> Own s -> Sole s t dst o ->
  Forall (fun e => by_thread e <> t) es -> run s es = Ok s' ->
  Sole s' t dst o /\ (forall ob, nth_error (objs s) o = Some ob -> nth_error (objs s') o = Some ob).
Proof.
  induction es as [|e es IH]; intros s s' t dst o I O S F H; [inversion H; subst; auto|].
  inversion F as [|? ? F1 F2]; subst. cbn [run] in H. apply obind_ok in H as (s1 & E & H).
  destruct (step_sole s e s1 t dst o I O S F1 E) as [S1 X1].
  destruct (step_inv s e I) as (s1' & E' & I1). rewrite E in E'. inversion E'; subst s1'.
  destruct (IH s1 s' t dst o I1 (step_own _ _ _ O E) S1 F2 H) as [S2 X2]. split; [exact S2|]. auto.
Qed.

(** ** Connection to the specification's vocabulary *)
Lemma holders_handles s o : holders s o = handles s o.
Proof.
  unfold holders, handles. induction (slots s) as [|v l IH]; [reflexivity|].
  cbn [count_occ sum fold_right in_slot]. destruct (opt_nat_dec v (Some o)) as [->|N].
  - cbn [in_slot]. rewrite Nat.eqb_refl. rewrite IH. reflexivity.
  - destruct v as [p|]; cbn [in_slot]; [|exact IH]. destruct (Nat.eqb_spec p o); [congruence|exact IH].
Qed.

Lemma quiescent_zero s (f : pc -> nat) : quiescent s -> f Idle = 0%nat -> sum f (pcs s) = 0%nat.
Proof. intros Q E. apply all_idle_zero; [|exact E]. intros p Hp. unfold quiescent in Q. rewrite Forall_forall in Q. auto. Qed.

Lemma obj_ok_spec s o ob : Inv s -> nth_error (objs s) o = Some ob ->
  (o_dels ob <= 1)%nat /\
  (o_dels ob = 1%nat -> holders s o = 0%nat) /\
  (quiescent s ->
     (o_dels ob = 0%nat <-> (holders s o > 0)%nat) /\
     (o_dels ob = 0%nat -> o_count ob = Z.of_nat (holders s o))).
Proof.
  intros (_ & O & _) Ho. specialize (O o ob Ho). rewrite holders_handles. unfold obj_ok, refs in O.
  split; [lia|]. split; [lia|]. intros Q.
  assert (T : tokens s o = 0%nat) by (apply quiescent_zero; auto).
  assert (D : ndel s o = 0%nat) by (apply quiescent_zero; auto). lia.
Qed.

(** ** A freshly copied object stays private to the thread that made it *)
Definition Foreign (s : state) (t n : nat) : Prop :=
  (forall i, nth_error (slots s) i = Some (Some n) -> owns s t i = true) /\
  (forall u p, u <> t -> nth_error (pcs s) u = Some p -> token n p = 0%nat).

Definition Kept (s s' : state) (t n : nat) : Prop :=
  Foreign s' t n /\ refs s' n = refs s n /\ nth_error (pcs s') t = nth_error (pcs s) t /\
  (forall d, owns s t d = true -> owns s' t d = true /\ nth_error (slots s') d = nth_error (slots s) d).

Lemma owns_uniq s t u d : owns s t d = true -> owns s u d = true -> t = u.
Proof. unfold owns. destruct (nth_error (owner s) d); [|discriminate]. intros A B. apply Nat.eqb_eq in A, B. congruence. Qed.

Lemma kept_refl s t n : Foreign s t n -> Kept s s t n.
Proof. intros F. split; [exact F|]. auto. Qed.

Lemma kept_pc s u p q t n : Foreign s t n -> u <> t -> nth_error (pcs s) u = Some q -> token n p = 0%nat ->
  Kept s (set_pc s u p) t n.
Proof.
  intros [F1 F2] N Hq Tp. split; [|split; [|split]].
  - split; [exact F1|]. intros v p' Nv Hp'. simpl in Hp'. apply nth_upd_inv in Hp' as [(-> & -> & _)|(_ & Hp')]; [exact Tp|].
    exact (F2 v p' Nv Hp').
  - assert (T := tokens_pc s u p q n Hq). rewrite (F2 u q N Hq), Tp in T. unfold refs, handles in *. simpl. lia.
  - simpl. apply nth_upd_ne. exact N.
  - intros d Hd. split; [exact Hd|reflexivity].
Qed.

Lemma kept_trans s s1 s2 t n : Kept s s1 t n -> Kept s1 s2 t n -> Kept s s2 t n.
Proof.
  intros (_ & R1 & P1 & O1) (F2 & R2 & P2 & O2). split; [exact F2|]. split; [congruence|]. split; [congruence|].
  intros d Hd. destruct (O1 d Hd) as [A B]. destruct (O2 d A) as [C D]. split; [exact C|congruence].
Qed.

Lemma step_foreign s e s' t n : Own s -> (n < length (objs s))%nat -> Foreign s t n -> by_thread e <> t ->
  step s e = Ok s' -> Kept s s' t n /\ (n < length (objs s'))%nat.
Proof.
  intros O L F N H. assert (K0 := kept_refl s t n F).
  destruct e as [u d src|u d|u d|u d|u slot u'|u]; cbn [step by_thread] in *.
  - destruct (idle s u && owns s u d && owns s u src) eqn:G; [|inversion H; subst; auto].
    apply andb_true_iff in G as [G G3]. apply andb_true_iff in G as [G1 G2]. apply idle_true in G1.
    destruct (nth_error (slots s) src) as [[q|]|] eqn:E; [| |inversion H; subst; auto].
    + apply obind_ok in H as (s1 & A & H). unfold addref in A. apply obind_ok in A as (ob & A & A2).
      inversion A2; subst s1. inversion H; subst s'. clear A2 H.
      assert (Nq : q <> n).
      { intros ->. destruct F as [F1 _]. exact (N (owns_uniq _ _ _ _ G3 (F1 src E))). }
      split; [|simpl; rewrite upd_length; exact L].
      eapply kept_trans; [|eapply kept_pc; [exact F|exact N|exact G1|simpl; destruct (Nat.eqb_spec q n); congruence]]. exact K0.
    + inversion H; subst s'. split; [|exact L]. apply (kept_pc _ _ _ Idle); auto.
  - destruct (idle s u && owns s u d) eqn:G; [|inversion H; subst; auto].
    apply andb_true_iff in G as [G1 G2]. apply idle_true in G1. inversion H; subst s'. split; [|exact L].
    apply (kept_pc _ _ _ Idle); auto.
  - destruct (idle s u && owns s u d) eqn:G; [|inversion H; subst; auto].
    apply andb_true_iff in G as [G1 G2]. apply idle_true in G1. inversion H; subst s'. split.
    + eapply kept_trans; [|eapply kept_pc; [exact F|exact N|exact G1|simpl; destruct (Nat.eqb_spec (length (objs s)) n); [lia|reflexivity]]]. exact K0.
    + simpl. rewrite app_length. simpl. lia.
  - destruct (idle s u && owns s u d) eqn:G; [|inversion H; subst; auto].
    apply andb_true_iff in G as [G1 G2]. apply idle_true in G1.
    destruct (nth_error (slots s) d) as [[q|]|] eqn:E; [|inversion H; subst; auto|inversion H; subst; auto].
    apply obind_ok in H as (ob & A & H). destruct (o_count ob <=? 1); [inversion H; subst; auto|].
    rewrite A in H. cbn [obind] in H. inversion H; subst s'. split.
    + eapply kept_trans; [|eapply kept_pc; [exact F|exact N|exact G1|simpl; destruct (Nat.eqb_spec (length (objs s)) n); [lia|reflexivity]]]. exact K0.
    + simpl. rewrite app_length. simpl. lia.
  - destruct (idle s u && owns s u slot && idle s u') eqn:G; inversion H; subst s'; [|auto].
    apply andb_true_iff in G as [G _]. apply andb_true_iff in G as [_ G]. split; [|exact L].
    assert (OO : forall d, owns s t d = true ->
      owns {| objs := objs s; slots := slots s; owner := upd (owner s) slot u'; pcs := pcs s |} t d = true).
    { intros d Hd. destruct (Nat.eq_dec slot d) as [->|Ns]; [exfalso; exact (N (owns_uniq _ _ _ _ G Hd))|].
      unfold owns in *. simpl. rewrite nth_upd_ne by exact Ns. exact Hd. }
    destruct F as [F1 F2]. split; [|split; [reflexivity|split; [reflexivity|]]].
    + split; [|exact F2]. intros i Hi. apply OO, F1, Hi.
    + intros d Hd. split; [apply OO; exact Hd|reflexivity].
  - destruct (nth_error (pcs s) u) as [p|] eqn:Hp; [|inversion H; subst; auto].
    assert (TP := proj2 F u p N Hp).
    destruct p as [|d q|d v|q|q|q].
    + inversion H; subst; auto.
    + apply obind_ok in H as (ob & _ & H). unfold cassert in H.
      destruct (negb (o_count ob =? 0)); [|discriminate]. inversion H; subst s'.
      split; [apply (kept_pc _ _ _ (AddChk d q)); auto|exact L].
    + assert (Od := O u _ d Hp eq_refl).
      destruct (nth_error (slots s) d) as [old|] eqn:E; [|discriminate].
      assert (Zo : in_slot n old = 0%nat).
      { destruct old as [w|]; [|reflexivity]. simpl. destruct (Nat.eqb_spec w n); [|reflexivity]. subst.
        exfalso. exact (N (owns_uniq _ _ _ _ Od (proj1 F d E))). }
      assert (Zv : in_slot n v = 0%nat) by (destruct v; [exact TP|reflexivity]).
      assert (K1 : Kept s (set_slot s d v) t n).
      { split; [|split; [|split; [reflexivity|]]].
        - split; [|exact (proj2 F)]. intros i Hi. simpl in Hi. apply nth_upd_inv in Hi as [(-> & Hv & _)|(_ & Hi)].
          + subst v. simpl in Zv. rewrite Nat.eqb_refl in Zv. discriminate.
          + exact (proj1 F i Hi).
        - assert (Su := sum_upd (in_slot n) (slots s) d v old E). unfold refs, handles, tokens in *. simpl. lia.
        - intros x Hx. split; [exact Hx|]. simpl. apply nth_upd_ne. intros ->. exact (N (owns_uniq _ _ _ _ Od Hx)). }
      destruct old as [old|]; inversion H; subst s'; (split; [|exact L]);
        (eapply kept_trans; [exact K1|apply (kept_pc _ _ _ (Swap d v)); [exact (proj1 K1)|exact N|exact Hp|]]).
      * exact Zo.
      * reflexivity.
    + apply obind_ok in H as (ob & _ & H). unfold cassert in H. destruct (o_count ob >? 0); [|discriminate].
      inversion H; subst s'. split; [apply (kept_pc _ _ _ (RelChk q)); auto|exact L].
    + apply obind_ok in H as (ob & A & H). inversion H; subst s'. split; [|simpl; rewrite upd_length; exact L].
      eapply kept_trans; [|apply (kept_pc _ _ _ (RelDec q)); [exact F|exact N|exact Hp|destruct (_ =? 0); reflexivity]]. exact K0.
    + apply obind_ok in H as (ob & A & H). inversion H; subst s'. split; [|simpl; rewrite upd_length; exact L].
      eapply kept_trans; [|apply (kept_pc _ _ _ (Del q)); [exact F|exact N|exact Hp|reflexivity]]. exact K0.
Qed.

Definition Pend (s : state) (t dst n : nat) : Prop :=
  (n < length (objs s))%nat /\ refs s n = 1%nat /\ owns s t dst = true /\
  exists p, nth_error (pcs s) t = Some p /\
    (p = AddChk dst n \/ p = Swap dst (Some n) \/
     (nth_error (slots s) dst = Some (Some n) /\ pc_dst p = None)).

Lemma pend_foreign s t dst n : Pend s t dst n -> Foreign s t n.
Proof.
  intros (_ & R & W & p & Hp & C).
  assert (HD : (exists q, nth_error (pcs s) t = Some q /\ token n q = 1%nat) \/ nth_error (slots s) dst = Some (Some n)).
  { destruct C as [->|[-> |[C _]]]; [left|left|right; exact C]; eexists; (split; [exact Hp|]); simpl; rewrite Nat.eqb_refl; reflexivity. }
  unfold refs, handles, tokens in R. split.
  - intros i Hi. destruct (Nat.eq_dec i dst) as [->|Ni]; [exact W|exfalso].
    assert (A := sum_pos (in_slot n) (slots s) i _ Hi). simpl in A. rewrite Nat.eqb_refl in A.
    destruct HD as [(q & Hq & Tq)|Hd].
    + assert (B := sum_pos (token n) (pcs s) t _ Hq). lia.
    + assert (B := sum_two (in_slot n) (slots s) i dst _ _ Ni Hi Hd). simpl in B. rewrite Nat.eqb_refl in B. lia.
  - intros u q Nu Hq. destruct HD as [(q' & Hq' & Tq)|Hd].
    + assert (B := sum_two (token n) (pcs s) u t _ _ Nu Hq Hq'). lia.
    + assert (A := sum_pos (in_slot n) (slots s) dst _ Hd). simpl in A. rewrite Nat.eqb_refl in A.
      assert (B := sum_pos (token n) (pcs s) u _ Hq). lia.
Qed.

Lemma pend_other s e s' t dst n : Own s -> Pend s t dst n -> by_thread e <> t -> step s e = Ok s' -> Pend s' t dst n.
Proof.
  intros O P N H. assert (F := pend_foreign _ _ _ _ P). destruct P as (L & R & W & p & Hp & C).
  destruct (step_foreign s e s' t n O L F N H) as [(_ & R' & P' & OW) L'].
  destruct (OW dst W) as [W' S']. split; [exact L'|]. split; [congruence|]. split; [exact W'|].
  exists p. split; [congruence|]. rewrite S'. exact C.
Qed.

Lemma pend_self s s' t dst n : Inv s -> Pend s t dst n -> step s (Step t) = Ok s' -> Pend s' t dst n.
Proof.
  intros I P H. assert (P0 := P). destruct P as (L & R & W & p & Hp & C). cbn [step] in H. rewrite Hp in H.
  assert (RR : forall q, nth_error (pcs s) t = Some q -> token n q = 0%nat \/ nth_error (slots s) dst <> Some (Some n)).
  { intros q Hq. destruct (Nat.eq_dec (token n q) 0) as [Z|Z]; [left; exact Z|right]. intros Hd.
    assert (A := sum_pos (in_slot n) (slots s) dst _ Hd). simpl in A. rewrite Nat.eqb_refl in A.
    assert (B := sum_pos (token n) (pcs s) t _ Hq). unfold refs, handles, tokens in R. lia. }
  destruct C as [->|[-> |[Hd PN]]].
  - apply obind_ok in H as (ob & _ & H). unfold cassert in H. destruct (negb (o_count ob =? 0)); [|discriminate].
    inversion H; subst s'. split; [exact L|]. split; [|split; [exact W|]].
    + assert (T := tokens_pc s t (Swap dst (Some n)) _ n Hp). simpl in T. unfold refs, handles in *. simpl in *. lia.
    + exists (Swap dst (Some n)). split; [simpl; eapply nth_upd_eq; exact Hp|]. auto.
  - destruct (nth_error (slots s) dst) as [old|] eqn:E; [|discriminate].
    assert (No : old <> Some n).
    { intros ->. destruct (RR _ Hp) as [Z|Z]; [simpl in Z; rewrite Nat.eqb_refl in Z; discriminate|congruence]. }
    assert (Zo : in_slot n old = 0%nat) by (destruct old as [w|]; [simpl; destruct (Nat.eqb_spec w n); congruence|reflexivity]).
    assert (Su := sum_upd (in_slot n) (slots s) dst (Some n) old E). cbn [in_slot] in Su. rewrite Nat.eqb_refl in Su.
    set (q := match old with Some o => RelChk o | None => Idle end).
    assert (H' : s' = set_pc (set_slot s dst (Some n)) t q) by (unfold q; destruct old; congruence). subst s'. clear H.
    assert (Tq : token n q = 0%nat) by (unfold q; destruct old; [exact Zo|reflexivity]).
    assert (T := tokens_pc (set_slot s dst (Some n)) t q _ n Hp). cbn [token] in T. rewrite Nat.eqb_refl in T.
    split; [exact L|]. split; [|split; [exact W|]].
    + unfold refs, handles, tokens in *. simpl in *. lia.
    + exists q. split; [simpl; eapply nth_upd_eq; exact Hp|]. right; right. split.
      * simpl. eapply nth_upd_eq; exact E.
      * unfold q. destruct old; reflexivity.
  - assert (Tn : token n p = 0%nat) by (destruct (RR p Hp) as [Z|Z]; [exact Z|congruence]).
    assert (KEEP : forall s1 q, objs s1 = objs s \/ length (objs s1) = length (objs s) -> slots s1 = slots s -> owner s1 = owner s ->
       pcs s1 = pcs s -> token n q = 0%nat -> pc_dst q = None -> Pend (set_pc s1 t q) t dst n).
    { intros s1 q E1 E2 E3 E4 Tq Dq.
      assert (Hp1 : nth_error (pcs s1) t = Some p) by congruence.
      assert (T := tokens_pc s1 t q p n Hp1).
      split; [simpl; destruct E1 as [-> | ->]; exact L|]. split; [|split].
      - unfold refs, handles, tokens in *. simpl in *. rewrite E2, E4 in *. lia.
      - unfold owns in *. simpl. rewrite E3. exact W.
      - exists q. split; [simpl; eapply nth_upd_eq; exact Hp1|]. right; right. split; [simpl; rewrite E2; exact Hd|exact Dq]. }
    destruct p as [|d o|d v|o|o|o]; simpl in PN; try discriminate.
    + inversion H; subst. exact P0.
    + apply obind_ok in H as (ob & _ & H). unfold cassert in H. destruct (o_count ob >? 0); [|discriminate].
      inversion H; subst s'. apply KEEP; auto.
    + apply obind_ok in H as (ob & _ & H). inversion H; subst s'.
      apply KEEP; [right; simpl; apply upd_length|reflexivity|reflexivity|reflexivity| |]; destruct (_ =? 0); reflexivity.
    + apply obind_ok in H as (ob & _ & H). inversion H; subst s'.
      apply KEEP; [right; simpl; apply upd_length|reflexivity|reflexivity|reflexivity|reflexivity|reflexivity].
Qed.

Lemma run_pend es : forall s s' t dst n, Inv s -> Own s -> Pend s t dst n ->
  Forall (fun e => by_thread e <> t \/ e = Step t) es -> run s es = Ok s' -> Inv s' /\ Pend s' t dst n.
Proof.
  induction es as [|e es IH]; intros s s' t dst n I O P F H; [inversion H; subst; auto|].
  inversion F as [|? ? F1 F2]; subst. cbn [run] in H. apply obind_ok in H as (s1 & E & H).
  destruct (step_inv s e I) as (s1' & E' & I1). rewrite E in E'. injection E' as <-.
  apply (IH s1 s' t dst n I1 (step_own _ _ _ O E)); [|exact F2|exact H].
  destruct F1 as [F1| ->]; [exact (pend_other s e s1 t dst n O P F1 E)|exact (pend_self s s1 t dst n I P E)].
Qed.

Lemma unshare_copy_private s t dst o ob es' s' : Inv s -> Own s -> idle s t = true -> owns s t dst = true ->
  nth_error (slots s) dst = Some (Some o) -> nth_error (objs s) o = Some ob -> o_count ob > 1 ->
  Forall (fun e => by_thread e <> t \/ e = Step t) es' ->
  run s (Unshare t dst :: es') = Ok s' -> idle s' t = true ->
  nth_error (slots s') dst = Some (Some (length (objs s))) /\ holders s' (length (objs s)) = 1%nat /\
  exists nb, nth_error (objs s') (length (objs s)) = Some nb /\ o_count nb = 1 /\ o_dels nb = 0%nat.
Proof.
  intros I O Hi Hw Hs Ho Hc F H Hi'. cbn [run] in H. apply obind_ok in H as (s1 & E & H).
  assert (E0 := E). cbn [step] in E. rewrite Hi, Hw, Hs in E. cbn [andb] in E. apply obind_ok in E as (ob' & A & E).
  assert (A' := access_inv _ _ _ A). rewrite Ho in A'. injection A' as <-.
  destruct (Z.leb_spec (o_count ob) 1); [lia|]. rewrite A in E. cbn [obind] in E. injection E as E.
  destruct (step_inv s (Unshare t dst) I) as (s1' & E1 & I1). rewrite E0 in E1. injection E1 as <-.
  apply idle_true in Hi. assert (Hd := owns_lt _ _ _ I Hw).
  set (n := length (objs s)) in *.
  assert (P : Pend s1 t dst n).
  { destruct I as (_ & _ & NN & _). destruct (NN n (le_n _)) as [NR _]. subst s1.
    split; [simpl; rewrite app_length; simpl; lia|]. split; [|split; [exact Hw|]].
    - assert (T := tokens_pc (add_obj s {| o_count := s32 (0 + 1); o_dels := 0 |}) t (AddChk dst n) _ n Hi).
      cbn [token] in T. rewrite Nat.eqb_refl in T. unfold refs, handles, tokens in *. simpl in *. lia.
    - eexists. split; [simpl; eapply nth_upd_eq; exact Hi|]. auto. }
  destruct (run_pend es' s1 s' t dst n I1 (step_own _ _ _ O E0) P F H) as [I' P'].
  destruct P' as (L & R & _ & p & Hp & C). apply idle_true in Hi'. rewrite Hi' in Hp. injection Hp as <-.
  destruct C as [C|[C|[Hd' _]]]; try discriminate.
  split; [exact Hd'|]. split.
  - rewrite holders_handles. assert (K := sum_pos (in_slot n) (slots s') dst _ Hd'). simpl in K.
    rewrite Nat.eqb_refl in K. unfold refs, handles in *. lia.
  - destruct (access_ok s' n I' (or_introl (slot_refs _ _ _ Hd'))) as (nb & Hnb & _ & Dn & Cn).
    exists nb. split; [exact Hnb|]. split; [rewrite Cn, R; reflexivity|exact Dn].
Qed.
