(** Property theorems C42: guarded pointers.  [no_nul s] - no NUL inside the
    text; [char_ok] - a non-NUL, non-replacement character; [offs chs k] - the
    byte position of character k in the encoding of [chs] (PtrProofs.v). *)
From Verif Require Import Base UTF8Model UTF8Spec UTF8Proofs PtrModel PtrProofs.

(** What holds for byte pointers: ++ and a forward += of NulGuardedCharPtr stop
    at the terminator; a backward += of GuardedCharPtr stops at the start. *)
Theorem C42_char_pointers_partial :
  forall s p, no_nul s -> 0 <= p <= Z.of_nat (length s) ->
    nul_incr (s ++ [0]) p = Ok (Z.min (p + 1) (Z.of_nat (length s))) /\
    (forall i, 0 <= i -> nul_plus (s ++ [0]) p i = Ok (Z.min (p + i) (Z.of_nat (length s)))) /\
    (forall i, i < 0 -> guarded_plus (s ++ [0]) p i = Ok (Z.max 0 (p + i))).
Proof.
  intros s p Hs Hp. split; [|split].
  - unfold nul_incr. destruct (text_read s p Hs Hp) as (b & -> & Hb). cbn [obind]. f_equal.
    destruct (b =? 0).
    + assert (p = Z.of_nat (length s)) by (apply Hb; reflexivity). lia.
    + assert (p <> Z.of_nat (length s)) by (intros E; apply Hb in E; discriminate). lia.
  - intros i Hi. unfold nul_plus. destruct (Z.geb_spec i 0); [|lia].
    rewrite adv_spec by assumption. cbn [obind fst]. f_equal. lia.
  - intros i Hi. unfold guarded_plus. destruct (Z.geb_spec i 0); [lia|]. cbn [obind].
    destruct (Z.gtb_spec (- i) (p - 0)); f_equal; lia.
Qed.
Print Assumptions C42_char_pointers_partial.

Example C42_ex : no_nul [97; 98; 99] /\ nul_plus ([97; 98; 99] ++ [0]) 1 7 = Ok 3.
Proof. split; [repeat constructor; lia|reflexivity]. Qed.

(** What holds for UTF-8 pointers over well-formed text: ++ and += of
    GuardedUTF8Ptr move by whole characters and are clamped at both ends. *)
Theorem C42_utf8_pointers_partial :
  forall chs k i, Forall char_ok chs -> (k <= length chs)%nat ->
    unul_incr (encode_all chs ++ [0]) (offs chs k) = Ok (offs chs (Nat.min (S k) (length chs))) /\
    uguarded_plus (encode_all chs ++ [0]) (offs chs k) i =
      Ok (offs chs (Z.to_nat (Z.max 0 (Z.min (Z.of_nat k + i) (Z.of_nat (length chs)))))) /\
    ((0 < k)%nat -> unul_decr (encode_all chs ++ [0]) (offs chs k) = Ok (offs chs (k - 1))).
Proof.
  intros chs k i Hc Hk. split; [exact (unul_incr_spec chs k Hc Hk)|].
  split; [exact (uguarded_plus_spec chs k i Hc Hk)|].
  intros Hpos. destruct k as [|k]; [lia|]. unfold unul_decr.
  rewrite ubackup_char by (exact Hc || lia). cbn [obind]. f_equal. f_equal. lia.
Qed.
Print Assumptions C42_utf8_pointers_partial.

Example C42_utf8_ex : Forall char_ok [0x41; 0xE9; 0x20AC; 0x1F389].
Proof. repeat constructor; unfold replacement; lia. Qed.

(** Forward += of GuardedCharPtr is not guarded at all. *)
Theorem C42_guarded_forward_refuted :
  forall s p i, no_nul s -> 0 <= p <= Z.of_nat (length s) -> 0 <= i ->
    guarded_plus (s ++ [0]) p i = Ok (p + i).
Proof.
  intros s p i Hs Hp Hi. unfold guarded_plus. destruct (Z.geb_spec i 0); [|lia].
  rewrite adv_spec by assumption. cbn [obind].
  match goal with |- context [?a >? ?b] => destruct (Z.gtb_spec a b) end; f_equal; lia.
Qed.
Print Assumptions C42_guarded_forward_refuted.

(** Moving a NulGuardedCharPtr (and, through the inherited operator-=, a
    GuardedCharPtr) back by i moves it forward by i instead. *)
Theorem C42_backward_refuted :
  forall m p i, 0 < i -> nul_plus m p (- i) = Ok (p + i) /\ nul_minus m p i = Ok (p + i).
Proof.
  intros m p i Hi. unfold nul_minus, nul_plus. destruct (Z.geb_spec (- i) 0); [lia|]. split; f_equal; lia.
Qed.
Print Assumptions C42_backward_refuted.

(** -- on a guarded pointer at its origin leaves the text. *)
Theorem C42_decrement_refuted :
  exists s, no_nul s /\ ptr_decr (s ++ [0]) 0 = Ok (-1) /\ unul_decr (s ++ [0]) 0 = UB.
Proof. exists [97]. split; [repeat constructor; lia|]. split; reflexivity. Qed.
Print Assumptions C42_decrement_refuted.

(** GuardedUTF8Ptr += -1 on text starting with continuation bytes reads before
    the origin, because UTF8Backup is not given the limit. *)
Theorem C42_utf8_backup_refuted :
  exists s, no_nul s /\ bytes s /\ uguarded_plus (s ++ [0]) 1 (-1) = UB.
Proof. exists [0x80; 0x41]. repeat split; try (repeat constructor; unfold is_byte; lia). Qed.
Print Assumptions C42_utf8_backup_refuted.

(** ---- Sequences of operations ---- *)

(** Where an operation should take a pointer that stands at character [k] of a
    text of [n] characters (bytes, for the byte classes), when the class guards
    that operation or the move stays inside by itself; [None] for the moves of
    the refuted theorems above: -- at the start, a forward += of GuardedCharPtr
    beyond the end, a backward move of NulGuardedCharPtr, -= of a positive
    number except within a UTF-8 text, and a backward += of NulGuardedUTF8Ptr
    beyond the start. *)
Definition expected_move (c : pclass) (n k : Z) (o : pop) : option Z :=
  match o with
  | PIncr => Some (Z.min (k + 1) n)
  | PDecr => if k >? 0 then Some (k - 1) else None
  | PPredecr => match c with
                | GuardUTF8 => Some (Z.max 0 (k - 1))
                | _ => if k >? 0 then Some (k - 1) else None
                end
  | PAdd i =>
      if i >=? 0 then match c with
                      | GuardChar => if k + i <=? n then Some (k + i) else None
                      | _ => Some (Z.min (k + i) n)
                      end
      else match c with
           | NulChar => None
           | NulUTF8 => if k + i >=? 0 then Some (k + i) else None
           | _ => Some (Z.max 0 (k + i))
           end
  | PSub i =>
      if i <=? 0 then Some (Z.min (k - i) n)
      else match c with
           | NulChar | GuardChar => None
           | _ => if k - i >=? 0 then Some (k - i) else None
           end
  end.
Fixpoint expected_moves (c : pclass) (n k : Z) (os : list pop) : option Z :=
  match os with
  | [] => Some k
  | o :: os => match expected_move c n k o with Some k' => expected_moves c n k' os | None => None end
  end.

Lemma expected_move_inside c n k o k' : 0 <= k <= n -> expected_move c n k o = Some k' -> 0 <= k' <= n.
Proof.
  intros Hk H. destruct o, c; cbn [expected_move] in H;
    repeat match type of H with context [if ?b then _ else _] => destruct b eqn:? end; inversion H; lia.
Qed.

(** Byte pointers: every sequence of guarded operations, of any length, leaves
    the pointer where it should be, inside the text or on its terminator. *)
Theorem C42_char_sequence_partial : forall c s os k k', is_char c = true -> no_nul s ->
  0 <= k <= Z.of_nat (length s) -> expected_moves c (Z.of_nat (length s)) k os = Some k' ->
  prun c (s ++ [0]) k os = Ok k' /\ 0 <= k' <= Z.of_nat (length s).
Proof.
  intros c s os k k' Hc Hs. revert k. induction os as [|o os IH]; intros k Hk H; cbn [expected_moves prun] in *.
  - inversion H; subst. auto.
  - destruct (expected_move c (Z.of_nat (length s)) k o) as [q|] eqn:E; [|discriminate].
    assert (Hq := expected_move_inside _ _ _ _ _ Hk E).
    enough (pstep c (s ++ [0]) k o = Ok q) as ->. { cbn [obind]. apply IH; assumption. }
    destruct (C42_char_pointers_partial s k Hs Hk) as (A & B & D).
    destruct c; try discriminate; destruct o as [| | |i|i]; cbn [pstep is_char]; cbn [expected_move] in E;
      repeat match type of E with context [if ?b then _ else _] => destruct b eqn:? end; inversion E; subst q;
      try exact A; try (unfold ptr_decr; reflexivity); try (apply B; lia); try (rewrite D by lia; f_equal; lia);
      try (unfold nul_minus; rewrite B by lia; f_equal; lia).
    rewrite C42_guarded_forward_refuted by (assumption || lia). reflexivity.
Qed.
Print Assumptions C42_char_sequence_partial.
Example C42_char_sequence_ex :
  expected_moves GuardChar 3 0 [PIncr; PAdd 2; PIncr; PAdd (-7); PAdd 1; PDecr; PSub (-9)] = Some 3.
Proof. reflexivity. Qed.

(** UTF-8 pointers over well-formed text: the same in whole characters. *)
Theorem C42_utf8_sequence_partial : forall c chs os k k', is_char c = false -> Forall char_ok chs ->
  (k <= length chs)%nat -> expected_moves c (Z.of_nat (length chs)) (Z.of_nat k) os = Some k' ->
  prun c (encode_all chs ++ [0]) (offs chs k) os = Ok (offs chs (Z.to_nat k')) /\ 0 <= k' <= Z.of_nat (length chs).
Proof.
  intros c chs os k k' Hc Hs. revert k. induction os as [|o os IH]; intros k Hk H; cbn [expected_moves prun] in *.
  - inversion H; subst. rewrite Nat2Z.id. split; [reflexivity|lia].
  - destruct (expected_move c (Z.of_nat (length chs)) (Z.of_nat k) o) as [q|] eqn:E; [|discriminate].
    assert (Hk0 : 0 <= Z.of_nat k <= Z.of_nat (length chs)) by lia.
    assert (Hq := expected_move_inside _ _ _ _ _ Hk0 E).
    enough (pstep c (encode_all chs ++ [0]) (offs chs k) o = Ok (offs chs (Z.to_nat q))) as ->.
    { cbn [obind]. apply IH; [lia|]. rewrite Z2Nat.id by lia. exact H. }
    assert (U := unul_plus_spec chs k). assert (G := uguarded_plus_spec chs k).
    assert (N := unul_incr_spec chs k Hs Hk).
    assert (D : (0 < k)%nat -> unul_decr (encode_all chs ++ [0]) (offs chs k) = Ok (offs chs (Z.to_nat (Z.of_nat k - 1)))).
    { intros Hp. rewrite unul_decr_spec by (assumption || lia). f_equal. f_equal. lia. }
    destruct c; try discriminate; destruct o as [| | |i|i]; cbn [pstep is_char]; cbn [expected_move] in E;
      repeat match type of E with context [if ?b then _ else _] => destruct b eqn:? end; inversion E; subst q;
      try (rewrite N; f_equal; f_equal; lia); try (apply D; lia);
      try (rewrite U by (assumption || lia); f_equal; f_equal; lia);
      try (rewrite G by (assumption || lia); f_equal; f_equal; lia).
    unfold uguarded_predecr. destruct k as [|k].
    + unfold offs. cbn [firstn encode_all map concat length Z.of_nat]. reflexivity.
    + assert (P := offs_pos chs (S k) Hs ltac:(lia)). destruct (Z.eqb_spec (offs chs (S k)) 0); [lia|].
      rewrite D by lia. f_equal. f_equal. lia.
Qed.
Print Assumptions C42_utf8_sequence_partial.
Example C42_utf8_sequence_ex : Forall char_ok [0x41; 0xE9; 0x20AC] /\
  expected_moves GuardUTF8 3 0 [PPredecr; PIncr; PAdd 9; PDecr; PAdd (-7); PSub (-2)] = Some 2.
Proof. split; [repeat constructor; unfold replacement; lia|reflexivity]. Qed.

(** The operations a class guards wherever the pointer stands.  (GuardedUTF8Ptr
    guards all but -- and -= of a positive number, which it inherits.) *)
Definition guards (c : pclass) (o : pop) : Prop :=
  match o with
  | PIncr => True
  | PDecr => False
  | PPredecr => c = GuardUTF8
  | PAdd i => match c with GuardUTF8 => True | GuardChar => i <= 0 | _ => 0 <= i end
  | PSub i => i <= 0
  end.
Theorem C42_always_guarded : forall c n k o, 0 <= k <= n -> guards c o -> expected_move c n k o <> None.
Proof.
  intros c n k o Hk H. destruct o, c; cbn [guards] in H; try discriminate; try tauto; cbn [expected_move];
    repeat match goal with |- context [if ?b then _ else _] => destruct b eqn:? end; try discriminate; lia.
Qed.
Print Assumptions C42_always_guarded.

(** GuardedUTF8Ptr over any bytes whatever, malformed or not, as long as the
    first is no continuation byte: every sequence of the operations it guards
    is defined and stays inside the text. *)
Theorem C42_utf8_any_bytes_partial : forall s os p, bytes s -> no_nul s -> starts_ok s ->
  0 <= p <= Z.of_nat (length s) -> Forall (guards GuardUTF8) os ->
  exists q, prun GuardUTF8 (s ++ [0]) p os = Ok q /\ 0 <= q <= Z.of_nat (length s).
Proof.
  intros s os p Hb Hs H0 Hp Ho. revert p Hp. induction Ho as [|o os Ho _ IH]; intros p Hp; cbn [prun].
  - eexists. split; [reflexivity|lia].
  - enough (exists q, pstep GuardUTF8 (s ++ [0]) p o = Ok q /\ 0 <= q <= Z.of_nat (length s)) as (q & -> & Hq)
      by (cbn [obind]; apply IH; exact Hq).
    destruct o as [| | |i|i]; cbn [guards] in Ho; cbn [pstep is_char].
    + destruct (unul_incr_inside s p Hb Hs Hp) as (q & -> & Hq). eexists. split; [reflexivity|lia].
    + destruct Ho.
    + unfold uguarded_predecr. destruct (Z.eqb_spec p 0); [eexists; split; [reflexivity|lia]|].
      unfold unul_decr. destruct (backup_inside s p Hb H0 ltac:(lia)) as (q & -> & Hq). cbn [obind].
      eexists. split; [reflexivity|lia].
    + unfold uguarded_plus. destruct (i >=? 0).
      * destruct (uadv_inside s Hb Hs (Z.to_nat i) p Hp) as (q & -> & Hq). eexists. split; [reflexivity|lia].
      * destruct (ubackup_g_inside s Hb H0 (Z.to_nat (- i)) p Hp) as (q & -> & Hq). eexists. split; [reflexivity|lia].
    + unfold unul_plus. destruct (Z.geb_spec (- i) 0); [|lia].
      destruct (uadv_inside s Hb Hs (Z.to_nat (- i)) p Hp) as (q & -> & Hq). eexists. split; [reflexivity|lia].
Qed.
Print Assumptions C42_utf8_any_bytes_partial.
(** A truncated character, a stray continuation byte and an impossible lead. *)
Example C42_any_bytes_ex : let s := [0x41; 0xE4; 0xB8; 0x80; 0x80; 0xFF] in
  bytes s /\ no_nul s /\ starts_ok s /\ Forall (guards GuardUTF8) [PIncr; PAdd 9; PPredecr; PAdd (-4); PSub (-2)] /\
  prun GuardUTF8 (s ++ [0]) 0 [PIncr; PAdd 9; PPredecr; PAdd (-4); PSub (-2)] = Ok 4.
Proof.
  cbv zeta. split; [repeat constructor; unfold is_byte; lia|]. split; [repeat constructor; lia|].
  split; [cbn; unfold continuation; lia|]. split; [repeat constructor; cbn; lia|]. vm_compute. reflexivity.
Qed.
