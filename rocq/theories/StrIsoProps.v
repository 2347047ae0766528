(** Property C20: strings are values. *)
From Verif Require Import Base RefModel RefProofs UTF8Model ArrayModel ArraySpec ArrayProofs StrModel StrSpec StrHeap StrState.

(** C20: after any history of operations over any number of string variables
    (whatever the bytes in them), an operation through one variable leaves the
    length and the text of every other variable as they were: sharing a body,
    a slice of it, a static buffer or the null string is never visible. *)
Theorem C20_editing_one_string_never_changes_another :
  forall n os st o st', srun (sinit n) os = Ok st -> sstep st o = Ok st' ->
  forall w, w <> starget o ->
    text st' w = text st w /\
    option_map v_len (nth_error (sv st') w) = option_map v_len (nth_error (sv st) w).
Proof.
  intros n os st o st' H S w Hw. destruct (srun_rc _ _ _ (sinit_rc n) H) as [R _]. destruct (sstep_good _ _ _ R S) as (_ & L & K).
  destruct (nth_error (sv st) w) as [s|] eqn:E.
  - split; [apply same_win_text; [eapply nth_lt; exact E|exact (K w Hw)]|].
    destruct (K w Hw s E) as (s' & -> & _ & _ & EL & _). cbn. congruence.
  - assert (E' := E). apply nth_error_None in E. rewrite <- L in E. apply nth_error_None in E. unfold text. rewrite E, E'. auto.
Qed.

(** C20: the body of every string variable is alive, and its count is the number
    of variables on it, plus StrVal::null's for the null body, plus the
    reference a static body takes on itself. *)
Theorem C20_bodies_are_counted_exactly :
  forall n os st, srun (sinit n) os = Ok st ->
    (forall v s, nth_error (sv st) v = Some s -> exists x, nth_error (sh st) (v_body s) = Some (Some x)) /\
    (forall b x, nth_error (sh st) b = Some (Some x) ->
       b_refs (sb_arr x) = Z.of_nat (length (filter (fun s => Nat.eqb (v_body s) b) (sv st)))
                           + (if Nat.eqb b 0 then 1 else 0) + (if b_static (sb_arr x) then 1 else 0)).
Proof.
  intros n os st H. destruct (srun_rc _ _ _ (sinit_rc n) H) as [[A B] _]. split.
  - intros v s Hs. inversion B as [|? ? _ B']; subst. rewrite Forall_forall in B'. destruct (B' s (nth_error_In _ _ Hs)) as [a Ha].
    destruct (arr_sget _ _ _ Ha) as (x & S & _). apply sget_ok in S. eauto.
  - intros b x Hb. destruct (A b (sb_arr x)) as [E _]; [unfold arr; rewrite Hb; reflexivity|]. rewrite E.
    rewrite cnt_cons. unfold cnt, stat. cbn [v_body null_val]. rewrite (Nat.eqb_sym 0 b). change (refers b) with (fun s => Nat.eqb (v_body s) b). destruct (Nat.eqb b 0); lia.
Qed.

(** Two variables on one body, one of them a slice; editing the other leaves it:
    "añb" copied, sliced, appended to, upper-cased. *)
Example C20_example :
  match srun (sinit 3) [SLit 0 [97; 195; 177; 98] false; SCopy 1 0; SSubstr 2 0 1 2; SAddEqChar 0 8364; SToCase 2 true; SInsert 1 1 2] with
  | Ok st => (text st 0, text st 1, text st 2) = (Some [97; 241; 98; 8364], Some [97; 209; 66; 241; 98], Some [209; 66])
  | _ => False
  end.
Proof. vm_compute. reflexivity. Qed.

Print Assumptions C20_editing_one_string_never_changes_another.
Print Assumptions C20_bodies_are_counted_exactly.
