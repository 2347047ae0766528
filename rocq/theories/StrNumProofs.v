(** Proofs about asInt32: the code computes a function of the text; that
    function recognises numerals. *)
From Verif Require Import Base RefModel RefProofs UTF8Model UTF8Spec UTF8Proofs CharTables CharModel CharSpec CharProofs ErrNumModel ArrayModel ArraySpec ArrayProofs StrModel StrSpec StrHeap StrState StrText StrOps StrEdit StrMore StrInv StrProps.
From Verif Require Import StrFindSpec StrFindProofs StrFindProps StrNumModel StrNumSpec.
Ltac Zify.zify_post_hook ::= Z.div_mod_to_equations.

(** *** Digits *)
Lemma digit_value_fun ch a b : digit_value UCS4_DigitRanges ch a -> digit_value UCS4_DigitRanges ch b -> a = b.
Proof.
  intros (l & h & I & R & ->) (l' & h' & I' & R' & ->).
  assert (X : forallb (fun p => forallb (fun q => (snd p =? snd q) || (snd p <? fst q) || (snd q <? fst p)) UCS4_DigitRanges) UCS4_DigitRanges = true) by (vm_compute; reflexivity).
  rewrite forallb_forall in X. specialize (X _ I). rewrite forallb_forall in X. specialize (X _ I'). cbn [fst snd] in X. lia.
Qed.
Lemma alpha_value ch : 65 <= ch <= 90 \/ 97 <= ch <= 122 -> HexAlpha ch = (if ch <? 97 then ch - 65 + 10 else ch - 97 + 10).
Proof.
  intros H. assert (X : forallb (fun c => (HexAlpha c =? (if c <? 97 then c - 65 + 10 else c - 97 + 10))) (map Z.of_nat (List.seq 65 26 ++ List.seq 97 26)) = true) by (vm_compute; reflexivity).
  rewrite forallb_forall in X. apply Z.eqb_eq, X. apply in_map_iff. exists (Z.to_nat ch). split; [lia|]. apply in_app_iff. rewrite !in_seq. lia.
Qed.
Lemma alpha_none ch : ~ (65 <= ch <= 90 \/ 97 <= ch <= 122) -> HexAlpha ch = -1.
Proof. intros H. unfold HexAlpha. match goal with |- (if ?b then _ else _) = _ => destruct b eqn:E end; [lia|reflexivity]. Qed.

Definition dv (radix ch : Z) : Z := match Digit ch radix with Ok d => d | _ => -1 end.
Lemma Digit_spec radix ch : 1 <= radix ->
  Digit ch radix = Ok (dv radix ch) /\ (0 <= dv radix ch -> digit radix ch (dv radix ch)) /\ -1 <= dv radix ch < Z.max 2 radix /\
  (forall d, digit radix ch d -> dv radix ch = d).
Proof.
  intros HR. unfold dv, Digit. destruct (ucs4digit_spec 0 ch ltac:(vm_compute; split; [discriminate|reflexivity])) as (v & w & -> & DS & B & _). cbn [obind fst snd].
  destruct DS as [DV|[ND ->]].
  - assert (R := digit_value_range _ _ _ digit_ok DV). destruct (Z.ltb_spec v 0); [lia|]. cbn [andb].
    assert (RR : (v <? radix) || (v =? 1) && (radix =? 1) = (v <? Z.max 2 radix)) by lia. rewrite RR.
    destruct (Z.ltb_spec v (Z.max 2 radix)); (split; [reflexivity|]).
    + split; [intros _; split; [lia|left; exact DV]|]. split; [lia|]. intros d [_ [D|[N _]]]; [eapply digit_value_fun; eassumption|exfalso; exact (N _ DV)].
    + split; [lia|]. split; [lia|]. intros d [L [D|[N _]]]; [|exfalso; exact (N _ DV)]. assert (d = v) by (eapply digit_value_fun; eassumption). lia.
  - change (-1 <? 0) with true. cbn [andb]. destruct (Z.gtb_spec radix 10) as [G|G].
    + cbn [andb]. destruct (Z.ltb_spec (HexAlpha ch) 0) as [N|P].
      * split; [reflexivity|]. split; [lia|]. split; [lia|]. intros d [L [D|[_ A]]]; [exfalso; exact (ND _ D)|]. exfalso. rewrite alpha_value in N by lia. destruct (Z.ltb_spec ch 97); lia.
      * assert (A : 65 <= ch <= 90 \/ 97 <= ch <= 122). { destruct (Z_lt_dec ch 65); [rewrite alpha_none in P; lia|]. destruct (Z_lt_dec 122 ch); [rewrite alpha_none in P; lia|]. destruct (Z_le_dec ch 90); [lia|]. destruct (Z_le_dec 97 ch); [lia|]. rewrite alpha_none in P; lia. }
        assert (V := alpha_value ch A). assert (RR : (HexAlpha ch =? 1) && (radix =? 1) = false) by (destruct (Z.eqb_spec radix 1); [lia|apply andb_false_r]). rewrite RR, orb_false_r.
        assert (V2 : 65 <= ch <= 90 /\ HexAlpha ch = ch - 65 + 10 \/ 97 <= ch <= 122 /\ HexAlpha ch = ch - 97 + 10) by (destruct (Z.ltb_spec ch 97); lia).
        destruct (Z.ltb_spec (HexAlpha ch) radix); (split; [reflexivity|]).
        -- split; [intros _; split; [lia|right; split; [exact ND|exact V2]]|]. split; [lia|]. intros d [_ [D|[_ A']]]; [exfalso; exact (ND _ D)|lia].
        -- split; [lia|]. split; [lia|]. intros d [L [D|[_ A']]]; [exfalso; exact (ND _ D)|lia].
    + cbn [andb]. destruct (Z.ltb_spec (-1) radix); [|lia]. cbn [orb]. split; [reflexivity|]. split; [lia|]. split; [lia|]. intros d [L [D|[_ A]]]; [exfalso; exact (ND _ D)|lia].
Qed.
Lemma digit_nonneg radix ch d : digit radix ch d -> 0 <= d.
Proof. intros [_ [D|[_ A]]]; [|lia]. apply (digit_value_range _ _ _ digit_ok) in D. lia. Qed.
Lemma zero_digit ch : exists w, UCS4Digit 0 ch = Ok (w) /\ ((fst w =? 0) = true <-> digit 10 ch 0).
Proof.
  destruct (ucs4digit_spec 0 ch ltac:(vm_compute; split; [discriminate|reflexivity])) as (v & w & -> & DS & B & _). eexists. split; [reflexivity|]. cbn [fst]. rewrite Z.eqb_eq.
  destruct DS as [DV|[ND ->]].
  - split; [intros ->; split; [lia|left; exact DV]|]. intros [_ [D|[N _]]]; [eapply digit_value_fun; eassumption|exfalso; exact (N _ DV)].
  - split; [lia|]. intros [_ [D|[_ A]]]; [exfalso; exact (ND _ D)|lia].
Qed.
Lemma white_blank ch : UCS4IsWhite ch = true <-> blank ch.
Proof. unfold UCS4IsWhite, blank. cbn [In]. lia. Qed.

(** *** Spans *)
Fixpoint span (P : Z -> bool) (l : list Z) : list Z * list Z :=
  match l with
  | [] => ([], [])
  | c :: r => if P c then let (a, b) := span P r in (c :: a, b) else ([], l)
  end.
Lemma span_app P l : l = fst (span P l) ++ snd (span P l).
Proof. induction l as [|c l IH]; [reflexivity|]. cbn [span]. destruct (P c); [|reflexivity]. destruct (span P l). cbn [fst snd app] in *. congruence. Qed.
Lemma span_all P l : Forall (fun c => P c = true) (fst (span P l)).
Proof. induction l as [|c l IH]; [constructor|]. cbn [span]. destruct (P c) eqn:E; [|constructor]. destruct (span P l). cbn [fst] in *. constructor; assumption. Qed.
Definition stops (P : Z -> bool) (r : list Z) : Prop := forall c q, r = c :: q -> P c = false.
Lemma span_stops P l : stops P (snd (span P l)).
Proof. induction l as [|c l IH]; [intros ? ? E; discriminate|]. cbn [span]. destruct (P c) eqn:E; [destruct (span P l); exact IH|]. intros d q H. cbn [snd] in H. congruence. Qed.
Lemma span_unique P a b : Forall (fun c => P c = true) a -> stops P b -> span P (a ++ b) = (a, b).
Proof.
  intros A B. induction A as [|c a H _ IH]; cbn [app span].
  - destruct b as [|d b]; [reflexivity|]. cbn [span]. rewrite (B d b eq_refl). reflexivity.
  - rewrite H, IH. reflexivity.
Qed.

(** *** The loops, on the text *)
Section Text.
Variables (h0 : sheap) (s : sval) (chs : list Z).
Hypothesis V : vin h0 s chs.
Let t := vtext s chs.

Lemma index_in h i : BG h -> hsim h0 h -> 0 <= i < v_len s -> exists h', sv_index h s i = Ok (h', nth (Z.to_nat i) t 0) /\ BG h' /\ hsim h0 h'.
Proof.
  intros G S Hi. assert (L := vtext_len _ _ _ V). destruct (vin_small _ _ _ V) as [_ SM]. destruct (sv_index_ok h s chs i G (sim_vin _ _ _ _ G S V) ltac:(lia)) as (h1 & E & G1 & S1).
  exists h1. split; [|split; [exact G1|exact (hsim_trans _ _ _ S S1)]]. rewrite E. destruct (Z.eqb_spec i (v_len s)); [lia|].
  destruct (nth_some_lt (vtext s chs) (Z.to_nat i) ltac:(lia)) as [c Hc]. rewrite Hc. destruct (Z.ltb_spec i 0); [lia|]. do 2 f_equal. symmetry. apply nth_error_nth. exact Hc.
Qed.
Lemma index_end h : BG h -> hsim h0 h -> sv_index h s (v_len s) = Ok (h, 0).
Proof.
  intros G S. destruct (vin_small _ _ _ V) as [_ SM]. assert (0 <= v_len s) by apply V. unfold sv_index. replace (u32 (v_len s)) with (v_len s) by (unfold u32; lia). rewrite Z.eqb_refl. reflexivity.
Qed.
Lemma skip_cons i : (i < length t)%nat -> skipn i t = nth i t 0 :: skipn (Datatypes.S i) t.
Proof.
  generalize t as l. intros l. revert i. induction l as [|a l IH]; intros [|i] H; cbn [length] in H; try lia; [reflexivity|]. cbn [skipn nth]. apply IH. lia.
Qed.

Lemma white_loop_ok fuel : forall h i ch, BG h -> hsim h0 h -> 0 <= i <= v_len s -> v_len s - i <= Z.of_nat fuel ->
  exists h' ch', white_loop fuel h s i ch = Ok (h', i + Z.of_nat (length (fst (span UCS4IsWhite (skipn (Z.to_nat i) t)))), ch') /\ BG h' /\ hsim h0 h' /\
    (forall c q, snd (span UCS4IsWhite (skipn (Z.to_nat i) t)) = c :: q -> ch' = c).
Proof.
  assert (L := vtext_len _ _ _ V). fold t in L. induction fuel as [|f IH]; intros h i ch G S Hi HF; cbn [white_loop].
  - destruct (Z.ltb_spec i (v_len s)); [lia|]. rewrite skipn_all2 by lia. cbn [span fst snd length]. rewrite Z.add_0_r. exists h, ch. split; [reflexivity|]. split; [exact G|]. split; [exact S|]. intros; discriminate.
  - destruct (Z.ltb_spec i (v_len s)) as [LT|GE].
    + destruct (index_in h i G S ltac:(lia)) as (h1 & -> & G1 & S1). cbn [obind fst snd]. rewrite (skip_cons (Z.to_nat i)) by lia. cbn [span]. destruct (UCS4IsWhite (nth (Z.to_nat i) t 0)) eqn:W.
      * destruct (IH h1 (i + 1) (nth (Z.to_nat i) t 0) G1 S1 ltac:(lia) ltac:(lia)) as (h2 & ch2 & E & G2 & S2 & C). replace (Z.to_nat (i + 1)) with (Datatypes.S (Z.to_nat i)) in * by lia.
        rewrite E. exists h2, ch2. destruct (span UCS4IsWhite (skipn (Datatypes.S (Z.to_nat i)) t)) as [a b]. cbn [fst snd length] in *. split; [do 3 f_equal; lia|]. auto.
      * cbn [fst snd length]. rewrite Z.add_0_r. exists h1, (nth (Z.to_nat i) t 0). split; [reflexivity|]. split; [exact G1|]. split; [exact S1|]. intros c q E. congruence.
    + rewrite skipn_all2 by lia. cbn [span fst snd length]. rewrite Z.add_0_r. exists h, ch. split; [reflexivity|]. split; [exact G|]. split; [exact S|]. intros; discriminate.
Qed.

(** The value a run of digits accumulates to, [None] when above 64 bits. *)
Definition acc (radix : Z) (ds : list Z) (a : Z) : Z := fold_left (fun a d => a * radix + d) ds a.
Lemma acc_ge radix ds : 1 <= radix -> Forall (fun d => 0 <= d) ds -> forall a, 0 <= a -> a <= acc radix ds a.
Proof. intros R. induction 1 as [|d ds D _ IH]; intros a A; cbn [acc fold_left]; [lia|]. unfold acc in IH. specialize (IH (a * radix + d) ltac:(nia)). nia. Qed.

Lemma overflow_test radix l d : 1 <= radix <= 36 -> 0 <= l < 2^64 -> 0 <= d < Z.max 2 radix ->
  ((l >? u64 ((2^64 - 2) / radix + 1)) || (u64 (l * radix + d) <? l) = (2^64 <=? l * radix + d)) /\ (l * radix + d < 2^64 -> u64 (l * radix + d) = l * radix + d).
Proof.
  intros R L D. assert (Q := Z.div_mod (2^64 - 2) radix ltac:(lia)). assert (QB := Z.mod_pos_bound (2^64 - 2) radix ltac:(lia)). set (q := (2^64 - 2) / radix) in *. set (m := (2^64 - 2) mod radix) in *. clearbody q m.
  assert (q + 1 < 2^64) by nia. assert (0 <= q) by nia.
  assert (U : u64 (q + 1) = q + 1) by (unfold u64; apply Z.mod_small; lia). rewrite U.
  assert (S : l * radix + d < 2^64 -> u64 (l * radix + d) = l * radix + d) by (intros; unfold u64; apply Z.mod_small; nia). split; [|exact S].
  destruct (Z.leb_spec (2^64) (l * radix + d)) as [O|O].
  - destruct (Z.gtb_spec l (q + 1)) as [X|X]; [reflexivity|]. cbn [orb]. assert (B : l * radix + d < 2^64 + 80) by nia.
    assert (EU : u64 (l * radix + d) = l * radix + d - 2^64). { unfold u64. change 18446744073709551616 with (2^64). symmetry. apply Z.mod_unique with 1; lia. }
    rewrite EU. destruct (Z.ltb_spec (l * radix + d - 2^64) l); [reflexivity|]. assert (l >= 1000) by nia. lia.
  - rewrite S by exact O. destruct (Z.gtb_spec l (q + 1)) as [X|X]; [nia|]. cbn [orb]. destruct (Z.ltb_spec (l * radix + d) l); [nia|reflexivity].
Qed.

Lemma digit_conv_ok radix : 1 <= radix <= 36 -> forall fuel h i l d, BG h -> hsim h0 h -> 0 <= i < v_len s -> v_len s - i <= Z.of_nat fuel -> 0 <= l < 2^64 -> 0 <= d < Z.max 2 radix ->
  let p := span (fun c => dv radix c >=? 0) (skipn (Z.to_nat (i + 1)) t) in
  let v := acc radix (d :: map (dv radix) (fst p)) l in
  exists h' i', digit_conv fuel h s radix (u64 ((2^64 - 2) / radix + 1)) i l d = Ok (h', i', if 2^64 <=? v then None else Some v) /\ BG h' /\ hsim h0 h' /\
    i < i' <= v_len s /\ (v < 2^64 -> i' = i + 1 + Z.of_nat (length (fst p))).
Proof.
  intros R. assert (L := vtext_len _ _ _ V). fold t in L. induction fuel as [|f IH]; intros h i l d G S Hi HF Hl Hd p v; [lia|]. cbn [digit_conv].
  destruct (overflow_test radix l d R Hl Hd) as [OT ST]. rewrite OT. clear OT.
  assert (NN : Forall (fun e => 0 <= e) (map (dv radix) (fst p))).
  { apply Forall_forall. intros e He. apply in_map_iff in He. destruct He as (c & <- & Hc). assert (A := span_all (fun c => dv radix c >=? 0) (skipn (Z.to_nat (i + 1)) t)). fold p in A. rewrite Forall_forall in A. specialize (A c Hc). cbv beta in A. lia. }
  destruct (Z.leb_spec (2^64) (l * radix + d)) as [O|O].
  - exists h, (i + 1). assert (G2 := acc_ge radix _ ltac:(lia) NN (l * radix + d) ltac:(lia)). change (acc radix (map (dv radix) (fst p)) (l * radix + d)) with v in G2.
    destruct (Z.leb_spec (2^64) v); [|lia]. split; [reflexivity|]. split; [exact G|]. split; [exact S|]. split; lia.
  - rewrite (ST O). destruct (Z.ltb_spec (i + 1) (v_len s)) as [LT|GE].
    + destruct (index_in h (i + 1) G S ltac:(lia)) as (h1 & -> & G1 & S1). cbn [obind fst snd]. destruct (Digit_spec radix (nth (Z.to_nat (i + 1)) t 0) ltac:(lia)) as (-> & _ & B & _). cbn [obind].
      assert (EP : p = if dv radix (nth (Z.to_nat (i + 1)) t 0) >=? 0 then (nth (Z.to_nat (i + 1)) t 0 :: fst (span (fun c => dv radix c >=? 0) (skipn (Z.to_nat (i + 1 + 1)) t)), snd (span (fun c => dv radix c >=? 0) (skipn (Z.to_nat (i + 1 + 1)) t))) else ([], skipn (Z.to_nat (i + 1)) t)).
      { unfold p. rewrite (skip_cons (Z.to_nat (i + 1))) by lia. replace (Z.to_nat (i + 1 + 1)) with (Datatypes.S (Z.to_nat (i + 1))) by lia. cbn [span]. destruct (_ >=? 0); [|reflexivity]. destruct (span (fun c : Z => dv radix c >=? 0) (skipn (Datatypes.S (Z.to_nat (i + 1))) t)). reflexivity. }
      destruct (Z.geb_spec (dv radix (nth (Z.to_nat (i + 1)) t 0)) 0) as [D|D].
      * destruct (IH h1 (i + 1) (l * radix + d) (dv radix (nth (Z.to_nat (i + 1)) t 0)) G1 S1 ltac:(lia) ltac:(lia) ltac:(nia) ltac:(lia)) as (h2 & i2 & E & G2 & S2 & BI & EI). cbv zeta in E, EI.
        assert (EV : v = acc radix (dv radix (nth (Z.to_nat (i + 1)) t 0) :: map (dv radix) (fst (span (fun c => dv radix c >=? 0) (skipn (Z.to_nat (i + 1 + 1)) t)))) (l * radix + d)) by (unfold v; rewrite EP; reflexivity).
        rewrite <- EV in E, EI. exists h2, i2. split; [exact E|]. split; [exact G2|]. split; [exact S2|]. split; [lia|]. intros X. rewrite (EI X), EP. cbn [fst length]. lia.
      * exists h1, (i + 1). assert (EV : v = l * radix + d) by (unfold v; rewrite EP; reflexivity). rewrite EV. destruct (Z.leb_spec (2^64) (l * radix + d)); [lia|]. split; [reflexivity|]. split; [exact G1|]. split; [exact S1|]. split; [lia|]. intros _. rewrite EP. cbn [fst length]. lia.
    + exists h, (i + 1). assert (EP : p = ([], [])) by (unfold p; rewrite skipn_all2 by lia; reflexivity). assert (EV : v = l * radix + d) by (unfold v; rewrite EP; reflexivity). rewrite EV, EP.
      destruct (Z.leb_spec (2^64) (l * radix + d)); [lia|]. split; [reflexivity|]. split; [exact G|]. split; [exact S|]. split; [lia|]. intros _. cbn [fst length]. lia.
Qed.
(** The result as a function of the text; [None]: undefined behaviour. *)
Definition isdig (radix c : Z) : bool := dv radix c >=? 0.
Definition pconv (radix : Z) (neg : bool) (l : list Z) : option (Z * Z) :=
  match l with
  | [] => Some (0, STRERR_NO_DIGITS)
  | c :: _ =>
      if dv radix c <? 0 then Some (0, STRERR_NOT_NUMBER)
      else
        let v := acc radix (map (dv radix) (fst (span (isdig radix) l))) 0 in
        if 2^64 <=? v then Some (0, STRERR_NUMBER_OVERFLOW)
        else if neg && (v =? 2^63) then None
        else Some (s32 (if neg then - v else v),
                   if v >? 2^63 - 1 + (if neg then 1 else 0) then STRERR_NUMBER_OVERFLOW
                   else match snd (span UCS4IsWhite (snd (span (isdig radix) l))) with [] => 0 | _ => STRERR_TRAIL_TEXT end)
  end.
Definition zero (c : Z) : bool := match UCS4Digit 0 c with Ok w => fst w =? 0 | _ => false end.
Definition pint (radix : Z) (t : list Z) : option (Z * Z) :=
  match snd (span UCS4IsWhite t) with
  | [] => Some (0, STRERR_NO_DIGITS)
  | c :: q =>
      let neg := c =? 45 in
      let r2 := if (c =? 43) || (c =? 45) then snd (span UCS4IsWhite q) else c :: q in
      match r2 with
      | [] => Some (0, STRERR_NO_DIGITS)
      | z :: q2 =>
          if radix =? 0 then
            match q2 with
            | [] => pconv 10 neg r2
            | x :: ds =>
                if zero z then
                  if (x =? 98) || (x =? 66) then pconv 2 neg ds
                  else if (x =? 120) || (x =? 88) then pconv 16 neg ds
                  else pconv 8 neg r2
                else pconv 10 neg r2
            end
          else pconv radix neg r2
      end
  end.
(** What is left of the text where the scan stops. *)
Definition rconv (radix : Z) (l : list Z) : list Z :=
  match l with
  | [] => []
  | c :: _ => if dv radix c <? 0 then l else snd (span UCS4IsWhite (snd (span (isdig radix) l)))
  end.
Definition rrest (radix : Z) (r2 : list Z) : list Z :=
  match r2 with
  | [] => []
  | z :: q2 =>
      if radix =? 0 then
        match q2 with
        | [] => rconv 10 r2
        | x :: ds =>
            if zero z then
              if (x =? 98) || (x =? 66) then rconv 2 ds
              else if (x =? 120) || (x =? 88) then rconv 16 ds
              else rconv 8 r2
            else rconv 10 r2
        end
      else rconv radix r2
  end.
Definition rint (radix : Z) (t : list Z) : list Z :=
  match snd (span UCS4IsWhite t) with
  | [] => []
  | c :: q => rrest radix (if (c =? 43) || (c =? 45) then snd (span UCS4IsWhite q) else c :: q)
  end.
Definition agrees (o : outcome (sheap * int_result)) (r : option (Z * Z)) (left : list Z) : Prop :=
  match r with
  | None => o = UB
  | Some (v, e) => exists h' sc, o = Ok (h', {| ir_value := v; ir_err := e; ir_scanned := sc |}) /\ BG h' /\ hsim h0 h' /\ (e = 0 -> sc = v_len s) /\
      0 <= sc <= v_len s /\ (e <> STRERR_NUMBER_OVERFLOW -> sc = v_len s - Z.of_nat (length left))
  end.

Lemma s32_eq a b : a mod 4294967296 = b mod 4294967296 -> s32 a = s32 b.
Proof. intros E. unfold s32. rewrite E. reflexivity. Qed.
Lemma skipn_add i j : skipn j (skipn i t) = skipn (i + j) t.
Proof. rewrite ArrayOps.skipn_skipn. reflexivity. Qed.
Lemma span_skip P l : snd (span P l) = skipn (length (fst (span P l))) l.
Proof. rewrite (span_app P l) at 3. rewrite skipn_app, skipn_all, Nat.sub_diag. reflexivity. Qed.

Lemma convert_ok radix h i neg c q : 1 <= radix <= 36 -> BG h -> hsim h0 h -> 0 <= i -> skipn (Z.to_nat i) t = c :: q ->
  agrees (convert h s radix i c neg) (pconv radix neg (c :: q)) (rconv radix (c :: q)).
Proof.
  intros R G S Hi E. assert (L := vtext_len _ _ _ V). fold t in L. assert (LT : (Z.to_nat i < length t)%nat) by (destruct (Nat.lt_ge_cases (Z.to_nat i) (length t)); [assumption|rewrite skipn_all2 in E by assumption; discriminate]).
  destruct (vin_small _ _ _ V) as [_ SM].
  assert (EQ : skipn (Datatypes.S (Z.to_nat i)) t = q). { rewrite skip_cons in E by exact LT. revert E. generalize (skipn (Datatypes.S (Z.to_nat i)) t). intros q' E. congruence. }
  assert (LQ2 : length q = (length t - Datatypes.S (Z.to_nat i))%nat) by (rewrite <- EQ; apply skipn_length).
  unfold convert, pconv, rconv. destruct (Digit_spec radix c ltac:(lia)) as (-> & _ & B & _). cbn [obind].
  destruct (Z.ltb_spec (dv radix c) 0) as [D|D].
  - exists h, i. split; [reflexivity|]. split; [exact G|]. split; [exact S|]. split; [discriminate|]. split; [lia|]. intros _. cbn [length]. lia.
  - destruct (Z.eqb_spec radix 0); [lia|]. destruct (digit_conv_ok radix R (Datatypes.S (Z.to_nat (v_len s))) h i 0 (dv radix c) G S ltac:(lia) ltac:(lia) ltac:(lia) ltac:(lia)) as (h1 & i1 & E1 & G1 & S1 & BI & EI). cbv zeta in E1, EI.
    replace (Z.to_nat (i + 1)) with (Datatypes.S (Z.to_nat i)) in * by lia. rewrite EQ in E1, EI. change (fun c0 : Z => dv radix c0 >=? 0) with (isdig radix) in *.
    assert (SP : span (isdig radix) (c :: q) = (c :: fst (span (isdig radix) q), snd (span (isdig radix) q))). { cbn [span]. unfold isdig at 1. destruct (Z.geb_spec (dv radix c) 0); [|lia]. destruct (span (isdig radix) q). reflexivity. }
    rewrite SP. cbn [fst snd map]. set (v := acc radix (dv radix c :: map (dv radix) (fst (span (isdig radix) q))) 0) in *.
    rewrite E1. cbn [obind]. destruct (Z.leb_spec (2^64) v) as [O|O].
    + exists h1, i1. split; [reflexivity|]. split; [exact G1|]. split; [exact S1|]. split; [discriminate|]. split; [lia|]. intros X. exfalso. apply X. reflexivity.
    + specialize (EI O). set (ds := fst (span (isdig radix) q)) in *. set (r := snd (span (isdig radix) q)).
      assert (LQ : (length ds <= length q)%nat) by (rewrite (span_app (isdig radix) q), app_length; unfold ds; lia).
      assert (ER : skipn (Z.to_nat i1) t = r). { unfold r. rewrite span_skip. fold ds. rewrite <- EQ, skipn_add. f_equal. lia. }
      destruct (white_loop_ok (Datatypes.S (Z.to_nat (v_len s))) h1 i1 0 G1 S1 ltac:(lia) ltac:(lia)) as (h2 & ch2 & -> & G2 & S2 & _). cbn [obind]. rewrite ER.
      assert (PV : 0 <= v). { unfold v. cbn [acc fold_left]. assert (X := acc_ge radix (map (dv radix) ds) ltac:(lia)). specialize (X ltac:(apply Forall_forall; intros e He; apply in_map_iff in He; destruct He as (c' & <- & Hc); assert (A := span_all (isdig radix) q); fold ds in A; rewrite Forall_forall in A; specialize (A c' Hc); unfold isdig in A; lia) (0 * radix + dv radix c) ltac:(lia)). unfold acc in X. lia. }
      destruct (neg && (v =? 2^63)) eqn:U; [reflexivity|].
      set (w := fst (span UCS4IsWhite r)). assert (RW := span_app UCS4IsWhite r). fold w in RW.
      assert (LR : length r = (length q - length ds)%nat) by (rewrite (span_app (isdig radix) q) at 1; fold ds r; rewrite app_length; lia).
      assert (LW : length r = (length w + length (snd (span UCS4IsWhite r)))%nat) by (rewrite RW at 1; apply app_length).
      assert (EN : negb (i1 + Z.of_nat (length w) =? v_len s) = match snd (span UCS4IsWhite r) with [] => false | _ => true end).
      { destruct (snd (span UCS4IsWhite r)) as [|x y]; cbn [length] in LW; destruct (Z.eqb_spec (i1 + Z.of_nat (length w)) (v_len s)); cbn [negb]; try reflexivity; exfalso; lia. }
      exists h2, (i1 + Z.of_nat (length w)). split.
      * do 3 f_equal.
        -- destruct neg; destruct (Z.ltb_spec v (2^63)); try reflexivity; apply s32_eq; [replace (- (v - 2^64)) with (- v + 4294967296 * 4294967296) by lia|replace (v - 2^64) with (v + (- 4294967296) * 4294967296) by lia]; apply Z_mod_plus_full.
        -- rewrite EN. destruct (v >? _); [reflexivity|]. destruct (snd (span UCS4IsWhite r)); reflexivity.
      * split; [exact G2|]. split; [exact S2|]. split. { destruct (v >? _); [discriminate|]. destruct (snd (span UCS4IsWhite r)) as [|x y]; [|discriminate]. intros _. cbn [length] in LW. lia. }
        split; [lia|]. intros _. fold r. lia.
Qed.
Lemma skipn_lt i c q : skipn i t = c :: q -> (i < length t)%nat /\ nth i t 0 = c /\ skipn (Datatypes.S i) t = q.
Proof.
  intros E. assert (LT : (i < length t)%nat) by (destruct (Nat.lt_ge_cases i (length t)); [assumption|rewrite skipn_all2 in E by assumption; discriminate]).
  rewrite skip_cons in E by exact LT. revert E. generalize (skipn (Datatypes.S i) t). intros q' E. split; [exact LT|]. split; congruence.
Qed.
Lemma zero_ok c : exists w, UCS4Digit 0 c = Ok w /\ zero c = (fst w =? 0).
Proof. destruct (zero_digit c) as (w & E & _). exists w. split; [exact E|]. unfold zero. rewrite E. reflexivity. Qed.
Lemma zero_spec c : zero c = true <-> digit 10 c 0.
Proof. destruct (zero_digit c) as (w & E & X). unfold zero. rewrite E. exact X. Qed.
Lemma agrees_fail h i e : BG h -> hsim h0 h -> e <> 0 -> 0 <= i <= v_len s -> forall left, i = v_len s - Z.of_nat (length left) -> agrees (Ok (h, fail_at i e)) (Some (0, e)) left.
Proof. intros G S N B left E. exists h, i. split; [reflexivity|]. split; [exact G|]. split; [exact S|]. split; [intros; contradiction|]. split; [exact B|]. intros _. exact E. Qed.

(** The part after the sign. *)
Definition prest (radix : Z) (neg : bool) (r2 : list Z) : option (Z * Z) :=
  match r2 with
  | [] => Some (0, STRERR_NO_DIGITS)
  | z :: q2 =>
      if radix =? 0 then
        match q2 with
        | [] => pconv 10 neg r2
        | x :: ds =>
            if zero z then
              if (x =? 98) || (x =? 66) then pconv 2 neg ds
              else if (x =? 120) || (x =? 88) then pconv 16 neg ds
              else pconv 8 neg r2
            else pconv 10 neg r2
        end
      else pconv radix neg r2
  end.
Lemma detect_ok radix h i neg z q : radix = 0 \/ 1 <= radix <= 36 -> BG h -> hsim h0 h -> 0 <= i -> skipn (Z.to_nat i) t = z :: q ->
  agrees (do t <- detect h s radix i z;
          let '(h3, rx, p) := t : sheap * Z * option (Z * Z) in
          match p with
          | None => Ok (h3, fail_at rx STRERR_NO_DIGITS)
          | Some (i3, ch3) => convert h3 s rx i3 ch3 neg
          end) (prest radix neg (z :: q)) (rrest radix (z :: q)).
Proof.
  intros R G S Hi E. assert (L := vtext_len _ _ _ V). fold t in L. destruct (skipn_lt _ _ _ E) as (LT & EZ & EQ). unfold detect, prest, rrest.
  destruct (Z.eqb_spec radix 0) as [R0|R0]; [|cbn [obind]; apply convert_ok; [lia|assumption..]].
  destruct (zero_ok z) as (w & -> & ->). cbn [obind].
  destruct q as [|x ds].
  - assert (LQ : length (skipn (Datatypes.S (Z.to_nat i)) t) = 0%nat) by (rewrite EQ; reflexivity). rewrite skipn_length in LQ. destruct (Z.ltb_spec (i + 1) (v_len s)); [lia|]. rewrite andb_false_r. cbn [obind]. apply convert_ok; [lia|assumption..].
  - destruct (skipn_lt _ _ _ EQ) as (LT2 & EX & ED). destruct (Z.ltb_spec (i + 1) (v_len s)); [|lia]. rewrite andb_true_r. destruct (fst w =? 0); [|cbn [obind]; apply convert_ok; [lia|assumption..]].
    destruct (index_in h (i + 1) G S ltac:(lia)) as (h1 & -> & G1 & S1). cbn [obind fst snd]. replace (Z.to_nat (i + 1)) with (Datatypes.S (Z.to_nat i)) by lia. rewrite EX.
    assert (PRE : forall rx, 1 <= rx <= 36 -> agrees (do t0 <- (do r2 <- sv_index h1 s (i + 2); if i + 2 =? v_len s then Ok (fst r2, i + 2, None) else Ok (fst r2, rx, Some (i + 2, snd r2)));
          let '(h3, rx, p) := t0 : sheap * Z * option (Z * Z) in
          match p with
          | None => Ok (h3, fail_at rx STRERR_NO_DIGITS)
          | Some (i3, ch3) => convert h3 s rx i3 ch3 neg
          end) (pconv rx neg ds) (rconv rx ds)).
    { intros rx RX. destruct ds as [|d ds].
      - assert (LQ : length (skipn (Datatypes.S (Datatypes.S (Z.to_nat i))) t) = 0%nat) by (rewrite ED; reflexivity). rewrite skipn_length in LQ. replace (i + 2) with (v_len s) by lia. rewrite (index_end h1 G1 S1). cbn [obind]. rewrite Z.eqb_refl. apply agrees_fail; [assumption..|discriminate|lia|cbn [rconv length]; lia].
      - destruct (skipn_lt _ _ _ ED) as (LT3 & EY & _). destruct (index_in h1 (i + 2) G1 S1 ltac:(lia)) as (h2 & -> & G2 & S2). cbn [obind fst snd]. destruct (Z.eqb_spec (i + 2) (v_len s)); [lia|]. replace (Z.to_nat (i + 2)) with (Datatypes.S (Datatypes.S (Z.to_nat i))) by lia. rewrite EY. cbn [obind]. apply convert_ok; [lia|assumption|assumption|lia|]. replace (Z.to_nat (i + 2)) with (Datatypes.S (Datatypes.S (Z.to_nat i))) by lia. exact ED. }
    destruct ((x =? 98) || (x =? 66)); [apply PRE; lia|]. destruct ((x =? 120) || (x =? 88)); [apply PRE; lia|]. cbn [obind]. apply convert_ok; [lia|assumption..].
Qed.

Lemma as_int32_ok radix : radix = 0 \/ 1 <= radix <= 36 -> BG h0 -> agrees (as_int32 h0 s radix) (pint radix t) (rint radix t).
Proof.
  intros R G. assert (L := vtext_len _ _ _ V). fold t in L. assert (VL : 0 <= v_len s) by apply V. unfold as_int32. replace ((radix <? 0) || (radix >? 36)) with false by (destruct (Z.ltb_spec radix 0), (Z.gtb_spec radix 36); try lia; reflexivity).
  destruct (white_loop_ok (Z.to_nat (v_len s)) h0 0 0 G (hsim_refl _) ltac:(lia) ltac:(lia)) as (h1 & ch1 & -> & G1 & S1 & C1). cbn [obind]. change (skipn (Z.to_nat 0) t) with t in *.
  unfold pint, rint. assert (SA := span_app UCS4IsWhite t). assert (SK := span_skip UCS4IsWhite t). set (w1 := fst (span UCS4IsWhite t)) in *. set (r1 := snd (span UCS4IsWhite t)) in *. clearbody w1 r1.
  assert (LA : length t = (length w1 + length r1)%nat) by (rewrite SA at 1; apply app_length).
  destruct r1 as [|c q]; cbn [length] in LA.
  - replace (0 + Z.of_nat (length w1)) with (v_len s) by lia. rewrite Z.eqb_refl. apply agrees_fail; [assumption..|discriminate|lia|cbn [rrest length]; lia].
  - rewrite (C1 c q eq_refl). clear C1. destruct (Z.eqb_spec (0 + Z.of_nat (length w1)) (v_len s)); [lia|].
    set (i1 := 0 + Z.of_nat (length w1)) in *. assert (EI : Z.to_nat i1 = length w1) by lia. rewrite <- EI in SK. symmetry in SK. destruct (skipn_lt _ _ _ SK) as (LT & _ & EQ).
    fold (prest radix (c =? 45) (if (c =? 43) || (c =? 45) then snd (span UCS4IsWhite q) else c :: q)).
    destruct ((c =? 43) || (c =? 45)).
    + destruct (white_loop_ok (Z.to_nat (v_len s)) h1 (i1 + 1) c G1 S1 ltac:(lia) ltac:(lia)) as (h2 & ch2 & -> & G2 & S2 & C2). cbn [obind]. replace (Z.to_nat (i1 + 1)) with (Datatypes.S (Z.to_nat i1)) in * by lia. rewrite EQ in *.
      assert (SB := span_app UCS4IsWhite q). assert (SL := span_skip UCS4IsWhite q). set (w2 := fst (span UCS4IsWhite q)) in *. set (r2 := snd (span UCS4IsWhite q)) in *. clearbody w2 r2.
      assert (LB : length q = (length w2 + length r2)%nat) by (rewrite SB at 1; apply app_length).
      destruct r2 as [|z q2]; cbn [length] in LB.
      * replace (i1 + 1 + Z.of_nat (length w2)) with (v_len s) by lia. rewrite Z.eqb_refl. apply agrees_fail; [assumption..|discriminate|lia|cbn [rrest length]; lia].
      * rewrite (C2 z q2 eq_refl). destruct (Z.eqb_spec (i1 + 1 + Z.of_nat (length w2)) (v_len s)); [lia|]. apply detect_ok; [assumption..|lia|].
        rewrite SL, <- EQ, skipn_add. f_equal. lia.
    + cbn [obind]. destruct (Z.eqb_spec i1 (v_len s)); [lia|]. apply detect_ok; [assumption..|lia|exact SK].
Qed.
End Text.

(** *** The function of the text recognises numerals *)
Definition radix_ok (radix : Z) : Prop := radix = 0 \/ 1 <= radix <= 36.
(** No decimal digit among blanks, signs and radix letters. *)
Lemma no_digit c : In c ([9; 10; 13; 32; 0xA0; 0x2000; 0x2001; 0x2002; 0x2003; 0x2004; 0x2005; 0x2006; 0x2007;
    0x2008; 0x2009; 0x200A; 0x200B; 0x2028; 0x2029; 0x3000] ++ [43; 45; 98; 66; 120; 88]) -> forall u, ~ digit_value UCS4_DigitRanges c u.
Proof.
  intros I u (l & h & J & R & _).
  assert (X : forallb (fun c => forallb (fun q => (c <? fst q) || (snd q <? c)) UCS4_DigitRanges) ([9; 10; 13; 32; 0xA0; 0x2000; 0x2001; 0x2002; 0x2003; 0x2004; 0x2005; 0x2006; 0x2007;
    0x2008; 0x2009; 0x200A; 0x200B; 0x2028; 0x2029; 0x3000] ++ [43; 45; 98; 66; 120; 88]) = true) by (vm_compute; reflexivity).
  rewrite forallb_forall in X. specialize (X _ I). rewrite forallb_forall in X. specialize (X _ J). cbn [fst snd] in X. lia.
Qed.
Lemma blank_nodigit radix c d : blank c -> ~ digit radix c d.
Proof.
  intros B [_ [D|[_ A]]]; [eapply no_digit; [|exact D]; apply in_app_iff; left; exact B|]. unfold blank in B. cbn [In] in B. lia.
Qed.
Lemma sign_nodigit radix c d : c = 43 \/ c = 45 -> ~ digit radix c d.
Proof. intros B [_ [D|[_ A]]]; [eapply no_digit; [|exact D]; apply in_app_iff; right; cbn [In]; lia|lia]. Qed.
Lemma letter_nodigit radix c d : radix <= 10 -> c = 98 \/ c = 66 \/ c = 120 \/ c = 88 -> ~ digit radix c d.
Proof. intros R B [L [D|[_ A]]]; [eapply no_digit; [|exact D]; apply in_app_iff; right; cbn [In]; lia|lia]. Qed.
Lemma sign_noblank c : c = 43 \/ c = 45 -> UCS4IsWhite c = false.
Proof. intros [-> | ->]; reflexivity. Qed.
Lemma digit_noblank radix c d : digit radix c d -> UCS4IsWhite c = false.
Proof. intros D. destruct (UCS4IsWhite c) eqn:W; [|reflexivity]. apply white_blank in W. exfalso. exact (blank_nodigit _ _ _ W D). Qed.
Lemma blanks_white w : Forall blank w -> Forall (fun c => UCS4IsWhite c = true) w.
Proof. apply Forall_impl. intros c. apply white_blank. Qed.
Lemma white_blanks w : Forall (fun c => UCS4IsWhite c = true) w -> Forall blank w.
Proof. apply Forall_impl. intros c. apply white_blank. Qed.
Lemma isdig_spec radix c : 1 <= radix -> isdig radix c = true <-> digit radix c (dv radix c).
Proof.
  intros R. destruct (Digit_spec radix c R) as (_ & A & B & C). unfold isdig. split; intros H; [apply A; lia|]. apply digit_nonneg in H. lia.
Qed.
Lemma digits_isdig radix b v : 1 <= radix -> digits radix b v <-> b <> [] /\ Forall (fun c => isdig radix c = true) b /\ v = acc radix (map (dv radix) b) 0.
Proof.
  intros R. split.
  - intros (N & ds & F & ->). split; [exact N|]. assert (E : Forall (fun c => isdig radix c = true) b /\ map (dv radix) b = ds).
    { clear N. induction F as [|c d b ds D F [I1 I2]]; [split; [constructor|reflexivity]|]. destruct (Digit_spec radix c R) as (_ & _ & _ & C). specialize (C d D). split; [constructor; [apply isdig_spec; [exact R|rewrite C; exact D]|exact I1]|]. cbn [map]. congruence. }
    destruct E as [E1 E2]. split; [exact E1|]. rewrite E2. reflexivity.
  - intros (N & F & ->). split; [exact N|]. exists (map (dv radix) b). split; [|reflexivity]. clear N. induction F as [|c b D F IH]; [constructor|]. cbn [map]. constructor; [apply isdig_spec; assumption|exact IH].
Qed.
Lemma blank_isdig radix c : 1 <= radix -> blank c -> isdig radix c = false.
Proof. intros R B. destruct (isdig radix c) eqn:D; [|reflexivity]. apply isdig_spec in D; [|exact R]. exfalso. exact (blank_nodigit _ _ _ B D). Qed.
Lemma digits_nonneg radix b v : 1 <= radix -> digits radix b v -> 0 <= v.
Proof.
  intros R D. apply digits_isdig in D; [|exact R]. destruct D as (_ & F & ->). apply acc_ge; [lia| |lia]. apply Forall_forall. intros e He. apply in_map_iff in He. destruct He as (c & <- & Hc). rewrite Forall_forall in F. specialize (F c Hc). unfold isdig in F. lia.
Qed.
Lemma digits_head radix c b v : 1 <= radix -> digits radix (c :: b) v -> exists d, digit radix c d.
Proof. intros R (_ & ds & F & _). inversion F; subst. eauto. Qed.

Lemma pconv_in radix neg b w v : 1 <= radix <= 36 -> digits radix b v -> Forall blank w ->
  pconv radix neg (b ++ w) =
    if 2^64 <=? v then Some (0, STRERR_NUMBER_OVERFLOW) else if neg && (v =? 2^63) then None else
    Some (s32 (if neg then - v else v), if v >? 2^63 - 1 + (if neg then 1 else 0) then STRERR_NUMBER_OVERFLOW else 0).
Proof.
  intros R D W. assert (X := D). apply digits_isdig in X; [|lia]. destruct X as (N & F & EV). unfold pconv. destruct (b ++ w) as [|c l] eqn:E; [destruct b; [congruence|discriminate]|].
  assert (S : span (isdig radix) (c :: l) = (b, w)). { rewrite <- E. apply span_unique; [exact F|]. intros x q ->. apply blank_isdig; [lia|]. inversion W; assumption. }
  rewrite S. cbn [fst snd]. rewrite <- EV. destruct (Z.ltb_spec (dv radix c) 0) as [L|L].
  - exfalso. destruct b as [|c' b]; [congruence|]. cbn [app] in E. injection E as EC _. inversion F; subst. unfold isdig in *. lia.
  - destruct (2^64 <=? v); [reflexivity|]. destruct (neg && (v =? 2^63)); [reflexivity|]. assert (SW : span UCS4IsWhite w = (w, [])) by (rewrite <- (app_nil_r w) at 1; apply span_unique; [apply blanks_white; exact W|intros ? ? ?; discriminate]). rewrite SW. reflexivity.
Qed.
Lemma some_pair (a b c d : Z) : Some (a, b) = Some (c, d) -> a = c /\ b = d.
Proof. intros E. injection E as -> ->. split; reflexivity. Qed.
Lemma pconv_out radix neg l r : 1 <= radix <= 36 -> pconv radix neg l = Some (r, 0) ->
  exists b w v, l = b ++ w /\ digits radix b v /\ Forall blank w /\ v < 2^63 /\ r = s32 (if neg then - v else v).
Proof.
  intros R E. unfold pconv in E. destruct l as [|c q]; [discriminate|]. destruct (Z.ltb_spec (dv radix c) 0) as [L|L]; [discriminate|].
  assert (A := span_app (isdig radix) (c :: q)). assert (F := span_all (isdig radix) (c :: q)). set (b := fst (span (isdig radix) (c :: q))) in *. set (w := snd (span (isdig radix) (c :: q))) in *.
  assert (NB : b <> []). { unfold b. cbn [span]. unfold isdig at 1. destruct (Z.geb_spec (dv radix c) 0); [|lia]. destruct (span (isdig radix) q). discriminate. }
  clearbody b w. cbv zeta in E. set (v := acc radix (map (dv radix) b) 0) in *. destruct (Z.leb_spec (2^64) v); [discriminate|]. destruct (neg && (v =? 2^63)) eqn:U; [discriminate|]. apply some_pair in E. destruct E as [E1 E2].
  destruct (Z.gtb_spec v (2^63 - 1 + (if neg then 1 else 0))); [discriminate|]. assert (SW := span_app UCS4IsWhite w). assert (FW := span_all UCS4IsWhite w). destruct (snd (span UCS4IsWhite w)); [|discriminate].
  exists b, w, v. split; [exact A|]. split; [apply digits_isdig; [lia|]; split; [exact NB|]; split; [exact F|reflexivity]|]. split; [rewrite SW, app_nil_r; apply white_blanks; exact FW|]. split; [|symmetry; exact E1]. destruct neg; cbn [andb] in U; lia.
Qed.
Definition outcome_of (neg : bool) (v : Z) : option (Z * Z) :=
  if 2^64 <=? v then Some (0, STRERR_NUMBER_OVERFLOW) else if neg && (v =? 2^63) then None else
  Some (s32 (if neg then - v else v), if v >? 2^63 - 1 + (if neg then 1 else 0) then STRERR_NUMBER_OVERFLOW else 0).

Lemma unsigned_head radix b v : radix_ok radix -> unsigned radix b v -> exists c q d rx, b = c :: q /\ digit rx c d.
Proof.
  unfold unsigned. intros R. destruct (Z.eqb_spec radix 0).
  - intros [(z & x & ds & -> & D & _)|[(z & x & ds & -> & D & _)|[(z & ds & -> & D & _)|[D _]]]]; try (eexists _, _, _, _; split; [reflexivity|exact D]).
    destruct b as [|c b]; [destruct D as [N _]; congruence|]. destruct (digits_head 10 c b v ltac:(lia) D) as [d ?]. eauto 8.
  - intros D. destruct b as [|c b]; [destruct D as [N _]; congruence|]. destruct R as [|R]; [lia|]. destruct (digits_head radix c b v ltac:(lia) D) as [d ?]. eauto 8.
Qed.
Lemma unsigned_nonneg radix b v : radix_ok radix -> unsigned radix b v -> 0 <= v.
Proof.
  unfold unsigned. intros R. destruct (Z.eqb_spec radix 0).
  - intros [(z & x & ds & -> & _ & _ & D)|[(z & x & ds & -> & _ & _ & D)|[(z & ds & -> & _ & _ & D)|[D _]]]]; eapply digits_nonneg; try exact D; lia.
  - intros D. eapply digits_nonneg; try exact D; destruct R; lia.
Qed.
Lemma prest_in radix neg b w v : radix_ok radix -> unsigned radix b v -> Forall blank w -> prest radix neg (b ++ w) = outcome_of neg v.
Proof.
  intros R U W. unfold unsigned in U. destruct (Z.eqb_spec radix 0) as [R0|R0].
  - rewrite R0 in *. clear R0 R radix. unfold c_numeral in U. destruct U as [(z & x & ds & -> & D & X & U)|[(z & x & ds & -> & D & X & U)|[(z & ds & -> & D & X & U)|[U X]]]].
    + cbn [app prest]. rewrite Z.eqb_refl. apply zero_spec in D. rewrite D. replace ((x =? 98) || (x =? 66)) with false by lia. replace ((x =? 120) || (x =? 88)) with true by lia. apply pconv_in; [lia|assumption..].
    + cbn [app prest]. rewrite Z.eqb_refl. apply zero_spec in D. rewrite D. replace ((x =? 98) || (x =? 66)) with true by lia. apply pconv_in; [lia|assumption..].
    + destruct ds as [|x ds]; [congruence|]. unfold outcome_of. rewrite <- (pconv_in 8 neg _ w v ltac:(lia) U W). cbn [app prest]. rewrite Z.eqb_refl. apply zero_spec in D. rewrite D.
      assert (exists d, digit 8 x d) as [d DX]. { destruct U as (_ & dd & F & _). inversion F as [|? ? ? ? _ F2]; subst. inversion F2; subst. eauto. }
      assert (NL : forall c, c = 98 \/ c = 66 \/ c = 120 \/ c = 88 -> x <> c) by (intros c C ->; exact (letter_nodigit 8 c d ltac:(lia) C DX)).
      assert (x <> 98 /\ x <> 66 /\ x <> 120 /\ x <> 88) by (repeat split; apply NL; lia). replace ((x =? 98) || (x =? 66)) with false by lia. replace ((x =? 120) || (x =? 88)) with false by lia. reflexivity.
    + destruct b as [|z b]; [destruct U as [N _]; congruence|]. cbn [app prest]. rewrite Z.eqb_refl. destruct (zero z) eqn:Z0.
      * apply zero_spec in Z0. rewrite (X z b eq_refl Z0) in *. cbn [app]. assert (V : v = 0). { destruct U as (_ & ds & F & ->). inversion F as [|? d ? ? H1 H2]; subst. inversion H2; subst. cbn [fold_left]. destruct (Digit_spec 10 z ltac:(lia)) as (_ & _ & _ & C). rewrite <- (C _ H1), (C _ Z0). reflexivity. }
        destruct w as [|x w]; [apply (pconv_in 10 neg [z] [] v); [lia|exact U|constructor]|]. inversion W as [|? ? BX BW]; subst. unfold blank in BX. cbn [In] in BX.
        replace ((x =? 98) || (x =? 66)) with false by lia. replace ((x =? 120) || (x =? 88)) with false by lia. apply (pconv_in 8 neg [z] (x :: w) 0); [lia| |exact W].
        split; [congruence|]. exists [0]. split; [|reflexivity]. constructor; [|constructor]. destruct Z0 as [_ Z0]. split; [lia|exact Z0].
      * assert (P := pconv_in 10 neg (z :: b) w v ltac:(lia) U W). cbn [app] in P. destruct (b ++ w); exact P.
  - destruct R as [|R]; [lia|]. assert (P := pconv_in radix neg b w v R U W). unfold prest. destruct (b ++ w) eqn:E; [destruct U as [N _]; destruct b; [congruence|discriminate]|]. destruct (Z.eqb_spec radix 0); [lia|]. exact P.
Qed.
Lemma prest_out radix neg l r : radix_ok radix -> prest radix neg l = Some (r, 0) ->
  exists b w v, l = b ++ w /\ unsigned radix b v /\ Forall blank w /\ v < 2^63 /\ r = s32 (if neg then - v else v).
Proof.
  intros R E. unfold prest in E. destruct l as [|z q]; [discriminate|]. unfold unsigned. destruct (Z.eqb_spec radix 0) as [R0|R0].
  - destruct q as [|x ds].
    + apply pconv_out in E; [|lia]. destruct E as (b & w & v & A & D & W & B & EV). exists b, w, v. split; [exact A|]. split; [|auto]. right. right. right. split; [exact D|]. intros z' ds -> _. cbn [app] in A. injection A as _ A. destruct ds; [reflexivity|discriminate].
    + destruct (zero z) eqn:Z0.
      * apply zero_spec in Z0. destruct ((x =? 98) || (x =? 66)) eqn:XB; [|destruct ((x =? 120) || (x =? 88)) eqn:XX].
        -- apply pconv_out in E; [|lia]. destruct E as (b & w & v & -> & D & W & B & EV). exists (z :: x :: b), w, v. split; [reflexivity|]. split; [|auto]. right. left. exists z, x, b. split; [reflexivity|]. split; [exact Z0|]. split; [lia|exact D].
        -- apply pconv_out in E; [|lia]. destruct E as (b & w & v & -> & D & W & B & EV). exists (z :: x :: b), w, v. split; [reflexivity|]. split; [|auto]. left. exists z, x, b. split; [reflexivity|]. split; [exact Z0|]. split; [lia|exact D].
        -- apply pconv_out in E; [|lia]. destruct E as (b & w & v & A & D & W & B & EV). exists b, w, v. split; [exact A|]. split; [|auto]. right. right. destruct b as [|z' b]; [destruct D as [N _]; congruence|]. cbn [app] in A. injection A as <- A. destruct b as [|y b].
           ++ right. split; [|intros ? ? H _; congruence]. destruct D as (N & dd & F & EE). split; [exact N|]. inversion F as [|? d ? ? H1 H2]; subst. inversion H2; subst. exists [d]. split; [|reflexivity]. constructor; [|constructor]. destruct H1 as [L X]. split; [lia|exact X].
           ++ left. exists z, (y :: b). split; [reflexivity|]. split; [exact Z0|]. split; [congruence|exact D].
      * apply pconv_out in E; [|lia]. destruct E as (b & w & v & A & D & W & B & EV). exists b, w, v. split; [exact A|]. split; [|auto]. right. right. right. split; [exact D|]. intros z' ds' -> Z1. cbn [app] in A. injection A as <- _. apply zero_spec in Z1. congruence.
  - destruct R as [|R]; [lia|]. apply pconv_out; assumption.
Qed.

Lemma numeral_in radix tx k : radix_ok radix -> numeral radix tx k ->
  exists neg v, 0 <= v /\ k = (if neg : bool then - v else v) /\ pint radix tx = outcome_of neg v.
Proof.
  intros R (w1 & sg & w2 & b & w3 & v & -> & W1 & W2 & W3 & U & SG). destruct (unsigned_head _ _ _ R U) as (c & q & d & rx & EB & DC).
  assert (NW := digit_noblank _ _ _ DC). assert (NS : c <> 43 /\ c <> 45) by (split; intros HS; refine (sign_nodigit rx c d _ DC); lia).
  exists (match sg with [45] => true | _ => false end), v. split; [exact (unsigned_nonneg _ _ _ R U)|].
  destruct SG as [(-> & -> & ->)|[(-> & ->)|(-> & ->)]]; (split; [reflexivity|]); unfold pint.
  - cbn [app]. rewrite (span_unique UCS4IsWhite w1 (b ++ w3) (blanks_white _ W1)) by (rewrite EB; intros ? ? H; cbn [app] in H; congruence). cbn [snd]. rewrite <- (prest_in radix false b w3 v R U W3). rewrite EB. cbn [app]. replace (c =? 45) with false by lia. replace (c =? 43) with false by lia. reflexivity.
  - rewrite (span_unique UCS4IsWhite w1 ([43] ++ w2 ++ b ++ w3) (blanks_white _ W1)) by (intros ? ? H; injection H as <- _; reflexivity). cbn [snd app]. rewrite Z.eqb_refl. cbn [orb].
    rewrite (span_unique UCS4IsWhite w2 (b ++ w3) (blanks_white _ W2)) by (rewrite EB; intros ? ? H; cbn [app] in H; congruence). cbn [snd]. rewrite <- (prest_in radix false b w3 v R U W3). reflexivity.
  - rewrite (span_unique UCS4IsWhite w1 ([45] ++ w2 ++ b ++ w3) (blanks_white _ W1)) by (intros ? ? H; injection H as <- _; reflexivity). cbn [snd app]. rewrite Z.eqb_refl, orb_true_r.
    rewrite (span_unique UCS4IsWhite w2 (b ++ w3) (blanks_white _ W2)) by (rewrite EB; intros ? ? H; cbn [app] in H; congruence). cbn [snd]. rewrite <- (prest_in radix true b w3 v R U W3). reflexivity.
Qed.
Lemma pint_prest radix tx : pint radix tx = match snd (span UCS4IsWhite tx) with
  | [] => Some (0, STRERR_NO_DIGITS)
  | c :: q => prest radix (c =? 45) (if (c =? 43) || (c =? 45) then snd (span UCS4IsWhite q) else c :: q)
  end.
Proof. reflexivity. Qed.
Lemma numeral_out radix tx r : radix_ok radix -> pint radix tx = Some (r, 0) ->
  exists k, numeral radix tx k /\ -2^63 < k < 2^63 /\ r = s32 k.
Proof.
  intros R E. rewrite pint_prest in E. assert (A := span_app UCS4IsWhite tx). assert (F := white_blanks _ (span_all UCS4IsWhite tx)). set (w1 := fst (span UCS4IsWhite tx)) in *. destruct (snd (span UCS4IsWhite tx)) as [|c q]; [discriminate|].
  destruct ((c =? 43) || (c =? 45)) eqn:SG.
  - apply prest_out in E; [|exact R]. destruct E as (b & w & v & B & U & W & L & ->). assert (NN := unsigned_nonneg _ _ _ R U). assert (A2 := span_app UCS4IsWhite q). assert (F2 := white_blanks _ (span_all UCS4IsWhite q)). rewrite B in A2.
    exists (if c =? 45 then - v else v). split; [|split; [destruct (c =? 45); lia|reflexivity]].
    exists w1, [c], (fst (span UCS4IsWhite q)), b, w, v. split; [rewrite A; cbn [app]; rewrite <- A2; reflexivity|]. split; [exact F|]. split; [exact F2|]. split; [exact W|]. split; [exact U|]. right. destruct (Z.eqb_spec c 45); [right; split; [congruence|reflexivity]|left; split; [f_equal; lia|reflexivity]].
  - replace (c =? 45) with false in E by lia. apply prest_out in E; [|exact R]. destruct E as (b & w & v & B & U & W & L & ->). assert (NN := unsigned_nonneg _ _ _ R U). exists v. split; [|split; [lia|reflexivity]].
    exists w1, [], [], b, w, v. split; [rewrite A, B; reflexivity|]. split; [exact F|]. split; [constructor|]. split; [exact W|]. split; [exact U|]. left. auto.
Qed.
Lemma pconv_none radix neg l : 1 <= radix <= 36 -> pconv radix neg l = None -> neg = true /\ exists b w, l = b ++ w /\ digits radix b (2^63).
Proof.
  intros R E. unfold pconv in E. destruct l as [|c q]; [discriminate|]. destruct (Z.ltb_spec (dv radix c) 0) as [L|L]; [discriminate|].
  assert (A := span_app (isdig radix) (c :: q)). assert (F := span_all (isdig radix) (c :: q)). set (b := fst (span (isdig radix) (c :: q))) in *. set (w := snd (span (isdig radix) (c :: q))) in *.
  assert (NB : b <> []). { unfold b. cbn [span]. unfold isdig at 1. destruct (Z.geb_spec (dv radix c) 0); [|lia]. destruct (span (isdig radix) q). discriminate. }
  clearbody b w. cbv zeta in E. set (v := acc radix (map (dv radix) b) 0) in *. destruct (Z.leb_spec (2^64) v); [discriminate|]. destruct (neg && (v =? 2^63)) eqn:U; [|discriminate]. clear E.
  apply andb_true_iff in U. destruct U as [-> U]. apply Z.eqb_eq in U. split; [reflexivity|]. exists b, w. split; [exact A|]. apply digits_isdig; [lia|]. split; [exact NB|]. split; [exact F|]. symmetry. exact U.
Qed.
Lemma prest_none radix neg l : radix_ok radix -> prest radix neg l = None -> neg = true /\ exists b w, l = b ++ w /\ unsigned radix b (2^63).
Proof.
  intros R E. unfold prest in E. destruct l as [|z q]; [discriminate|]. unfold unsigned. destruct (Z.eqb_spec radix 0) as [R0|R0].
  - destruct q as [|x ds].
    + apply pconv_none in E; [|lia]. destruct E as (-> & b & w & A & D). split; [reflexivity|]. exists b, w. split; [exact A|]. right. right. right. split; [exact D|]. intros z' ds -> _. cbn [app] in A. injection A as _ A. destruct ds; [reflexivity|discriminate].
    + destruct (zero z) eqn:Z0.
      * apply zero_spec in Z0. destruct ((x =? 98) || (x =? 66)) eqn:XB; [|destruct ((x =? 120) || (x =? 88)) eqn:XX].
        -- apply pconv_none in E; [|lia]. destruct E as (-> & b & w & -> & D). split; [reflexivity|]. exists (z :: x :: b), w. split; [reflexivity|]. right. left. exists z, x, b. split; [reflexivity|]. split; [exact Z0|]. split; [lia|exact D].
        -- apply pconv_none in E; [|lia]. destruct E as (-> & b & w & -> & D). split; [reflexivity|]. exists (z :: x :: b), w. split; [reflexivity|]. left. exists z, x, b. split; [reflexivity|]. split; [exact Z0|]. split; [lia|exact D].
        -- apply pconv_none in E; [|lia]. destruct E as (-> & b & w & A & D). split; [reflexivity|]. exists b, w. split; [exact A|]. right. right. destruct b as [|z' b]; [destruct D as [N _]; congruence|]. cbn [app] in A. injection A as <- A. destruct b as [|y b].
           ++ right. split; [|intros ? ? H _; congruence]. destruct D as (N & dd & F & EE). split; [exact N|]. inversion F as [|? d ? ? H1 H2]; subst. inversion H2; subst. exists [d]. split; [|exact EE]. constructor; [|constructor]. destruct H1 as [L X]. split; [lia|exact X].
           ++ left. exists z, (y :: b). split; [reflexivity|]. split; [exact Z0|]. split; [congruence|exact D].
      * apply pconv_none in E; [|lia]. destruct E as (-> & b & w & A & D). split; [reflexivity|]. exists b, w. split; [exact A|]. right. right. right. split; [exact D|]. intros z' ds' -> Z1. cbn [app] in A. injection A as <- _. apply zero_spec in Z1. congruence.
  - destruct R as [|R]; [lia|]. apply pconv_none; assumption.
Qed.
Lemma pint_none radix tx : radix_ok radix -> pint radix tx = None -> exists a b, tx = a ++ b /\ numeral radix a (- 2^63).
Proof.
  intros R E. rewrite pint_prest in E. assert (A := span_app UCS4IsWhite tx). assert (F := white_blanks _ (span_all UCS4IsWhite tx)). set (w1 := fst (span UCS4IsWhite tx)) in *. destruct (snd (span UCS4IsWhite tx)) as [|c q]; [discriminate|].
  apply prest_none in E; [|exact R]. destruct E as (EC & b & w & B & U). apply Z.eqb_eq in EC. subst c. cbn [Z.eqb orb Pos.eqb] in B. assert (A2 := span_app UCS4IsWhite q). assert (F2 := white_blanks _ (span_all UCS4IsWhite q)). rewrite B in A2.
  exists (w1 ++ [45] ++ fst (span UCS4IsWhite q) ++ b ++ []), w. split; [rewrite A, A2 at 1; rewrite app_nil_r, <- !app_assoc; reflexivity|].
  exists w1, [45], (fst (span UCS4IsWhite q)), b, [], (2^63). split; [reflexivity|]. split; [exact F|]. split; [exact F2|]. split; [constructor|]. split; [exact U|]. right. right. split; reflexivity.
Qed.
