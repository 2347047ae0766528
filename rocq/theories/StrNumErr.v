(** Which texts make asInt32 report which error. *)
From Verif Require Import Base RefModel UTF8Model CharTables CharModel CharSpec CharProofs ErrNumModel StrModel StrNumModel StrNumSpec StrNumProofs.
Ltac Zify.zify_post_hook ::= Z.div_mod_to_equations.

Definition lim (neg : bool) : Z := 2^63 - 1 + (if neg then 1 else 0).
Definition parsed (radix : Z) (neg : bool) (b w x : list Z) (v k e : Z) : Prop :=
  Forall blank w /\ stops UCS4IsWhite x /\
  (e = STRERR_NUMBER_OVERFLOW /\ v > lim neg \/
   v <= lim neg /\ (neg = true -> v <> 2^63) /\ k = s32 (if neg then - v else v) /\ (x = [] /\ e = 0 \/ x <> [] /\ e = STRERR_TRAIL_TEXT)).

Lemma nodigit_dv radix c : 1 <= radix -> (dv radix c < 0 <-> forall d, ~ digit radix c d).
Proof.
  intros R. destruct (Digit_spec radix c R) as (_ & A & B & C). split.
  - intros L d D. assert (X := digit_nonneg _ _ _ D). rewrite (C d D) in L. lia.
  - intros H. destruct (Z.ltb_spec (dv radix c) 0) as [L|L]; [exact L|]. exfalso. exact (H _ (A L)).
Qed.
Lemma pconv_cases radix neg l k e : 1 <= radix <= 36 -> pconv radix neg l = Some (k, e) ->
  (l = [] /\ e = STRERR_NO_DIGITS /\ k = 0) \/
  (exists c q, l = c :: q /\ (forall d, ~ digit radix c d) /\ e = STRERR_NOT_NUMBER /\ k = 0 /\ rconv radix l = l) \/
  (exists b w x v, l = b ++ w ++ x /\ digits radix b v /\ rconv radix l = x /\ parsed radix neg b w x v k e).
Proof.
  intros R E. unfold pconv in E. destruct l as [|c q]; [left; apply some_pair in E; intuition congruence|]. right. destruct (Z.ltb_spec (dv radix c) 0) as [L|L].
  - left. exists c, q. split; [reflexivity|]. split; [apply nodigit_dv; [lia|exact L]|]. apply some_pair in E. destruct E as [<- <-]. split; [reflexivity|]. split; [reflexivity|]. unfold rconv. destruct (Z.ltb_spec (dv radix c) 0); [reflexivity|lia].
  - right. unfold rconv. destruct (Z.ltb_spec (dv radix c) 0); [lia|].
    assert (A := span_app (isdig radix) (c :: q)). assert (F := span_all (isdig radix) (c :: q)). set (b := fst (span (isdig radix) (c :: q))) in *. set (r := snd (span (isdig radix) (c :: q))) in *.
    assert (NB : b <> []). { unfold b. cbn [span]. unfold isdig at 1. destruct (Z.geb_spec (dv radix c) 0); [|lia]. destruct (span (isdig radix) q). discriminate. }
    clearbody b r. cbv zeta in E. set (v := acc radix (map (dv radix) b) 0) in *.
    exists b, (fst (span UCS4IsWhite r)), (snd (span UCS4IsWhite r)), v. split; [rewrite <- span_app; exact A|]. split; [apply digits_isdig; [lia|]; split; [exact NB|]; split; [exact F|reflexivity]|]. split; [reflexivity|].
    split; [apply white_blanks, span_all|]. split; [apply span_stops|]. unfold lim. destruct (Z.leb_spec (2^64) v) as [O|O].
    + left. apply some_pair in E. destruct E as [_ <-]. split; [reflexivity|destruct neg; lia].
    + destruct (neg && (v =? 2^63)) eqn:U; [discriminate|]. apply some_pair in E. destruct E as [E1 E2]. destruct (Z.gtb_spec v (2^63 - 1 + (if neg then 1 else 0))); [left; split; [congruence|lia]|].
      right. split; [lia|]. split; [intros ->; cbn [andb] in U; lia|]. split; [congruence|]. destruct (snd (span UCS4IsWhite r)); [left|right]; (split; [congruence|congruence]).
Qed.
(** [pre] is the radix prefix. *)
Definition pre_ok (radix : Z) (pre : list Z) (rx : Z) (prefix : bool) : Prop :=
  prefix = false /\ pre = [] /\ rx = (if radix =? 0 then 10 else radix) \/
  prefix = true /\ radix = 0 /\ exists z x, pre = [z; x] /\ digit 10 z 0 /\ ((x = 120 \/ x = 88) /\ rx = 16 \/ (x = 98 \/ x = 66) /\ rx = 2).

Lemma prest_cases radix neg l k e : radix_ok radix -> l <> [] -> prest radix neg l = Some (k, e) ->
  (exists rx, pre_ok radix l rx true /\ e = STRERR_NO_DIGITS /\ k = 0 /\ rrest radix l = []) \/
  (exists pre rx p c q, l = pre ++ c :: q /\ pre_ok radix pre rx p /\ (forall d, ~ digit rx c d) /\ e = STRERR_NOT_NUMBER /\ k = 0 /\ rrest radix l = c :: q) \/
  (exists b w x v, l = b ++ w ++ x /\ unsigned radix b v /\ rrest radix l = x /\ parsed radix neg b w x v k e).
Proof.
  intros R NE E. unfold prest in E. unfold rrest. destruct l as [|z q]; [congruence|]. clear NE. unfold unsigned, pre_ok. destruct (Z.eqb_spec radix 0) as [R0|R0].
  - destruct q as [|x ds].
    + destruct (pconv_cases 10 neg [z] k e ltac:(lia) E) as [(A & _)|[(c & q & A & D & E1 & E2 & E3)|(b & w & x & v & A & D & E3 & P)]]; [discriminate| |].
      * right. left. exists [], 10, false, c, q. split; [exact A|]. split; [left; auto|]. rewrite E3, A. auto.
      * right. right. exists b, w, x, v. split; [exact A|]. split; [|auto]. right. right. right. split; [exact D|]. intros z' ds -> _. cbn [app] in A. injection A as _ A. destruct ds; [reflexivity|discriminate].
    + destruct (zero z) eqn:Z0.
      * apply zero_spec in Z0. destruct ((x =? 98) || (x =? 66)) eqn:XB; [|destruct ((x =? 120) || (x =? 88)) eqn:XX].
        -- destruct (pconv_cases 2 neg ds k e ltac:(lia) E) as [(-> & -> & ->)|[(c & q & -> & D & E1 & E2 & E3)|(b & w & y & v & -> & D & E3 & P)]].
           ++ left. exists 2. split; [|auto]. right. split; [reflexivity|]. split; [exact R0|]. exists z, x. split; [reflexivity|]. split; [exact Z0|]. right. split; lia.
           ++ right. left. exists [z; x], 2, true, c, q. split; [reflexivity|]. split; [|rewrite E3; auto]. right. split; [reflexivity|]. split; [exact R0|]. exists z, x. split; [reflexivity|]. split; [exact Z0|]. right. split; lia.
           ++ right. right. exists (z :: x :: b), w, y, v. split; [reflexivity|]. split; [|auto]. right. left. exists z, x, b. split; [reflexivity|]. split; [exact Z0|]. split; [lia|exact D].
        -- destruct (pconv_cases 16 neg ds k e ltac:(lia) E) as [(-> & -> & ->)|[(c & q & -> & D & E1 & E2 & E3)|(b & w & y & v & -> & D & E3 & P)]].
           ++ left. exists 16. split; [|auto]. right. split; [reflexivity|]. split; [exact R0|]. exists z, x. split; [reflexivity|]. split; [exact Z0|]. left. split; lia.
           ++ right. left. exists [z; x], 16, true, c, q. split; [reflexivity|]. split; [|rewrite E3; auto]. right. split; [reflexivity|]. split; [exact R0|]. exists z, x. split; [reflexivity|]. split; [exact Z0|]. left. split; lia.
           ++ right. right. exists (z :: x :: b), w, y, v. split; [reflexivity|]. split; [|auto]. left. exists z, x, b. split; [reflexivity|]. split; [exact Z0|]. split; [lia|exact D].
        -- destruct (pconv_cases 8 neg (z :: x :: ds) k e ltac:(lia) E) as [(A & _)|[(c & q & A & D & _)|(b & w & y & v & A & D & E3 & P)]]; [discriminate| |].
           ++ exfalso. injection A as <- _. destruct Z0 as [_ Z0]. apply (D 0). split; [lia|exact Z0].
           ++ right. right. exists b, w, y, v. split; [exact A|]. split; [|auto]. right. right. destruct b as [|z' b]; [destruct D as [N _]; congruence|]. cbn [app] in A. injection A as <- A. destruct b as [|u b].
              ** right. split; [|intros ? ? H _; congruence]. destruct D as (N & dd & F & EE). split; [exact N|]. inversion F as [|? d ? ? H1 H2]; subst. inversion H2; subst. exists [d]. split; [|reflexivity]. constructor; [|constructor]. destruct H1 as [L X]. split; [lia|exact X].
              ** left. exists z, (u :: b). split; [reflexivity|]. split; [exact Z0|]. split; [congruence|exact D].
      * destruct (pconv_cases 10 neg (z :: x :: ds) k e ltac:(lia) E) as [(A & _)|[(c & q & A & D & E1 & E2 & E3)|(b & w & y & v & A & D & E3 & P)]]; [discriminate| |].
        -- right. left. exists [], 10, false, c, q. split; [exact A|]. split; [left; auto|]. rewrite E3, A. auto.
        -- right. right. exists b, w, y, v. split; [exact A|]. split; [|auto]. right. right. right. split; [exact D|]. intros z' ds' -> Z1. cbn [app] in A. injection A as <- _. apply zero_spec in Z1. congruence.
  - destruct R as [|R]; [lia|]. destruct (pconv_cases radix neg (z :: q) k e R E) as [(A & _)|[(c & q' & A & D & E1 & E2 & E3)|X]]; [discriminate| |right; right; exact X].
    right. left. exists [], radix, false, c, q'. split; [exact A|]. split; [left; auto|]. rewrite E3, A. auto.
Qed.

Lemma err_codes : STRERR_TRAIL_TEXT = ErrNum2 1 1 /\ STRERR_NO_DIGITS = ErrNum2 1 2 /\ STRERR_NUMBER_OVERFLOW = ErrNum2 1 3 /\ STRERR_NOT_NUMBER = ErrNum2 1 4 /\ STRERR_ILLEGAL_RADIX = ErrNum2 1 5.
Proof. repeat split; reflexivity. Qed.

Definition num_at (radix : Z) (neg : bool) (a : list Z) (v : Z) : Prop := numeral radix a (if neg then - v else v).
Lemma pint_cases radix t k e : radix_ok radix -> pint radix t = Some (k, e) ->
  (exists rx sg p, opening radix t rx sg p /\ e = STRERR_NO_DIGITS /\ k = 0 /\ rint radix t = []) \/
  (exists w rx sg p c q, t = w ++ c :: q /\ opening radix w rx sg p /\ no_digit_after rx sg p c /\ e = STRERR_NOT_NUMBER /\ k = 0 /\ rint radix t = c :: q) \/
  (exists a x neg v, t = a ++ x /\ num_at radix neg a v /\ 0 <= v /\ rint radix t = x /\ stops UCS4IsWhite x /\
     (e = STRERR_NUMBER_OVERFLOW /\ v > lim neg \/
      v <= lim neg /\ (neg = true -> v <> 2^63) /\ k = s32 (if neg then - v else v) /\ (x = [] /\ e = 0 \/ x <> [] /\ e = STRERR_TRAIL_TEXT))).
Proof.
  intros R E. rewrite pint_prest in E. assert (A := span_app UCS4IsWhite t). assert (F := white_blanks _ (span_all UCS4IsWhite t)). assert (ST := span_stops UCS4IsWhite t). unfold rint. set (w1 := fst (span UCS4IsWhite t)) in *. set (r := snd (span UCS4IsWhite t)) in *. clearbody w1 r.
  destruct r as [|c q].
  - left. exists (if radix =? 0 then 10 else radix), false, false. apply some_pair in E. destruct E as [<- <-]. split; [|auto]. exists w1, [], [], []. split; [exact A|]. split; [exact F|]. split; [constructor|]. split; left; auto.
  - specialize (ST c q eq_refl). assert (SB : ~ blank c) by (rewrite <- white_blank, ST; discriminate).
    destruct ((c =? 43) || (c =? 45)) eqn:SG.
    + assert (A2 := span_app UCS4IsWhite q). assert (F2 := white_blanks _ (span_all UCS4IsWhite q)). assert (ST2 := span_stops UCS4IsWhite q). set (w2 := fst (span UCS4IsWhite q)) in *. set (r2 := snd (span UCS4IsWhite q)) in *. clearbody w2 r2.
      assert (SGC : c = 43 \/ c = 45) by lia.
      destruct (list_eq_dec Z.eq_dec r2 []) as [E0|NE].
      * left. rewrite E0 in E. cbn [prest] in E. apply some_pair in E. destruct E as [<- <-]. exists (if radix =? 0 then 10 else radix), true, false. rewrite E0. split; [|auto]. exists w1, [c], w2, []. split; [rewrite A, A2, E0; reflexivity|]. split; [exact F|]. split; [exact F2|]. split; [right; split; [reflexivity|]; destruct SGC as [-> | ->]; auto|left; auto].
      * destruct (prest_cases radix _ r2 k e R NE E) as [(rx & P & -> & -> & RR)|[(pre & rx & p & c2 & q2 & E2 & P & D & -> & -> & RR)|(b & w & x & v & E2 & U & RR & W & SX & P)]].
        -- left. exists rx, true, true. rewrite RR. split; [|auto]. exists w1, [c], w2, r2. split; [rewrite A, A2; reflexivity|]. split; [exact F|]. split; [exact F2|]. split; [right; split; [reflexivity|]; destruct SGC as [-> | ->]; auto|exact P].
        -- right. left. exists (w1 ++ [c] ++ w2 ++ pre), rx, true, p, c2, q2. rewrite RR. split; [rewrite A, A2, E2, <- !app_assoc; cbn [app]; rewrite <- ?app_assoc; reflexivity|].
           split; [exists w1, [c], w2, pre; split; [reflexivity|]; split; [exact F|]; split; [exact F2|]; split; [right; split; [reflexivity|]; destruct SGC as [-> | ->]; auto|exact P]|].
           split; [|auto]. split; [exact D|]. destruct P as [(-> & -> & _)|(-> & _)]; [right|left; reflexivity]. split; [|left; reflexivity]. rewrite <- white_blank. rewrite (ST2 c2 q2 E2). discriminate.
        -- right. right. exists (w1 ++ [c] ++ w2 ++ b ++ w), x, (c =? 45), v. split; [rewrite A, A2, E2, <- !app_assoc; cbn [app]; rewrite <- ?app_assoc; reflexivity|].
           split; [exists w1, [c], w2, b, w, v; split; [reflexivity|]; split; [exact F|]; split; [exact F2|]; split; [exact W|]; split; [exact U|]; right; destruct SGC as [-> | ->]; [left|right]; split; reflexivity|].
           split; [exact (unsigned_nonneg _ _ _ R U)|]. split; [exact RR|]. split; [exact SX|exact P].
    + replace (c =? 45) with false in E by lia. destruct (prest_cases radix _ (c :: q) k e R ltac:(discriminate) E) as [(rx & P & -> & -> & RR)|[(pre & rx & p & c2 & q2 & E2 & P & D & -> & -> & RR)|(b & w & x & v & E2 & U & RR & W & SX & P)]].
      * left. exists rx, false, true. rewrite RR. split; [|auto]. exists w1, [], [], (c :: q). split; [exact A|]. split; [exact F|]. split; [constructor|]. split; [left; auto|exact P].
      * right. left. exists (w1 ++ pre), rx, false, p, c2, q2. rewrite RR. split; [rewrite A, E2, <- app_assoc; reflexivity|]. split; [exists w1, [], [], pre; split; [reflexivity|]; split; [exact F|]; split; [constructor|]; split; [left; auto|exact P]|].
        split; [|auto]. split; [exact D|]. destruct P as [(-> & -> & _)|(-> & _)]; [right|left; reflexivity]. cbn [app] in E2. assert (c = c2) by congruence. subst c2. split; [exact SB|right; lia].
      * right. right. exists (w1 ++ b ++ w), x, false, v. split; [rewrite A, E2, <- !app_assoc; reflexivity|].
        split; [exists w1, [], [], b, w, v; split; [reflexivity|]; split; [exact F|]; split; [constructor|]; split; [exact W|]; split; [exact U|]; left; auto|].
        split; [exact (unsigned_nonneg _ _ _ R U)|]. split; [exact RR|]. split; [exact SX|exact P].
Qed.

(** The other direction, for the two errors that come before the digits. *)
Lemma pconv_nodigit radix neg c q : 1 <= radix -> (forall d, ~ digit radix c d) -> pconv radix neg (c :: q) = Some (0, STRERR_NOT_NUMBER).
Proof. intros R D. unfold pconv. apply nodigit_dv in D; [|exact R]. destruct (Z.ltb_spec (dv radix c) 0); [reflexivity|lia]. Qed.
Lemma prest_pre radix neg pre rx p l : radix_ok radix -> pre_ok radix pre rx p -> 1 <= rx <= 36 /\
  (l = [] \/ (exists c q, l = c :: q /\ forall d, ~ digit rx c d) -> prest radix neg (pre ++ l) = match l with [] => Some (0, STRERR_NO_DIGITS) | _ => Some (0, STRERR_NOT_NUMBER) end).
Proof.
  intros R [(-> & -> & ->)|(-> & -> & z & x & -> & D & X)].
  - split; [destruct (Z.eqb_spec radix 0); [lia|destruct R; lia]|]. intros [->|(c & q & -> & ND)]; [reflexivity|]. cbn [app prest]. destruct (Z.eqb_spec radix 0) as [->|N0].
    + destruct q as [|x q]; [apply pconv_nodigit; [lia|exact ND]|]. destruct (zero c) eqn:Z0; [|apply pconv_nodigit; [lia|exact ND]]. exfalso. apply zero_spec in Z0. exact (ND 0 Z0).
    + destruct R as [|R]; [lia|]. apply pconv_nodigit; [lia|exact ND].
  - split; [lia|]. intros H. cbn [app prest]. rewrite Z.eqb_refl. apply zero_spec in D. rewrite D.
    assert (RX : prest 0 neg ([z; x] ++ l) = pconv rx neg l). { cbn [app prest]. rewrite Z.eqb_refl, D. destruct X as [(X & ->)|(X & ->)].
      - replace ((x =? 98) || (x =? 66)) with false by lia. replace ((x =? 120) || (x =? 88)) with true by lia. reflexivity.
      - replace ((x =? 98) || (x =? 66)) with true by lia. reflexivity. }
    cbn [app prest] in RX. rewrite Z.eqb_refl, D in RX. rewrite RX. destruct H as [->|(c & q & -> & ND)]; [reflexivity|]. apply pconv_nodigit; [lia|exact ND].
Qed.
Lemma pint_opening radix w rx sg p l : radix_ok radix -> opening radix w rx sg p -> l = [] \/ (exists c q, l = c :: q /\ no_digit_after rx sg p c) ->
  pint radix (w ++ l) = match l with [] => Some (0, STRERR_NO_DIGITS) | _ => Some (0, STRERR_NOT_NUMBER) end.
Proof.
  intros R (w1 & s & w2 & pre & -> & W1 & W2 & S & P) L. fold (pre_ok radix pre rx p) in P. rewrite pint_prest.
  assert (PL : l = [] \/ (exists c q, l = c :: q /\ forall d, ~ digit rx c d)) by (destruct L as [L|(c & q & L & D & _)]; [left; exact L|right; eauto]).
  assert (PR := fun neg => proj2 (prest_pre radix neg pre rx p l R P) PL).
  (* the part after the blanks and sign starts with no blank *)
  assert (ST : stops UCS4IsWhite (pre ++ l)).
  { destruct P as [(-> & -> & _)|(-> & -> & z & x & -> & D & _)]; [|intros c q E; cbn [app] in E; injection E as <- _; exact (digit_noblank _ _ _ D)].
    cbn [app]. intros c q ->. destruct L as [L|(c' & q' & E & _ & [L|[L _]])]; [discriminate|discriminate|]. assert (c' = c) by congruence. subst c'. rewrite <- white_blank in L. destruct (UCS4IsWhite c); [contradiction L; reflexivity|reflexivity]. }
  destruct S as [(-> & -> & ->)|(-> & S)].
  - cbn [app]. rewrite <- app_assoc, (span_unique UCS4IsWhite w1 (pre ++ l) (blanks_white _ W1) ST). cbn [snd]. specialize (PR false). destruct (pre ++ l) as [|c q] eqn:E.
    + destruct l; [reflexivity|]. destruct pre; discriminate.
    + assert (NS : c <> 43 /\ c <> 45).
      { destruct P as [(-> & -> & _)|(-> & -> & z & x & -> & D & _)].
        - cbn [app] in E. rewrite E in L. destruct L as [L|(c' & q' & L & _ & [X|[_ [X|X]]])]; [discriminate|discriminate|discriminate|]. assert (c' = c) by congruence. subst c'. exact X.
        - cbn [app] in E. injection E as <- _. split; intros HS; refine (sign_nodigit 10 z 0 _ D); lia. }
      replace (c =? 45) with false by lia. replace (c =? 43) with false by lia. exact PR.
  - replace ((w1 ++ s ++ w2 ++ pre) ++ l) with (w1 ++ s ++ w2 ++ (pre ++ l)) by (rewrite <- !app_assoc; reflexivity).
    rewrite (span_unique UCS4IsWhite w1 (s ++ w2 ++ pre ++ l) (blanks_white _ W1)) by (intros c q E; destruct S as [-> | ->]; cbn [app] in E; injection E as <- _; reflexivity). cbn [snd].
    destruct S as [-> | ->]; cbn [app]; rewrite Z.eqb_refl; cbn [orb]; rewrite ?orb_true_r, (span_unique UCS4IsWhite w2 (pre ++ l) (blanks_white _ W2) ST); apply PR.
Qed.
