(** Variants: coercions. *)
From Verif Require Import Base RefModel RefProofs CowModel StrFindSpec StrNumSpec StrNumProofs VarModel VarSpec VarProofs VarSim.

(** ** The union *)
Lemma s32_range z : -2^31 <= s32 z < 2^31.
Proof. unfold s32. destruct (Z.ltb_spec (z mod 4294967296) 2147483648); pose proof (Z.mod_pos_bound z 4294967296); lia. Qed.
Lemma s64_range z : -2^63 <= s64 z < 2^63.
Proof. unfold s64. destruct (Z.ltb_spec (z mod 18446744073709551616) 9223372036854775808); pose proof (Z.mod_pos_bound z 18446744073709551616); lia. Qed.
Lemma s64_mod32 z : s64 z mod 4294967296 = z mod 4294967296.
Proof.
  unfold s64. pose proof (Z.div_mod z 18446744073709551616 ltac:(lia)) as E. set (q := z / 18446744073709551616) in *.
  set (r := z mod 18446744073709551616) in *. rewrite E. destruct (r <? 9223372036854775808).
  - replace (18446744073709551616 * q + r) with (r + 4294967296 * q * 4294967296) by lia. rewrite Z_mod_plus_full. reflexivity.
  - replace (18446744073709551616 * q + r) with (r + 4294967296 * q * 4294967296) by lia. rewrite Z_mod_plus_full.
    replace (r - 18446744073709551616) with (r + (-4294967296) * 4294967296) by lia. apply Z_mod_plus_full.
Qed.
Lemma s32_s64 z : s32 (s64 z) = s32 z.
Proof. unfold s32. rewrite s64_mod32. reflexivity. Qed.

(** Writing u.i with the value of u.l does not change u.l if it fits. *)
Lemma set_i_get_l u : set_i u (get_l u) = Bits (bits u).
Proof.
  unfold set_i, get_l, u32. rewrite s64_mod32. f_equal. lia.
Qed.
Lemma get_i_set_l z : get_i (set_l z) = s32 z.
Proof.
  unfold get_i, set_l, bits, u64. rewrite <- (s32_s64 z), <- (s32_s64 (z mod 18446744073709551616)). f_equal.
  unfold s64. rewrite Z.mod_mod by lia. reflexivity.
Qed.

(** ** Numbers as text *)
Lemma dec_digits_ok f : forall z, 0 <= z < 10 ^ Z.of_nat (S f) -> exists ds,
  dec_digits (S f) z = map (fun d => 48 + d) ds /\ Forall (fun d => 0 <= d <= 9) ds /\ ds <> [] /\
  ((length ds > 1)%nat -> hd 0 ds <> 0) /\ (z > 0 -> hd 0 ds <> 0) /\ fold_left (fun a d => 10 * a + d) ds 0 = z.
Proof.
  induction f as [|f IH]; intros z H.
  - cbn [dec_digits]. change (10 ^ Z.of_nat 1) with 10 in H. rewrite (proj2 (Z.ltb_lt z 10)) by lia. exists [z].
    split; [reflexivity|]. split; [constructor; [lia|constructor]|]. split; [discriminate|]. cbn. split; [lia|]. split; lia.
  - remember (S f) as g. cbn [dec_digits]. destruct (Z.ltb_spec z 10) as [L|L].
    + exists [z]. split; [reflexivity|]. split; [constructor; [lia|constructor]|]. split; [discriminate|]. cbn. split; [lia|]. split; lia.
    + destruct (IH (z / 10)) as (ds & E & F & N & HD & HP & V).
      { rewrite Nat2Z.inj_succ, Z.pow_succ_r in H by lia. split; [apply Z.div_pos; lia|]. apply Z.div_lt_upper_bound; lia. }
      rewrite E. assert (1 <= z / 10) by (apply Z.div_le_lower_bound; lia).
      exists (ds ++ [z mod 10]). split; [rewrite map_app; reflexivity|].
      split; [apply Forall_app; split; [exact F|constructor; [pose proof (Z.mod_pos_bound z 10); lia|constructor]]|].
      split; [destruct ds; discriminate|].
      assert (Q : hd 0 (ds ++ [z mod 10]) = hd 0 ds) by (destruct ds; [congruence|reflexivity]).
      rewrite Q. split; [intros _; apply HP; lia|]. split; [intros _; apply HP; lia|].
      rewrite fold_left_app, V. cbn [fold_left]. pose proof (Z.div_mod z 10). lia.
Qed.

Lemma dec_digits_len f : forall z g, 0 <= z < 10 ^ Z.of_nat g -> (1 <= g)%nat -> (length (dec_digits f z) <= g)%nat.
Proof.
  induction f as [|f IH]; intros z g H G; cbn [dec_digits]; [cbn; lia|]. destruct (Z.ltb_spec z 10) as [L|L]; [cbn; lia|].
  rewrite app_length. cbn [length]. destruct g as [|[|g]]; [lia|change (10 ^ Z.of_nat 1) with 10 in H; lia|].
  specialize (IH (z / 10) (S g)). rewrite Nat2Z.inj_succ, Z.pow_succ_r in H by lia.
  assert (0 <= z / 10 < 10 ^ Z.of_nat (S g)) by (split; [apply Z.div_pos; lia|apply Z.div_lt_upper_bound; lia]). lia.
Qed.

Lemma decimal_ok z : -2^63 <= z < 2^63 -> decimal_text z (decimal z) /\ (length (decimal z) <= 20)%nat.
Proof.
  intros H. unfold decimal, decimal_text. destruct (Z.ltb_spec z 0) as [L|L].
  - destruct (dec_digits_ok 29 (- z)) as (ds & E & F & N & HD & _ & V). { split; [lia|]. change (10 ^ Z.of_nat 30) with 1000000000000000000000000000000. lia. }
    split.
    + exists ds. rewrite E. split; [reflexivity|]. split; [exact F|]. split; [exact N|]. split; [exact HD|]. lia.
    + cbn [length]. pose proof (dec_digits_len 30 (- z) 19) as Q. change (10 ^ Z.of_nat 19) with 10000000000000000000 in Q. lia.
  - destruct (dec_digits_ok 29 z) as (ds & E & F & N & HD & _ & V). { split; [lia|]. change (10 ^ Z.of_nat 30) with 1000000000000000000000000000000. lia. }
    split.
    + exists ds. rewrite E. split; [reflexivity|]. split; [exact F|]. split; [exact N|]. split; [exact HD|]. lia.
    + pose proof (dec_digits_len 30 z 19) as Q. change (10 ^ Z.of_nat 19) with 10000000000000000000 in Q. lia.
Qed.

Lemma snprintf_ok n z : -2^63 <= z < 2^63 -> (21 <= n)%nat -> snprintf n z = decimal z.
Proof. intros H N. unfold snprintf. apply firstn_all2. destruct (decimal_ok z H). lia. Qed.

(** ** Coercions of one variant *)
Lemma denote_number f h v t z : denote f h v = Some t -> number t = Some z ->
  numeric (v_type v) = true /\ v_type v = type_of t /\ z = (match v_type v with TInteger => get_i (v_u v) | _ => get_l (v_u v) end) /\ in_type (v_type v) z.
Proof.
  destruct f as [|f]; [discriminate|]. cbn [denote]. intros D N. destruct (v_type v) eqn:T.
  2-4: injection D as <-; cbn [number] in N; injection N as <-; split; [reflexivity|]; split; [reflexivity|]; split; [reflexivity|].
  2: apply s32_range. 2,3: apply s64_range.
  all: exfalso.
  { injection D as <-. discriminate. }
  all: repeat match type of D with bind ?Q _ = _ => destruct Q; cbn [bind] in D; [|discriminate] end; injection D as <-; discriminate.
Qed.

Lemma coerce_number f h v t z ty : denote f h v = Some t -> number t = Some z -> numeric ty = true ->
  (in_type ty z -> exists v', coerce h v ty = Ok (h, v') /\ denote f h v' = Some t /\ owned v' = [] /\
     (match ty with TInteger => get_i (v_u v') | _ => get_l (v_u v') end) = z) /\
  (~ in_type ty z -> coerce h v ty = Abort).
Proof.
  intros D N TY. destruct (denote_number f h v t z D N) as (NT & TT & EZ & RZ).
  destruct f as [|f]; [discriminate|]. unfold coerce. cbn [denote] in D.
  destruct (v_type v) eqn:T; try discriminate NT; injection D as <-; destruct ty; try discriminate TY; cbn [vtype_eqb in_type] in *; subst z.
  - split; [intros _; exists v; cbn [denote]; unfold owned; rewrite T; auto|intros H; contradiction].
  - split; [intros _|intros H; exfalso; apply H; lia]. eexists. split; [reflexivity|]. cbn [denote v_type v_u]. unfold owned. cbn [v_type].
    rewrite get_i_set_l, get_set_l, s32_id, s64_id by lia. auto.
  - split; [intros _|intros H; exfalso; apply H; lia]. eexists. split; [reflexivity|]. cbn [denote v_type v_u]. unfold owned. cbn [v_type].
    rewrite get_i_set_l, get_set_l, s32_id, s64_id by lia. auto.
  - split; intros H.
    + rewrite (s32_id (get_l (v_u v))), Z.eqb_refl by exact H. eexists. split; [reflexivity|]. cbn [denote v_type v_u]. unfold owned. cbn [v_type].
      rewrite get_set_i, set_i_get_l, s32_id by exact H. auto.
    + destruct (Z.eqb_spec (get_l (v_u v)) (s32 (get_l (v_u v)))) as [E|]; [|reflexivity]. exfalso. apply H. rewrite E. apply s32_range.
  - split; [intros _; exists v; cbn [denote]; unfold owned; rewrite T; auto|intros H; contradiction].
  - split; [intros _|intros H; contradiction]. eexists. split; [reflexivity|]. cbn [denote v_type v_u]. unfold owned. cbn [v_type].
    rewrite get_set_l, s64_id by lia. auto.
  - split; intros H.
    + rewrite (s32_id (get_l (v_u v))), Z.eqb_refl by exact H. eexists. split; [reflexivity|]. cbn [denote v_type v_u]. unfold owned. cbn [v_type].
      rewrite get_set_i, set_i_get_l, s32_id by exact H. auto.
    + destruct (Z.eqb_spec (get_l (v_u v)) (s32 (get_l (v_u v)))) as [E|]; [|reflexivity]. exfalso. apply H. rewrite E. apply s32_range.
  - split; [intros _|intros H; contradiction]. eexists. split; [reflexivity|]. cbn [denote v_type v_u]. unfold owned. cbn [v_type].
    rewrite get_set_l, s64_id by lia. auto.
  - split; [intros _; exists v; cbn [denote]; unfold owned; rewrite T; auto|intros H; contradiction].
Qed.

Lemma coerce_string f h v t z roots : Inv h (owned v ++ roots) -> denote f h v = Some t -> number t = Some z ->
  exists h' v', coerce h v TString = Ok (h', v') /\ Inv h' (owned v' ++ roots) /\ keeps roots h h' /\
    denote 1 h' v' = Some (Str (decimal z)).
Proof.
  intros I D N. destruct (denote_number f h v t z D N) as (NT & TT & EZ & RZ).
  assert (RZ' : -2^63 <= z < 2^63) by (destruct (v_type v); cbn [in_type] in RZ; lia).
  unfold coerce. assert (OV : owned v = []) by (unfold owned; destruct (v_type v); try discriminate NT; reflexivity).
  assert (G : exists h' v', (let '(h0, b) := new_body h (DStr (snprintf 24 z)) in assign h0 v (mkvar TString (Obj (mkref b 0 (length (snprintf 24 z)))))) = Ok (h', v') /\
    Inv h' (owned v' ++ roots) /\ keeps roots h h' /\ denote 1 h' v' = Some (Str (decimal z))).
  { rewrite (snprintf_ok 24 z) by lia. destruct (new_body h (DStr (decimal z))) as [h1 b] eqn:NB.
    pose proof (new_body_ok h (owned v ++ roots) (DStr (decimal z)) I) as (I1 & X1 & L1). rewrite NB in *. cbn [fst snd] in *.
    destruct (assign_ok h1 v (mkvar TString (Obj (mkref b 0 (length (decimal z))))) roots 1 (Str (decimal z))) as (h2 & v2 & E2 & I2 & K2 & D2).
    { exact I1. }
    { cbn [denote v_type v_u refd bind]. rewrite (text_new _ _ _ L1). reflexivity. }
    exists h2, v2. split; [exact E2|]. split; [exact I2|]. split; [|exact D2].
    eapply keeps_trans; [apply (ext_keeps _ _ _ X1)|exact K2]. }
  destruct (v_type v); try discriminate NT; cbn [vtype_eqb] in *; subst z; exact G.
Qed.

(** Strings to numbers. *)
Lemma denote_string f h v tx : denote f h v = Some (Str tx) ->
  exists r, v_type v = TString /\ v_u v = Obj r /\ text h r = Ok tx /\ owned v = [r_body r].
Proof.
  destruct f as [|f]; [discriminate|]. cbn [denote]. intros D. destruct (v_type v) eqn:T; try discriminate D.
  2-4: repeat match type of D with bind ?Q _ = _ => destruct Q; cbn [bind] in D; [|discriminate] end; discriminate.
  destruct (v_u v) as [z|r] eqn:U; cbn [refd bind] in D; [discriminate|].
  destruct (text h r) as [u| |] eqn:TX; cbn in D; try discriminate. injection D as <-. exists r.
  unfold owned. rewrite T, U. auto.
Qed.

Definition of_number (ty : vtype) (z : Z) : tree :=
  match ty with TInteger => Int (s32 z) | TLong => Long (s64 z) | _ => LongLong (s64 z) end.

Lemma coerce_of_string f h v tx ty : denote f h v = Some (Str tx) -> numeric ty = true ->
  match pint 0 tx with
  | None => coerce h v ty = UB
  | Some (k, e) =>
    if Bool.eqb (e =? 0) (vtype_eqb ty TLongLong)
    then exists v', coerce h v ty = Ok (h, v') /\ owned v' = [] /\ denote 1 h v' = Some (of_number ty k)
    else coerce h v ty = Abort
  end.
Proof.
  intros D TY. destruct (denote_string f h v tx D) as (r & T & U & TX & OV).
  unfold coerce, object. rewrite T, U. destruct ty; try discriminate TY; cbn [vtype_eqb obind]; rewrite TX; cbn [obind]; unfold as_int32;
    destruct (pint 0 tx) as [[k e]|]; cbn [obind snd fst]; try reflexivity; destruct (e =? 0); cbn [negb Bool.eqb]; try reflexivity.
  - eexists. split; [reflexivity|]. split; [reflexivity|]. cbn [denote v_type v_u of_number]. rewrite get_set_i. reflexivity.
  - eexists. split; [reflexivity|]. split; [reflexivity|]. cbn [denote v_type v_u of_number]. rewrite get_set_l. reflexivity.
  - eexists. split; [reflexivity|]. split; [reflexivity|]. cbn [denote v_type v_u of_number]. rewrite get_set_l. reflexivity.
Qed.

Lemma coerce_same h v ty : v_type v = ty -> coerce h v ty = Ok (h, v).
Proof. intros <-. unfold coerce. destruct (v_type v); reflexivity. Qed.

Lemma denote_type f h v t : denote f h v = Some t -> v_type v = type_of t.
Proof.
  destruct f as [|f]; [discriminate|]. cbn [denote]. intros D. destruct (v_type v) eqn:T; try (injection D as <-; reflexivity).
  all: repeat match type of D with bind ?Q _ = _ => destruct Q; cbn [bind] in D; [|discriminate] end; injection D as <-; reflexivity.
Qed.

(** The coercions there are. *)
Definition possible (from to : vtype) : bool :=
  vtype_eqb from to || vtype_eqb to TNone ||
  numeric to && (numeric from || vtype_eqb from TString) ||
  vtype_eqb to TString && numeric from.
Lemma coerce_impossible h v ty : possible (v_type v) ty = false -> coerce h v ty = Abort.
Proof. unfold coerce, possible. destruct (v_type v), ty; cbn; try discriminate; reflexivity. Qed.

(** Whatever happens, the others keep their values; a string is lost when it
    is coerced to a number. *)
Lemma coerce_ok f h v t ty roots : Inv h (owned v ++ roots) -> denote f h v = Some t ->
  coerce h v ty = Abort \/
  (coerce h v ty = UB /\ numeric ty = true /\ exists a b, t = Str (a ++ b) /\ numeral 0 a (- 2^63)) \/
  exists h' v' t' lost, coerce h v ty = Ok (h', v') /\ Inv h' (owned v' ++ lost ++ roots) /\ keeps roots h h' /\ means h' v' t' /\
    (lost = [] \/ numeric ty = true /\ type_of t = TString).
Proof.
  intros I D. pose proof (denote_type _ _ _ _ D) as TT.
  destruct (possible (v_type v) ty) eqn:P; [|left; apply coerce_impossible, P].
  destruct (vtype_eqb (v_type v) ty) eqn:E.
  { right. right. assert (v_type v = ty) by (destruct (v_type v), ty; try discriminate E; reflexivity).
    exists h, v, t, []. split; [apply coerce_same; assumption|]. split; [exact I|]. split; [apply keeps_refl|]. split; [exists f; exact D|left; reflexivity]. }
  destruct (vtype_eqb ty TNone) eqn:EN.
  { right. right. assert (ty = TNone) by (destruct ty; try discriminate EN; reflexivity). subst ty.
    destruct (coerce_none_ok h v roots I) as (h' & E' & I' & K). exists h', (mkvar TNone zeroed), Null, [].
    split; [unfold coerce; rewrite E; exact E'|]. split; [exact I'|]. split; [exact K|]. split; [exists 1%nat; reflexivity|left; reflexivity]. }
  unfold possible in P. rewrite E, EN in P. cbn [orb] in P.
  assert (NUM : numeric (v_type v) = true -> exists z, number t = Some z).
  { rewrite TT. destruct t; cbn; try discriminate; eauto. }
  destruct (numeric ty) eqn:NT.
  - cbn [andb] in P. destruct (numeric (v_type v)) eqn:NV.
    + destruct (NUM eq_refl) as (z & Nz). destruct (coerce_number f h v t z ty D Nz NT) as [A B].
      assert (Dec : in_type ty z \/ ~ in_type ty z) by (destruct ty; cbn; lia).
      destruct Dec as [Hin|Hout]; [|left; apply B, Hout].
      right. right. destruct (A Hin) as (v' & E' & D' & O' & _). exists h, v', t, []. split; [exact E'|]. rewrite O'.
      split; [|split; [apply keeps_refl|split; [exists f; exact D'|left; reflexivity]]].
      revert I. apply inv_perm. intros c. replace (owned v) with (@nil nat); [reflexivity|]. unfold owned. destruct (v_type v); try discriminate NV; reflexivity.
    + assert (TS : v_type v = TString).
      { destruct (v_type v); try reflexivity; cbn in P; destruct ty; discriminate. }
      rewrite TS in TT. destruct t as [| | | |tx| | |]; try discriminate TT.
      pose proof (coerce_of_string f h v tx ty D NT) as Q. destruct (pint 0 tx) as [[k e]|] eqn:EP.
      * destruct (Bool.eqb (e =? 0) (vtype_eqb ty TLongLong)); [|left; exact Q].
        destruct Q as (v' & E' & O' & D'). right. right. exists h, v', (of_number ty k), (owned v). split; [exact E'|]. rewrite O'.
        split; [exact I|]. split; [apply keeps_refl|]. split; [exists 1%nat; exact D'|right; split; reflexivity].
      * right. left. split; [exact Q|]. split; [reflexivity|]. destruct (pint_none 0 tx) as (a & b & -> & NU); [left; reflexivity|exact EP|]. exists a, b. auto.
  - cbn [andb orb] in P. apply andb_prop in P. destruct P as [PS PV].
    assert (ty = TString) by (destruct ty; try discriminate PS; reflexivity). subst ty.
    destruct (NUM PV) as (z & Nz). destruct (coerce_string f h v t z roots I D Nz) as (h' & v' & E' & I' & K' & D').
    right. right. exists h', v', (Str (decimal z)), []. split; [exact E'|]. split; [exact I'|]. split; [exact K'|]. split; [exists 1%nat; exact D'|left; reflexivity].
Qed.

(** ** Writing through the reference a number accessor returns *)
Definition poke (v : variant) (ty : vtype) (z : Z) : variant :=
  mkvar (v_type v) (match ty with TInteger => set_i (v_u v) z | _ => set_l z end).

Lemma coerce_numeric h v ty h' v' : coerce h v ty = Ok (h', v') -> numeric ty = true -> numeric (v_type v') = true.
Proof.
  unfold coerce. intros E NT. destruct (vtype_eqb (v_type v) ty) eqn:Q.
  { assert (v' = v) by congruence. subst v'. destruct (v_type v), ty; try discriminate Q; exact NT. }
  destruct ty; try discriminate NT; destruct (v_type v) eqn:T; try discriminate E; try discriminate Q.
  all: try (match type of E with (if ?b then _ else _) = _ => destruct b; [|discriminate] end; assert (v' = mkvar (v_type v) (set_i (v_u v) (get_l (v_u v)))) by congruence; subst v'; cbn [v_type]; rewrite T; reflexivity).
  all: repeat match type of E with
    | obind ?o _ = _ => destruct o; cbn [obind] in E; try discriminate
    | (if ?b then _ else _) = _ => destruct b; try discriminate
    end.
  all: match type of E with Ok (_, ?w) = _ => assert (v' = w) by congruence; subst v'; cbn [v_type]; try rewrite T; reflexivity end.
Qed.

Lemma poke_ok h v ty z : numeric (v_type v) = true -> owned v = [] /\ owned (poke v ty z) = [] /\ exists t, means h (poke v ty z) t.
Proof.
  intros N. unfold poke, owned. cbn [v_type v_u]. destruct (v_type v) eqn:T; try discriminate N; (split; [reflexivity|]; split; [reflexivity|];
    eexists; exists 1%nat; cbn [denote v_type]; reflexivity).
Qed.

Lemma write_eq st x ty z : numeric ty = true -> step st (Write x ty z) =
  do v <- var st x; do r <- coerce (st_heap st) v ty;
  Ok (mkstate (fst r) (upd (st_vars st) x (Some (poke (snd r) ty z)))).
Proof. intros N. cbn [step]. destruct (var st x); [|reflexivity|reflexivity]. destruct ty; try discriminate N; reflexivity. Qed.
