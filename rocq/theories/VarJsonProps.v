(** C47: Variant::as_json yields JSON of the value. *)
From Verif Require Import Base RefModel RefProofs CowModel StrFindSpec JsonSpec JsonProps VarModel VarSpec VarProofs VarSim VarCoerce VarProps VarJsonModel VarJsonSpec VarJsonUnique.
From Verif Require StrSpec.


(** ** Separators *)
Lemma white_times w n : white w -> white (times w n).
Proof.
  intros H. unfold times. induction (Z.to_nat n) as [|k IH]; cbn [repeat concat]; [constructor|].
  apply Forall_app. split; assumption.
Qed.
Lemma white_firstn w n : white w -> white (firstn n w).
Proof. intros H. apply Forall_forall. intros c Hc. unfold white in H. rewrite Forall_forall in H. apply H. rewrite <- (firstn_skipn n w). apply in_or_app. auto. Qed.
Lemma white_skipn w n : white w -> white (skipn n w).
Proof. intros H. apply Forall_forall. intros c Hc. unfold white in H. rewrite Forall_forall in H. apply H. rewrite <- (firstn_skipn n w). apply in_or_app. auto. Qed.
Lemma white_substr w a n : white w -> white (substr w a n).
Proof. intros H. unfold substr. destruct (_ || _); [constructor|]. apply white_firstn, white_skipn, H. Qed.

Lemma substr_rest c w : substr (c :: w) 1 (-1) = w.
Proof.
  unfold substr. cbn [length]. destruct w as [|d w].
  - reflexivity.
  - replace ((-1 <? -1) || (-1 =? 0) || (1 >=? Z.of_nat (S (length (d :: w))))) with false by (cbn [length]; lia).
    cbn [Z.gtb Z.compare]. change (skipn (Z.to_nat 1) (c :: d :: w)) with (d :: w).
    apply firstn_all2. lia.
Qed.

Lemma separator_ok indent : exists w, separator indent = 44 :: w /\ white w.
Proof.
  unfold separator. destruct (indent =? -2); [exists []; split; [reflexivity|constructor]|].
  destruct (indent =? -1); [exists [32]; split; [reflexivity|constructor; [cbn; auto|constructor]]|].
  exists (10 :: times [32; 32] (next_indent indent)). split; [reflexivity|]. constructor; [cbn; auto|].
  apply white_times. repeat (constructor; [cbn; auto|]). constructor.
Qed.

Lemma elements_items sep w0 : sep = 44 :: w0 -> white w0 -> forall post, white post -> forall ts xs, Forall2 json ts xs -> ts <> [] ->
  forall w, white w -> elements ts (w ++ items sep true xs ++ post).
Proof.
  intros ES W0 post WP ts xs F. induction F as [|t x ts xs J F IH]; intros NE w W; [congruence|]. cbn [items]. rewrite app_nil_l.
  inversion F as [|t' x' ts' xs' J' F']; subst.
  - cbn [items]. rewrite app_nil_r. apply EOne; assumption.
  - replace (w ++ (x ++ items (44 :: w0) false (x' :: xs')) ++ post) with (w ++ x ++ [] ++ [44] ++ (w0 ++ items (44 :: w0) true (x' :: xs') ++ post)).
    + apply EMore; auto; [constructor|]. apply IH; [discriminate|exact W0].
    + cbn [items]. rewrite <- ?app_assoc. cbn [app]. rewrite <- ?app_assoc. reflexivity.
Qed.

Lemma member_pre w p x : white w -> member p x -> member p (w ++ x).
Proof.
  intros W H. inversion H as [s c t x0 w1 w2 w3 w4 W1 W2 W3 W4 C J]; subst. rewrite app_assoc. apply Member; auto.
  apply Forall_app. auto.
Qed.
Lemma member_post w p x : white w -> member p x -> member p (x ++ w).
Proof.
  intros W H. inversion H as [s c t x0 w1 w2 w3 w4 W1 W2 W3 W4 C J]; subst.
  replace ((w1 ++ ([34] ++ c ++ [34]) ++ w2 ++ [58] ++ w3 ++ x0 ++ w4) ++ w) with (w1 ++ ([34] ++ c ++ [34]) ++ w2 ++ [58] ++ w3 ++ x0 ++ (w4 ++ w)).
  - apply Member; auto. apply Forall_app. auto.
  - rewrite <- ?app_assoc. cbn [app]. rewrite <- ?app_assoc. cbn [app]. rewrite <- ?app_assoc. reflexivity.
Qed.

Lemma members_items sep w0 : sep = 44 :: w0 -> white w0 -> forall post, white post -> forall ps xs, Forall2 member ps xs -> ps <> [] ->
  forall w, white w -> members ps (w ++ items sep true xs ++ post).
Proof.
  intros ES W0 post WP ps xs F. induction F as [|p x ps xs J F IH]; intros NE w W; [congruence|]. cbn [items]. rewrite app_nil_l.
  inversion F as [|p' x' ps' xs' J' F']; subst.
  - cbn [items]. rewrite app_nil_r. apply MOne. apply member_pre, member_post; assumption.
  - replace (w ++ (x ++ items (44 :: w0) false (x' :: xs')) ++ post) with ((w ++ x) ++ [44] ++ (w0 ++ items (44 :: w0) true (x' :: xs') ++ post)).
    + apply MMore; [apply member_pre; assumption|]. apply IH; [discriminate|exact W0].
    + cbn [items]. rewrite <- ?app_assoc. cbn [app]. rewrite <- ?app_assoc. reflexivity.
Qed.

Lemma bracket_eq indent w o c xs : separator indent = 44 :: w ->
  bracket (separator indent) o c xs = [o] ++ (w ++ items (separator indent) true xs ++ shorter w 2) ++ [c].
Proof. intros E. unfold bracket. rewrite E, substr_rest, <- ?app_assoc. reflexivity. Qed.

Lemma array_json indent ts xs : Forall2 json ts xs -> json (Vars ts) (bracket (separator indent) 91 93 xs).
Proof.
  intros F. destruct (separator_ok indent) as (w & E & W). rewrite (bracket_eq _ _ _ _ _ E).
  assert (WS : white (shorter w 2)) by (apply white_substr, W).
  destruct F as [|t x ts xs J F].
  - cbn [items app]. apply (JEmpty (w ++ shorter w 2)). apply Forall_app. auto.
  - apply JArray. apply (elements_items _ w E W); auto; discriminate.
Qed.

Lemma object_json indent ps xs : Forall2 member ps xs -> json (Map ps) (bracket (separator indent) 123 125 xs).
Proof.
  intros F. destruct (separator_ok indent) as (w & E & W). rewrite (bracket_eq _ _ _ _ _ E).
  assert (WS : white (shorter w 2)) by (apply white_substr, W).
  destruct F as [|p x ps xs J F].
  - cbn [items app]. apply (JNone (w ++ shorter w 2)). apply Forall_app. auto.
  - apply JObject. apply (members_items _ w E W); auto; discriminate.
Qed.

(** ** The values *)
Lemma string_json s : Forall bmp s -> exists c, json_string s = Ok ([34] ++ c ++ [34]) /\ json_contents c s.
Proof.
  intros B. exists (flat_map StrSpec.json_of s). split; [|apply json_bmp, B]. unfold json_string.
  replace (forallb (fun c => c <=? 0xFFFFF) s) with true; [reflexivity|]. symmetry. apply forallb_forall. intros c Hc.
  rewrite Forall_forall in B. destruct (B c Hc). lia.
Qed.

(** A list of values: a computation for each, the same for all large fuels. *)
Lemma each_ok {A B T} (R : A -> T -> Prop) (J : T -> B -> Prop) (g : nat -> A -> outcome B) f0 l ts :
  Forall2 R l ts -> (forall a t, In a l -> In t ts -> R a t -> exists b, (forall f, (f0 <= f)%nat -> g f a = Ok b) /\ J t b) ->
  exists bs, (forall f, (f0 <= f)%nat -> each (g f) l = Ok bs) /\ Forall2 J ts bs.
Proof.
  induction 1 as [|a t l ts Ra F IH]; intros H.
  - exists []. split; [reflexivity|constructor].
  - destruct (H a t) as (b & Gb & Jb); [left; reflexivity|left; reflexivity|exact Ra|].
    destruct IH as (bs & Gs & Js). { intros a' t' Ha Ht. apply H; right; assumption. }
    exists (b :: bs). split; [|constructor; assumption]. intros f Hf. cbn [each]. rewrite (Gb f Hf). cbn [obind]. rewrite (Gs f Hf). reflexivity.
Qed.

Lemma every_vars P l : every_str P (Vars l) <-> Forall (every_str P) l.
Proof.
  induction l as [|t l IH]; [split; intros; [constructor|exact I]|]. cbn [every_str] in *.
  split; [intros [A B]; constructor; [exact A|apply IH, B]|intros H; inversion H; subst; split; [assumption|apply IH; assumption]].
Qed.
Lemma every_map P l : every_str P (Map l) <-> Forall (fun p => P (fst p) /\ every_str P (snd p)) l.
Proof.
  induction l as [|[k t] l IH]; [split; intros; [constructor|exact I]|]. cbn [every_str] in *.
  split; [intros (A & B & C); constructor; [auto|apply IH, C]|intros H; inversion H as [|? ? [H1 H2] H3]; subst; cbn in *; split; [assumption|split; [assumption|apply IH; assumption]]].
Qed.

Lemma as_json_ok f : forall h v t indent, denote f h v = Some t -> every_str (Forall bmp) t ->
  exists l, (forall f', (f <= f')%nat -> as_json f' h indent v = Ok l) /\ json t l.
Proof.
  induction f as [|f IH]; intros h v t indent D E; [discriminate|].
  destruct (number t) as [z|] eqn:N.
  { destruct (denote_number _ _ _ _ _ D N) as (NT & TT & EZ & RZ).
    assert (RZ' : -2^63 <= z < 2^63) by (destruct (v_type v); cbn [in_type] in RZ; lia).
    exists (decimal z). split; [|eapply JNumber; [exact N|apply decimal_ok; exact RZ']].
    intros f' Hf. destruct f' as [|f']; [lia|]. cbn [as_json]. destruct (v_type v); try discriminate NT; rewrite <- EZ, snprintf_ok by lia; reflexivity. }
  assert (G : forall X l, (forall f', (f <= f')%nat -> X f' = Ok l) ->
    (forall f', as_json (S f') h indent v = X f') -> json t l ->
    exists l, (forall f', (S f <= f')%nat -> as_json f' h indent v = Ok l) /\ json t l).
  { intros X l H1 H2 J. exists l. split; [|exact J]. intros f' Hf. destruct f' as [|f']; [lia|]. rewrite H2. apply H1. lia. }
  cbn [denote] in D. destruct (v_type v) eqn:T; try (injection D as <-; discriminate N).
  - injection D as <-. apply (G (fun _ => Ok [110; 117; 108; 108]) [110; 117; 108; 108]); [reflexivity| |constructor].
    intros f'. cbn [as_json]. rewrite T. reflexivity.
  - destruct (v_u v) as [z|r] eqn:U; cbn [refd bind] in D; [discriminate|].
    destruct (text h r) as [s| |] eqn:TX; cbn [ok bind] in D; try discriminate. injection D as <-. cbn [every_str] in E.
    destruct (string_json s E) as (c & JS & JC). eapply (G (fun _ => json_string s)); [intros; exact JS| |constructor; exact JC].
    intros f'. cbn [as_json]. rewrite T. unfold object. rewrite U. cbn [obind]. rewrite TX. reflexivity.
  - destruct (v_u v) as [z|r] eqn:U; cbn [refd bind] in D; [discriminate|].
    destruct (strings h r) as [l| |] eqn:SR; cbn [ok bind] in D; try discriminate.
    destruct (all_some (map (fun r => ok (text h r)) l)) as [ts|] eqn:A; cbn [bind] in D; [|discriminate]. injection D as <-. cbn [every_str] in E.
    apply all_some_F2 in A. destruct (each_ok _ (fun s x => json (Str s) x) (fun _ s => do t <- text h s; json_string t) f l ts A) as (xs & GX & JX).
    { intros a s _ Hs Ra. rewrite Forall_forall in E. destruct (string_json s (E s Hs)) as (c & JS & JC). eexists. split; [|constructor; exact JC].
      intros f' _. destruct (text h a); cbn [ok obind] in *; try discriminate. injection Ra as ->. exact JS. }
    eapply (G (fun f' => do xs <- each (fun s => do t <- text h s; json_string t) l; Ok (bracket (separator indent) 91 93 xs))).
    + intros f' Hf. rewrite (GX f' Hf). reflexivity.
    + intros f'. cbn [as_json]. rewrite T. unfold object. rewrite U. cbn [obind]. rewrite SR. reflexivity.
    + apply JStrings. apply array_json. clear - JX. induction JX; cbn [map]; constructor; assumption.
  - destruct (v_u v) as [z|r] eqn:U; cbn [refd bind] in D; [discriminate|].
    destruct (variants h r) as [l| |] eqn:SR; cbn [ok bind] in D; try discriminate.
    destruct (all_some (map (denote f h) l)) as [ts|] eqn:A; cbn [bind] in D; [|discriminate]. injection D as <-. apply every_vars in E.
    apply all_some_F2 in A. destruct (each_ok _ json (fun f' => as_json f' h (next_indent indent)) f l ts A) as (xs & GX & JX).
    { intros a s _ Hs Ra. rewrite Forall_forall in E. apply IH; auto. }
    eapply (G (fun f' => do xs <- each (as_json f' h (next_indent indent)) l; Ok (bracket (separator indent) 91 93 xs))).
    + intros f' Hf. rewrite (GX f' Hf). reflexivity.
    + intros f'. cbn [as_json]. rewrite T. unfold object. rewrite U. cbn [obind]. rewrite SR. reflexivity.
    + apply array_json, JX.
  - destruct (v_u v) as [z|r] eqn:U; cbn [refd bind] in D; [discriminate|].
    destruct (entries h r) as [l| |] eqn:SR; cbn [ok bind] in D; try discriminate.
    match type of D with bind (all_some (map ?F l)) _ = _ => destruct (all_some (map F l)) as [ps|] eqn:A; cbn [bind] in D; [|discriminate] end.
    injection D as <-. apply every_map in E. apply all_some_F2 in A.
    destruct (each_ok _ member (fun f' p => do k <- text h (fst p); do kx <- json_string k;
                              do x <- as_json f' h (next_indent indent) (snd p);
                              Ok (kx ++ (if indent =? -2 then [58] else [58; 32]) ++ x)) f l ps A) as (xs & GX & JX).
    { intros [k w] [s t] _ Hs Ra. rewrite Forall_forall in E. destruct (E _ Hs) as [E1 E2]. cbn [fst snd] in *.
      destruct (text h k) as [tk| |]; cbn [ok bind obind] in *; try discriminate. destruct (denote f h w) as [tw|] eqn:DW; cbn [bind] in Ra; [|discriminate].
      injection Ra as -> ->. destruct (string_json s E1) as (c & JS & JC). destruct (IH h w t (next_indent indent) DW E2) as (x & GW & JW).
      eexists. split; [intros f' Hf; rewrite JS; cbn [obind]; rewrite (GW f' Hf); reflexivity|].
      destruct (indent =? -2).
      - pose proof (Member s c t x [] [] [] [] ltac:(constructor) ltac:(constructor) ltac:(constructor) ltac:(constructor) JC JW) as M.
        rewrite ?app_nil_r in M. exact M.
      - pose proof (Member s c t x [] [] [32] [] ltac:(constructor) ltac:(constructor) ltac:(constructor; [cbn; auto|constructor]) ltac:(constructor) JC JW) as M.
        rewrite ?app_nil_r in M. exact M. }
    eapply (G (fun f' => do xs <- each (fun p => do k <- text h (fst p); do kx <- json_string k;
                              do x <- as_json f' h (next_indent indent) (snd p);
                              Ok (kx ++ (if indent =? -2 then [58] else [58; 32]) ++ x)) l; Ok (bracket (separator indent) 123 125 xs))).
    + intros f' Hf. rewrite (GX f' Hf). reflexivity.
    + intros f'. cbn [as_json]. rewrite T. unfold object. rewrite U. cbn [obind]. rewrite SR. reflexivity.
    + apply object_json, JX.
Qed.

(** *** The styles *)
Lemma next_deeper i : -2 <= i -> next_indent i = deeper i.
Proof. intros H. unfold next_indent, deeper. destruct (Z.eqb_spec i (-2)), (Z.eqb_spec i (-1)), (Z.ltb_spec i 0); cbn [orb]; lia. Qed.
Lemma deeper_ge i : -2 <= i -> -2 <= deeper i.
Proof. intros H. unfold deeper. destruct (Z.ltb_spec i 0); lia. Qed.
Lemma times_spaces n : 0 <= n -> times [32; 32] n = repeat 32 (Z.to_nat (2 * n)).
Proof.
  intros H. unfold times. replace (Z.to_nat (2 * n)) with (2 * Z.to_nat n)%nat by lia. induction (Z.to_nat n) as [|k IH]; [reflexivity|].
  cbn [repeat concat]. rewrite IH. replace (2 * S k)%nat with (S (S (2 * k))) by lia. reflexivity.
Qed.
Lemma separator_gap i : -2 <= i -> separator i = 44 :: gap i (i + 1).
Proof.
  intros H. unfold separator, gap. destruct (Z.eqb_spec i (-2)); [reflexivity|]. destruct (Z.eqb_spec i (-1)); [reflexivity|].
  unfold next_indent. destruct (Z.eqb_spec i (-2)), (Z.eqb_spec i (-1)); try lia. cbn [orb app]. rewrite times_spaces by lia. reflexivity.
Qed.
Lemma shorter_gap i : -2 <= i -> shorter (gap i (i + 1)) 2 = gap i i.
Proof.
  intros H. unfold gap. destruct (Z.eqb_spec i (-2)) as [->|N2]; [reflexivity|]. destruct (Z.eqb_spec i (-1)) as [->|N1]; [reflexivity|].
  unfold line. replace (Z.to_nat (2 * (i + 1))) with (Z.to_nat (2 * i) + 2)%nat by lia. rewrite repeat_app.
  unfold shorter, substr. cbn [length]. rewrite app_length, !repeat_length. set (k := Z.to_nat (2 * i)).
  replace (Z.of_nat (S (k + 2)) - 2) with (Z.of_nat (S k)) by lia.
  replace ((Z.of_nat (S k) <? -1) || (Z.of_nat (S k) =? 0) || (0 >=? Z.of_nat (S (k + 2)))) with false by lia.
  replace (Z.of_nat (S k) >? 0) with true by lia. rewrite Z.min_l by lia. rewrite Nat2Z.id. cbn [Z.to_nat skipn firstn].
  rewrite firstn_app, repeat_length, Nat.sub_diag. cbn [firstn]. rewrite app_nil_r. rewrite firstn_all2 by (rewrite repeat_length; lia). reflexivity.
Qed.
Lemma items_separated sep xs : items sep true xs = separated sep xs.
Proof.
  induction xs as [|x xs IH]; [reflexivity|]. cbn [items separated]. rewrite app_nil_l. destruct xs as [|y xs]; [cbn [items]; apply app_nil_r|].
  rewrite <- IH. reflexivity.
Qed.
Lemma bracket_laid i o c xs : -2 <= i -> bracket (separator i) o c xs = [o] ++ within i xs ++ [c].
Proof.
  intros H. rewrite (bracket_eq _ _ _ _ _ (separator_gap i H)). rewrite items_separated, shorter_gap, separator_gap by exact H. reflexivity.
Qed.
Lemma as_json_laid f : forall h v t indent, -2 <= indent -> denote f h v = Some t -> every_str (Forall bmp) t ->
  exists l, (forall f', (f <= f')%nat -> as_json f' h indent v = Ok l) /\ laid indent t l.
Proof.
  induction f as [|f IH]; intros h v t indent HI D E; [discriminate|].
  destruct (number t) as [z|] eqn:N.
  { destruct (denote_number _ _ _ _ _ D N) as (NT & TT & EZ & RZ).
    assert (RZ' : -2^63 <= z < 2^63) by (destruct (v_type v); cbn [in_type] in RZ; lia).
    exists (decimal z). split; [|eapply LNumber; [exact N|apply decimal_ok; exact RZ']].
    intros f' Hf. destruct f' as [|f']; [lia|]. cbn [as_json]. destruct (v_type v); try discriminate NT; rewrite <- EZ, snprintf_ok by lia; reflexivity. }
  assert (G : forall X l, (forall f', (f <= f')%nat -> X f' = Ok l) ->
    (forall f', as_json (S f') h indent v = X f') -> laid indent t l ->
    exists l, (forall f', (S f <= f')%nat -> as_json f' h indent v = Ok l) /\ laid indent t l).
  { intros X l H1 H2 J. exists l. split; [|exact J]. intros f' Hf. destruct f' as [|f']; [lia|]. rewrite H2. apply H1. lia. }
  cbn [denote] in D. destruct (v_type v) eqn:T; try (injection D as <-; discriminate N).
  - injection D as <-. apply (G (fun _ => Ok [110; 117; 108; 108]) [110; 117; 108; 108]); [reflexivity| |constructor].
    intros f'. cbn [as_json]. rewrite T. reflexivity.
  - destruct (v_u v) as [z|r] eqn:U; cbn [refd bind] in D; [discriminate|].
    destruct (text h r) as [s| |] eqn:TX; cbn [ok bind] in D; try discriminate. injection D as <-. cbn [every_str] in E.
    destruct (string_json s E) as (c & JS & JC). eapply (G (fun _ => json_string s)); [intros; exact JS| |constructor; exact JC].
    intros f'. cbn [as_json]. rewrite T. unfold object. rewrite U. cbn [obind]. rewrite TX. reflexivity.
  - destruct (v_u v) as [z|r] eqn:U; cbn [refd bind] in D; [discriminate|].
    destruct (strings h r) as [l| |] eqn:SR; cbn [ok bind] in D; try discriminate.
    destruct (all_some (map (fun r => ok (text h r)) l)) as [ts|] eqn:A; cbn [bind] in D; [|discriminate]. injection D as <-. cbn [every_str] in E.
    apply all_some_F2 in A. destruct (each_ok _ (fun s x => laid (deeper indent) (Str s) x) (fun _ s => do t <- text h s; json_string t) f l ts A) as (xs & GX & JX).
    { intros a s _ Hs Ra. rewrite Forall_forall in E. destruct (string_json s (E s Hs)) as (c & JS & JC). eexists. split; [|constructor; exact JC].
      intros f' _. destruct (text h a); cbn [ok obind] in *; try discriminate. injection Ra as ->. exact JS. }
    eapply (G (fun f' => do xs <- each (fun s => do t <- text h s; json_string t) l; Ok (bracket (separator indent) 91 93 xs))).
    + intros f' Hf. rewrite (GX f' Hf). reflexivity.
    + intros f'. cbn [as_json]. rewrite T. unfold object. rewrite U. cbn [obind]. rewrite SR. reflexivity.
    + apply LStrings. rewrite bracket_laid by exact HI. apply LArray. clear - JX. induction JX; cbn [map]; constructor; assumption.
  - destruct (v_u v) as [z|r] eqn:U; cbn [refd bind] in D; [discriminate|].
    destruct (variants h r) as [l| |] eqn:SR; cbn [ok bind] in D; try discriminate.
    destruct (all_some (map (denote f h) l)) as [ts|] eqn:A; cbn [bind] in D; [|discriminate]. injection D as <-. apply every_vars in E.
    apply all_some_F2 in A. destruct (each_ok _ (laid (deeper indent)) (fun f' => as_json f' h (next_indent indent)) f l ts A) as (xs & GX & JX).
    { intros a s _ Hs Ra. rewrite Forall_forall in E. rewrite <- (next_deeper indent HI). apply IH; auto. rewrite next_deeper by exact HI. apply deeper_ge, HI. }
    eapply (G (fun f' => do xs <- each (as_json f' h (next_indent indent)) l; Ok (bracket (separator indent) 91 93 xs))).
    + intros f' Hf. rewrite (GX f' Hf). reflexivity.
    + intros f'. cbn [as_json]. rewrite T. unfold object. rewrite U. cbn [obind]. rewrite SR. reflexivity.
    + rewrite bracket_laid by exact HI. apply LArray, JX.
  - destruct (v_u v) as [z|r] eqn:U; cbn [refd bind] in D; [discriminate|].
    destruct (entries h r) as [l| |] eqn:SR; cbn [ok bind] in D; try discriminate.
    match type of D with bind (all_some (map ?F l)) _ = _ => destruct (all_some (map F l)) as [ps|] eqn:A; cbn [bind] in D; [|discriminate] end.
    injection D as <-. apply every_map in E. apply all_some_F2 in A.
    destruct (each_ok _ (laid_member indent) (fun f' p => do k <- text h (fst p); do kx <- json_string k;
                              do x <- as_json f' h (next_indent indent) (snd p);
                              Ok (kx ++ (if indent =? -2 then [58] else [58; 32]) ++ x)) f l ps A) as (xs & GX & JX).
    { intros [k w] [s t] _ Hs Ra. rewrite Forall_forall in E. destruct (E _ Hs) as [E1 E2]. cbn [fst snd] in *.
      destruct (text h k) as [tk| |]; cbn [ok bind obind] in *; try discriminate. destruct (denote f h w) as [tw|] eqn:DW; cbn [bind] in Ra; [|discriminate].
      injection Ra as -> ->. destruct (string_json s E1) as (c & JS & JC). destruct (IH h w t (next_indent indent) ltac:(rewrite next_deeper by exact HI; apply deeper_ge, HI) DW E2) as (x & GW & JW).
      eexists. split; [intros f' Hf; rewrite JS; cbn [obind]; rewrite (GW f' Hf); reflexivity|].
      rewrite next_deeper in JW by exact HI. apply LMember; assumption. }
    eapply (G (fun f' => do xs <- each (fun p => do k <- text h (fst p); do kx <- json_string k;
                              do x <- as_json f' h (next_indent indent) (snd p);
                              Ok (kx ++ (if indent =? -2 then [58] else [58; 32]) ++ x)) l; Ok (bracket (separator indent) 123 125 xs))).
    + intros f' Hf. rewrite (GX f' Hf). reflexivity.
    + intros f'. cbn [as_json]. rewrite T. unfold object. rewrite U. cbn [obind]. rewrite SR. reflexivity.
    + rewrite bracket_laid by exact HI. apply LObject, JX.
Qed.

(** ** C47 *)

(** For every history, every variant whose strings have only characters of the
    Basic Multilingual Plane (no NUL, no surrogates: C27), and every style, the
    result is JSON of its value. *)
Theorem C47_as_json_partial : forall n os st e x v t indent, Forall op_fits os -> run (start n) os = Ok st -> shows st e ->
  nth_error (st_vars st) x = Some (Some v) -> e x = Some t ->
  -2 <= indent -> every_str (Forall bmp) t ->
  exists f l, (forall f', (f <= f')%nat -> as_json f' (st_heap st) indent v = Ok l) /\ json t l.
Proof.
  intros n os st e x v t indent F E S N EX I B. pose proof (S x) as Sx. rewrite N in Sx. destruct Sx as (t' & Et & f & D).
  assert (t' = t) by congruence. subst t'. destruct (as_json_ok f (st_heap st) v t indent D B) as (l & G & J). exists f, l. auto.
Qed.

(** The result is laid out in the style asked for. *)
Theorem C47_style_partial : forall n os st e x v t indent, Forall op_fits os -> run (start n) os = Ok st -> shows st e ->
  nth_error (st_vars st) x = Some (Some v) -> e x = Some t ->
  -2 <= indent -> every_str (Forall bmp) t ->
  exists f l, (forall f', (f <= f')%nat -> as_json f' (st_heap st) indent v = Ok l) /\ laid indent t l.
Proof.
  intros n os st e x v t indent F E S N EX I B. pose proof (S x) as Sx. rewrite N in Sx. destruct Sx as (t' & Et & f & D).
  assert (t' = t) by congruence. subst t'. destruct (as_json_laid f (st_heap st) v t indent I D B) as (l & G & J). exists f, l. auto.
Qed.

(** A JSON text stands for one value (up to the type of its numbers, and up to
    arrays of strings being arrays). *)
Theorem C47_one_value : forall t t' x, json t x -> json t' x -> norm t = norm t'.
Proof. exact json_unique. Qed.

(** So two variants with the same JSON have the same value, whatever the styles. *)
Theorem C47_distinct_partial : forall n os st e x v t indent n' os' st' e' x' v' t' indent' f f' l,
  Forall op_fits os -> run (start n) os = Ok st -> shows st e -> nth_error (st_vars st) x = Some (Some v) -> e x = Some t ->
  Forall op_fits os' -> run (start n') os' = Ok st' -> shows st' e' -> nth_error (st_vars st') x' = Some (Some v') -> e' x' = Some t' ->
  -2 <= indent -> -2 <= indent' -> every_str (Forall bmp) t -> every_str (Forall bmp) t' ->
  (forall g, (f <= g)%nat -> as_json g (st_heap st) indent v = Ok l) ->
  (forall g, (f' <= g)%nat -> as_json g (st_heap st') indent' v' = Ok l) -> norm t = norm t'.
Proof.
  intros n os st e x v t indent n' os' st' e' x' v' t' indent' f f' l O R S N E O' R' S' N' E' I I' B B' J J'.
  destruct (C47_as_json_partial n os st e x v t indent O R S N E I B) as (g & k & G & JK).
  destruct (C47_as_json_partial n' os' st' e' x' v' t' indent' O' R' S' N' E' I' B') as (g' & k' & G' & JK').
  assert (k = l). { pose proof (G (Nat.max f g) ltac:(lia)) as A. rewrite (J (Nat.max f g)) in A by lia. congruence. }
  assert (k' = l). { pose proof (G' (Nat.max f' g') ltac:(lia)) as A. rewrite (J' (Nat.max f' g')) in A by lia. congruence. }
  subst k k'. eapply json_unique; eassumption.
Qed.

(** Not for other strings: NUL makes a text that is no JSON at all, and a
    character above U+FFFFF stops the program. *)
Theorem C47_nul_refuted : exists st v l, run (start 1) [New 0 (IStr [0])] = Ok st /\ nth_error (st_vars st) 0 = Some (Some v) /\
  (forall f, as_json (S f) (st_heap st) (-2) v = Ok l) /\ forall t, ~ json t l.
Proof.
  do 3 eexists. split; [vm_compute; reflexivity|]. split; [reflexivity|]. split; [intros f; cbn [as_json]; vm_compute; reflexivity|].
  intros t J. assert (NJ : forall u, ~ json_contents [92; 48] u) by (apply not_json; eauto).
  destruct (json_shape t _ J) as [(_ & E)|[(z & _ & D)|[(s & c & _ & C & E)|[(w & _ & _ & E)|[(ts & y & _ & _ & E)|[(w & _ & _ & E)|(ps & y & _ & _ & E)]]]]]]; try discriminate E.
  - destruct (decimal_head z _ D) as (c & q & E & H). injection E as <- _. lia.
  - change [34; 92; 48; 34] with ([34] ++ [92; 48] ++ [34]) in E. cbn [app] in E. injection E as E.
    change [92; 48; 34] with ([92; 48] ++ [34]) in E. apply app_inj_tail in E. destruct E as [<- _]. exact (NJ s C).
Qed.
Theorem C47_abort_refuted : exists st v, run (start 1) [New 0 (IStr [0x10FFFD])] = Ok st /\ nth_error (st_vars st) 0 = Some (Some v) /\
  forall f, as_json (S f) (st_heap st) (-2) v = Abort.
Proof. do 2 eexists. split; [vm_compute; reflexivity|]. split; [reflexivity|]. intros f. cbn [as_json]. vm_compute. reflexivity. Qed.

(** A case: the value of C28_ex, indented. *)
Example C47_ex : exists st v l, run (start 6) prog = Ok st /\ nth_error (st_vars st) 4 = Some (Some v) /\
  as_json 9 (st_heap st) 0 v = Ok l /\ json (Map [([97; 98; 99], Vars [Str [97; 98; 99]; Int (-7)])]) l /\
  l = [123; 10; 32; 32; 34; 97; 98; 99; 34; 58; 32; 91; 10; 32; 32; 32; 32; 34; 97; 98; 99; 34; 44; 10; 32; 32; 32; 32; 45; 55; 10; 32; 32; 93; 10; 125].
Proof.
  destruct C28_ex as (st & O & R & S).
  assert (N : exists v, nth_error (st_vars st) 4 = Some (Some v)). { pose proof (S 4%nat) as S4. destruct (nth_error (st_vars st) 4) as [[v|]|]; [eauto|discriminate|discriminate]. }
  destruct N as (v & N).
  destruct (C47_as_json_partial 6 prog st _ 4 v _ 0 O R S N eq_refl ltac:(lia)) as (f & l & G & J).
  { cbn. repeat split; repeat constructor; unfold bmp; lia. }
  exists st, v, l. split; [exact R|]. split; [exact N|].
  assert (Q : as_json 9 (st_heap st) 0 v = Ok l /\ l = [123; 10; 32; 32; 34; 97; 98; 99; 34; 58; 32; 91; 10; 32; 32; 32; 32; 34; 97; 98; 99; 34; 44; 10; 32; 32; 32; 32; 45; 55; 10; 32; 32; 93; 10; 125]).
  { vm_compute in R. assert (EQ := R). clear - G N EQ. injection EQ as <-. cbn in N. injection N as <-.
    pose proof (G (f + 9)%nat ltac:(lia)) as H. rewrite Nat.add_comm in H. vm_compute in H. injection H as <-. split; vm_compute; reflexivity. }
  destruct Q as [Q1 Q2]. auto.
Qed.

Print Assumptions C47_as_json_partial.
Print Assumptions C47_style_partial.
Print Assumptions C47_one_value.
Print Assumptions C47_distinct_partial.
Print Assumptions C47_nul_refuted.
Print Assumptions C47_abort_refuted.
