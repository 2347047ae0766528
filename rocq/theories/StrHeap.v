(** Reference counts of string bodies stay exact under every operation, and no
    operation touches the bytes of a body another string refers to.  No
    assumption about arguments: everything here holds for whatever a program
    does, as long as it does not crash. *)
From Verif Require Import Base RefModel RefProofs UTF8Model ArrayModel ArraySpec ArrayProofs StrModel StrSpec.
From Coq Require Import Permutation.

Implicit Types (h : sheap) (s t w : sval) (hs : list sval) (x y : sbody).

Definition arr h (b : nat) : option (body Z) :=
  match nth_error h b with Some (Some x) => Some (sb_arr x) | _ => None end.
Definition refers (b : nat) s : bool := Nat.eqb (v_body s) b.
Definition cnt (b : nat) hs : nat := length (filter (refers b) hs).
Definition stat (a : body Z) : Z := if b_static a then 1 else 0.

Definition RC h hs : Prop :=
  (forall b a, arr h b = Some a -> b_refs a = Z.of_nat (cnt b hs) + stat a /\ 0 < b_refs a) /\
  Forall (fun s => exists a, arr h (v_body s) = Some a) hs.

(** The bytes (and shape) of a body, without its count. *)
Definition bits (a : body Z) := (b_data a, b_num a, b_alloc a, b_static a).
Definition obits h b := option_map bits (arr h b).
Definition keep h h' hs : Prop := Forall (fun s => obits h' (v_body s) = obits h (v_body s)) hs.

Definition hsim h h' : Prop := length h' = length h /\ forall b, arr h' b = arr h b.

Lemma hsim_refl h : hsim h h. Proof. split; auto. Qed.
Lemma hsim_trans a b c : hsim a b -> hsim b c -> hsim a c.
Proof. intros [L1 H1] [L2 H2]. split; [lia|]. intros k. rewrite H2. apply H1. Qed.
Lemma hsim_RC h h' hs : hsim h h' -> RC h hs -> RC h' hs.
Proof.
  intros [_ E] [A B]. split.
  - intros b a. rewrite E. apply A.
  - rewrite Forall_forall in *. intros s Hs. destruct (B s Hs) as [a Ha]. exists a. rewrite E. exact Ha.
Qed.
Lemma hsim_keep h h' hs : hsim h h' -> keep h h' hs.
Proof. intros [_ E]. unfold keep. rewrite Forall_forall. intros s _. unfold obits. rewrite E. reflexivity. Qed.
Lemma keep_refl h hs : keep h h hs.
Proof. apply hsim_keep, hsim_refl. Qed.
Lemma keep_trans h1 h2 h3 hs : keep h1 h2 hs -> keep h2 h3 hs -> keep h1 h3 hs.
Proof. unfold keep. rewrite !Forall_forall. intros A B s Hs. rewrite B, A by exact Hs. reflexivity. Qed.
Lemma keep_sub h h' hs hs' : incl hs' hs -> keep h h' hs -> keep h h' hs'.
Proof. unfold keep. rewrite !Forall_forall. intros I A s Hs. apply A, I, Hs. Qed.
Lemma keep_tl h h' s hs : keep h h' (s :: hs) -> keep h h' hs.
Proof. apply keep_sub. intros t Ht. right. exact Ht. Qed.
Lemma keep_hd h h' s hs : keep h h' (s :: hs) -> obits h' (v_body s) = obits h (v_body s).
Proof. intros K. inversion K. assumption. Qed.

Lemma cnt_cons b s hs : cnt b (s :: hs) = ((if Nat.eqb (v_body s) b then 1 else 0) + cnt b hs)%nat.
Proof. unfold cnt. simpl. unfold refers at 1. destruct (Nat.eqb (v_body s) b); reflexivity. Qed.
Lemma cnt_perm b hs hs' : Permutation hs hs' -> cnt b hs = cnt b hs'.
Proof. intros P. induction P; rewrite ?cnt_cons in *; lia. Qed.
Lemma RC_perm h hs hs' : Permutation hs hs' -> RC h hs -> RC h hs'.
Proof.
  intros P [B S]. split.
  - intros b x Hb. rewrite <- (cnt_perm b _ _ P). auto.
  - eapply Permutation_Forall; eassumption.
Qed.
(** Only the bodies matter. *)
Lemma RC_body h s s' hs : v_body s' = v_body s -> RC h (s :: hs) -> RC h (s' :: hs).
Proof.
  intros E [A B]. split.
  - intros b a Ha. specialize (A b a Ha). rewrite cnt_cons in *. rewrite E. exact A.
  - inversion B; subst. constructor; [rewrite E|]; assumption.
Qed.
Lemma cnt_in b hs s : In s hs -> v_body s = b -> (0 < cnt b hs)%nat.
Proof.
  intros I E. unfold cnt. assert (X : In s (filter (refers b) hs)) by (apply filter_In; split; [exact I|unfold refers; rewrite E; apply Nat.eqb_refl]).
  destruct (filter (refers b) hs); [destruct X|simpl; lia].
Qed.

Lemma sget_ok h b x : sget h b = Ok x <-> nth_error h b = Some (Some x).
Proof. unfold sget. destruct (nth_error h b) as [[y|]|]; split; intros H; congruence. Qed.
Lemma sget_arr h b x : sget h b = Ok x -> arr h b = Some (sb_arr x).
Proof. intros H. apply sget_ok in H. unfold arr. rewrite H. reflexivity. Qed.
Lemma arr_sget h b a : arr h b = Some a -> exists x, sget h b = Ok x /\ sb_arr x = a.
Proof. unfold arr, sget. destruct (nth_error h b) as [[y|]|]; intros H; try discriminate. injection H as <-. eauto. Qed.
Lemma arr_lt h b a : arr h b = Some a -> (b < length h)%nat.
Proof. unfold arr. destruct (nth_error h b) eqn:E; [|discriminate]. intros _. eapply nth_lt; exact E. Qed.

Lemma arr_sput h b x y c : sget h b = Ok x -> arr (sput h b y) c = if Nat.eqb c b then Some (sb_arr y) else arr h c.
Proof.
  intros H. apply sget_ok in H. unfold arr, sput. rewrite nth_upd. assert (b < length h)%nat by (eapply nth_lt; exact H).
  destruct (Nat.eqb_spec c b); destruct (Nat.ltb_spec b (length h)); try lia; reflexivity.
Qed.
Lemma sput_length h b x : length (sput h b x) = length h.
Proof. apply upd_length. Qed.
Lemma sput_sim h b x y : sget h b = Ok x -> sb_arr y = sb_arr x -> hsim h (sput h b y).
Proof.
  intros H E. split; [apply sput_length|]. intros c. rewrite (arr_sput h b x y c H). destruct (Nat.eqb_spec c b); [|reflexivity].
  subst. rewrite E. symmetry. apply sget_arr. exact H.
Qed.
Lemma arr_none h b c : (b < length h)%nat -> arr (upd h b None) c = if Nat.eqb c b then None else arr h c.
Proof.
  intros H. unfold arr. rewrite nth_upd. destruct (Nat.eqb_spec c b); destruct (Nat.ltb_spec b (length h)); try lia; reflexivity.
Qed.
Lemma arr_app h y c : arr (h ++ [Some y]) c = if Nat.eqb c (length h) then Some (sb_arr y) else arr h c.
Proof.
  unfold arr. destruct (Nat.eqb_spec c (length h)).
  - subst. rewrite nth_error_app2 by lia. rewrite Nat.sub_diag. reflexivity.
  - destruct (Nat.lt_ge_cases c (length h)); [rewrite nth_error_app1 by assumption; reflexivity|].
    rewrite nth_error_app2 by lia. assert (N : nth_error h c = None) by (apply nth_error_None; lia). rewrite N.
    destruct (c - length h)%nat as [|k] eqn:K; [lia|]. destruct k; reflexivity.
Qed.

(** ** Reference counting *)
Lemma addref_rc h b h' hs s : RC h hs -> saddref h b = Ok h' -> v_body s = b ->
  RC h' (s :: hs) /\ keep h h' hs /\ length h' = length h /\ obits h' b = obits h b.
Proof.
  intros [A B] H E. unfold saddref in H. apply obind_ok in H as (x & G & H). injection H as <-.
  assert (AR := fun c => arr_sput h b x (with_refs x (b_refs (sb_arr x) + 1)) c G).
  assert (GA := sget_arr _ _ _ G).
  assert (OB : forall c, obits (sput h b (with_refs x (b_refs (sb_arr x) + 1))) c = obits h c).
  { intros c. unfold obits. rewrite AR. destruct (Nat.eqb_spec c b); [subst; rewrite GA|]; reflexivity. }
  split; [|split; [unfold keep; rewrite Forall_forall; intros; apply OB|split; [apply sput_length|apply OB]]]. split.
  - intros c a. rewrite AR, cnt_cons, E. rewrite (Nat.eqb_sym c b). destruct (Nat.eqb_spec b c).
    + subst c. intros Ha. injection Ha as <-. destruct (A b _ GA) as [A1 A2].
      unfold stat in *. cbn [with_refs sb_arr set_refs b_refs b_static]. destruct (b_static (sb_arr x)); lia.
    + intros Ha. destruct (A c a Ha). split; lia.
  - constructor.
    + rewrite E, AR, Nat.eqb_refl. eauto.
    + rewrite Forall_forall in *. intros u Hu. rewrite AR. destruct (Nat.eqb (v_body u) b); eauto.
Qed.

Lemma release_rc h s h' hs : RC h (s :: hs) -> srelease h (v_body s) = Ok h' ->
  RC h' hs /\ keep h h' hs /\ length h' = length h.
Proof.
  intros [A B] H. unfold srelease in H. apply obind_ok in H as (x & G & H). assert (GA := sget_arr _ _ _ G).
  inversion B as [|? ? _ B']; subst. destruct (A _ _ GA) as [R P]. rewrite cnt_cons, Nat.eqb_refl in R.
  unfold cassert in H. destruct (b_refs (sb_arr x) >? 0); [|discriminate].
  destruct (Z.eqb_spec (b_refs (sb_arr x) - 1) 0); injection H as <-.
  - assert (C0 : cnt (v_body s) hs = 0%nat) by (unfold stat in R; destruct (b_static (sb_arr x)); lia).
    assert (NR : forall t, In t hs -> v_body t <> v_body s) by (intros t Ht Et; assert (X := cnt_in _ _ _ Ht Et); lia).
    assert (AR := fun c => arr_none h (v_body s) c (arr_lt _ _ _ GA)).
    split; [|split; [|apply upd_length]].
    + split.
      * intros c a. rewrite AR. destruct (Nat.eqb_spec c (v_body s)); [discriminate|]. intros Ha. destruct (A c a Ha) as [R' P'].
        rewrite cnt_cons in R'. destruct (Nat.eqb_spec (v_body s) c); [congruence|]. auto.
      * rewrite Forall_forall in *. intros t Ht. rewrite AR. destruct (Nat.eqb_spec (v_body t) (v_body s)); [destruct (NR t Ht e0)|]. auto.
    + unfold keep. rewrite Forall_forall. intros t Ht. unfold obits. rewrite AR.
      destruct (Nat.eqb_spec (v_body t) (v_body s)); [destruct (NR t Ht e0)|reflexivity].
  - assert (AR := fun c => arr_sput h (v_body s) x (with_refs x (b_refs (sb_arr x) - 1)) c G).
    split; [|split; [|apply sput_length]].
    + split.
      * intros c a. rewrite AR. destruct (Nat.eqb_spec c (v_body s)).
        -- subst c. intros Ha. injection Ha as <-. unfold stat in *. cbn [with_refs sb_arr set_refs b_refs b_static] in *. destruct (b_static (sb_arr x)); lia.
        -- intros Ha. destruct (A c a Ha) as [R' P']. rewrite cnt_cons in R'. destruct (Nat.eqb_spec (v_body s) c); [congruence|]. auto.
      * rewrite Forall_forall in *. intros t Ht. rewrite AR. destruct (Nat.eqb (v_body t) (v_body s)); eauto.
    + unfold keep. rewrite Forall_forall. intros t Ht. unfold obits. rewrite AR.
      destruct (Nat.eqb_spec (v_body t) (v_body s)) as [->|]; [rewrite GA|]; reflexivity.
Qed.

(** A new body, with the references it already carries. *)
Lemma fresh_rc h hs y s : RC h hs -> v_body s = length h -> b_refs (sb_arr y) = 1 + stat (sb_arr y) ->
  RC (h ++ [Some y]) (s :: hs) /\ keep h (h ++ [Some y]) hs.
Proof.
  intros [A B] E R. assert (AR := arr_app h y).
  assert (NB : forall t, In t hs -> (v_body t < length h)%nat).
  { intros t Ht. rewrite Forall_forall in B. destruct (B t Ht) as [a Ha]. eapply arr_lt; exact Ha. }
  split.
  - split.
    + intros c a. rewrite AR, cnt_cons, E. rewrite (Nat.eqb_sym c). destruct (Nat.eqb_spec (length h) c).
      * intros Ha. injection Ha as <-. subst c.
        assert (C0 : cnt (length h) hs = 0%nat).
        { unfold cnt. destruct (filter (refers (length h)) hs) as [|t r] eqn:F; [reflexivity|exfalso].
          assert (X : In t (filter (refers (length h)) hs)) by (rewrite F; left; reflexivity).
          apply filter_In in X as [X1 X2]. unfold refers in X2. apply Nat.eqb_eq in X2. assert (K := NB t X1). lia. }
        rewrite C0. unfold stat in *. destruct (b_static (sb_arr y)); lia.
      * intros Ha. destruct (A c a Ha). split; lia.
    + constructor.
      * rewrite E, AR, Nat.eqb_refl. eauto.
      * rewrite Forall_forall in *. intros t Ht. rewrite AR. destruct (Nat.eqb (v_body t) (length h)); eauto.
  - unfold keep. rewrite Forall_forall. intros t Ht. unfold obits. rewrite AR. assert (K := NB t Ht).
    destruct (Nat.eqb_spec (v_body t) (length h)); [lia|reflexivity].
Qed.

(** Writing a body that only [s] refers to. *)
Lemma write_rc h s s' hs x y : RC h (s :: hs) -> sget h (v_body s) = Ok x -> b_refs (sb_arr x) <= 1 -> v_body s' = v_body s ->
  b_refs (sb_arr y) = b_refs (sb_arr x) -> b_static (sb_arr y) = b_static (sb_arr x) ->
  RC (sput h (v_body s) y) (s' :: hs) /\ keep h (sput h (v_body s) y) hs.
Proof.
  intros [A B] G R E E1 E2. assert (GA := sget_arr _ _ _ G). assert (AR := fun c => arr_sput h (v_body s) x y c G).
  inversion B as [|? ? _ B']; subst.
  assert (C0 : cnt (v_body s) hs = 0%nat).
  { destruct (A _ _ GA) as [A1 A2]. rewrite cnt_cons, Nat.eqb_refl in A1. unfold stat in A1. destruct (b_static (sb_arr x)); lia. }
  split.
  - split.
    + intros c a. rewrite AR, cnt_cons, E. destruct (Nat.eqb_spec c (v_body s)).
      * subst c. intros Ha. injection Ha as <-. rewrite Nat.eqb_refl. destruct (A _ _ GA) as [A1 A2].
        rewrite cnt_cons, Nat.eqb_refl in A1. unfold stat in *. rewrite E1, E2. auto.
      * intros Ha. specialize (A c a Ha). rewrite cnt_cons in A. exact A.
    + constructor.
      * rewrite E, AR, Nat.eqb_refl. eauto.
      * rewrite Forall_forall in *. intros t Ht. rewrite AR. destruct (Nat.eqb (v_body t) (v_body s)); eauto.
  - unfold keep. rewrite Forall_forall. intros t Ht. unfold obits. rewrite AR.
    destruct (Nat.eqb_spec (v_body t) (v_body s)); [|reflexivity]. assert (X := cnt_in _ _ _ Ht e). lia.
Qed.

(** ** Reading *)
Lemma num_chars_arr x y n : num_chars x = Ok (y, n) -> sb_arr y = sb_arr x.
Proof.
  unfold num_chars. destruct (sb_n x =? 0); intros H.
  - apply obind_ok in H as (m & _ & H). apply obind_ok in H as (k & _ & H). injection H as <- <-. reflexivity.
  - injection H as <- <-. reflexivity.
Qed.
Lemma nth_char_arr x n mk r : nth_char x n mk = Ok r -> sb_arr (fst (fst r)) = sb_arr x.
Proof.
  unfold nth_char. destruct (_ || _); intros H.
  - injection H as <-. reflexivity.
  - apply obind_ok in H as ([x1 nc] & E & H). unfold cassert in H. destruct (n <=? nc); [|discriminate].
    apply obind_ok in H as (m & _ & H). cbv zeta in H.
    destruct (if fst mk >? 0 then _ else _) as [[[up sc] ep] ec].
    apply obind_ok in H as (p & _ & H). injection H as <-. cbn [fst]. eapply num_chars_arr; exact E.
Qed.
Lemma sv_nth_sim h s i r : sv_nth h s i = Ok r -> hsim h (fst (fst r)).
Proof.
  unfold sv_nth. destruct (i >? v_len s); intros H.
  - injection H as <-. apply hsim_refl.
  - apply obind_ok in H as (x & G & H). apply obind_ok in H as (r' & N & H). injection H as <-. cbn [fst].
    eapply sput_sim; [exact G|]. eapply nth_char_arr; exact N.
Qed.
Lemma nth_c_sim h s i r : nth_c h s i = Ok r -> hsim h (fst r).
Proof. unfold nth_c. intros H. apply obind_ok in H as (r' & N & H). injection H as <-. eapply sv_nth_sim; exact N. Qed.
Lemma nth_m_sim h s i h' s' p : nth_m h s i = Ok (h', s', p) ->
  hsim h h' /\ v_body s' = v_body s /\ v_off s' = v_off s /\ v_len s' = v_len s.
Proof.
  unfold nth_m. intros H. apply obind_ok in H as (r' & N & H). injection H as <- <- <-.
  split; [eapply sv_nth_sim; exact N|auto].
Qed.
Lemma num_bytes_sim h s r : num_bytes h s = Ok r -> hsim h (fst r).
Proof.
  unfold num_bytes. intros H. apply obind_ok in H as (r1 & N & H). destruct (snd r1); [|discriminate].
  apply obind_ok in H as (r2 & N2 & H). destruct (snd r2); [|discriminate]. injection H as <-. cbn [fst].
  eapply hsim_trans; [eapply nth_c_sim; exact N|eapply nth_c_sim; exact N2].
Qed.
Lemma sv_index_sim h s i r : sv_index h s i = Ok r -> hsim h (fst r).
Proof.
  unfold sv_index. destruct (u32 i =? v_len s); intros H.
  - injection H as <-. apply hsim_refl.
  - apply obind_ok in H as (r1 & N & H). apply nth_c_sim in N. destruct (snd r1) as [p|].
    + apply obind_ok in H as (m & _ & H). destruct (p <? 0); [discriminate|]. apply obind_ok in H as (c & _ & H). injection H as <-. exact N.
    + injection H as <-. exact N.
Qed.

(** ** New bodies *)
Lemma resize_keeps (x : body Z) m (x' : body Z) mv : resize x m = Ok (x', mv) -> b_refs x' = b_refs x /\ b_static x' = b_static x.
Proof.
  unfold resize. destruct (m <=? b_alloc x); intros H.
  - injection H as <- <-. auto.
  - apply obind_ok in H as (nd & _ & H). injection H as <- <-. auto.
Qed.
Lemma new_sbody_rc data n al r y : new_sbody data n al r = Ok y -> b_refs (sb_arr y) = r /\ b_static (sb_arr y) = false.
Proof.
  unfold new_sbody. intros H. apply obind_ok in H as (k & _ & H). apply obind_ok in H as (a & _ & H).
  apply obind_ok in H as (d & _ & H). injection H as <-. auto.
Qed.
Lemma body_insert_keeps (x : body Z) pos src n (x' : body Z) : body_insert x pos src n = Ok x' ->
  b_refs x' = b_refs x /\ b_static x' = b_static x /\ b_refs x <= 1.
Proof.
  unfold body_insert, cassert. destruct (Z.leb_spec (b_refs x) 1); [|discriminate].
  destruct (n <=? 0); intros H0; [injection H0 as <-; auto|].
  destruct (pos <=? b_num x); [|discriminate]. cbv zeta in H0. destruct (_ >=? _); [|discriminate].
  apply obind_ok in H0 as ([x1 mv] & R & H0).
  assert (K : (do d1 <- (if b_num x >? pos then shift_up (Z.to_nat (u32 (b_num x + n))) pos n (b_data (fst (x1, mv))) else Ok (b_data (fst (x1, mv))));
           do d2 <- copy_in (Z.to_nat n) 0 pos src d1;
           Ok {| b_data := d2; b_num := u32 (b_num x + n); b_alloc := b_alloc (fst (x1, mv)); b_refs := b_refs x; b_static := b_static x |}) = Ok x').
  { destruct src; [exact H0|]. cbn [snd] in H0. destruct mv; [discriminate|exact H0]. }
  apply obind_ok in K as (d1 & _ & K). apply obind_ok in K as (d2 & _ & K). injection K as <-. auto.
Qed.

Lemma copy_body_rc h s hs h' s' : RC h (s :: hs) -> copy_body h s = Ok (h', s') ->
  RC h' (s' :: hs) /\ keep h h' hs /\ v_body s' = length h /\ length h' = S (length h) /\ v_len s' = v_len s /\ v_off s' = 0.
Proof.
  intros R H. unfold copy_body in H. cbv zeta in H. apply obind_ok in H as ([[h1 s1] cp] & N1 & H).
  apply obind_ok in H as ([[h2 s2] ep] & N2 & H).
  destruct cp as [cp|]; [|discriminate]. destruct ep as [ep|]; [|discriminate].
  apply obind_ok in H as (m & _ & H). destruct (cp <? 0); [discriminate|].
  apply obind_ok in H as (y & Y & H). apply obind_ok in H as (h3 & D & H). injection H as <- <-. cbn [v_body v_len v_off].
  apply nth_m_sim in N1 as (S1 & E1 & _ & L1). apply nth_m_sim in N2 as (S2 & E2 & _ & L2).
  assert (S12 := hsim_trans _ _ _ S1 S2). apply new_sbody_rc in Y as [Y1 Y2].
  assert (R2 := hsim_RC _ _ _ S12 R).
  set (s' := {| v_body := length h2; v_off := 0; v_len := v_len s; v_mk := (u32 (fst (v_mk s) - v_off s), u32 (snd (v_mk s) - cp)) |}) in *.
  destruct (fresh_rc h2 (s :: hs) y s' R2 eq_refl) as [R3 K3]; [unfold stat; rewrite Y1, Y2; reflexivity|].
  assert (R4 : RC (h2 ++ [Some y]) (s :: s' :: hs)) by (eapply RC_perm; [apply perm_swap|exact R3]).
  destruct (release_rc _ _ _ _ R4 D) as (R5 & K5 & L5).
  split; [exact R5|]. split; [|split; [apply S12|split; [rewrite L5, app_length; cbn [length]; destruct S12 as [Q _]; lia|auto]]].
  eapply keep_trans; [apply hsim_keep; exact S12|]. eapply keep_trans; [exact (keep_tl _ _ _ _ K3)|exact (keep_tl _ _ _ _ K5)].
Qed.

Lemma unshare_rc h s hs h' s' : RC h (s :: hs) -> unshare h s = Ok (h', s') ->
  RC h' (s' :: hs) /\ keep h h' hs /\ v_len s' = v_len s /\ (length h <= length h')%nat /\
  (s' = s /\ hsim h h' \/ v_body s' = length h /\ v_off s' = 0).
Proof.
  intros R H. unfold unshare in H. apply obind_ok in H as (x & G & H). apply obind_ok in H as ([h1 must] & M & H).
  assert (S1 : hsim h h1).
  { destruct (is_static x).
    - apply obind_ok in M as ([y n] & P & M). injection M as <- _. cbn [fst]. eapply sput_sim; [exact G|]. eapply num_chars_arr; exact P.
    - injection M as <- _. apply hsim_refl. }
  assert (R1 := hsim_RC _ _ _ S1 R). destruct (must || is_shared x).
  - destruct (copy_body_rc _ _ _ _ _ R1 H) as (R2 & K2 & B & L & VL & VO). destruct S1 as [SL SA].
    split; [exact R2|]. split; [eapply keep_trans; [apply hsim_keep; split; eassumption|exact K2]|]. rewrite SL in *. split; [exact VL|]. split; [lia|]. right. auto.
  - injection H as <- <-. split; [exact R1|]. split; [apply hsim_keep; exact S1|]. split; [reflexivity|]. split; [destruct S1; lia|]. left. auto.
Qed.

Lemma copy_val_rc h s hs h' s' : RC h hs -> copy_val h s = Ok (h', s') ->
  RC h' (s' :: hs) /\ keep h h' hs /\ (length h <= length h')%nat /\ v_len s' = v_len s /\
  (v_body s' = v_body s \/ v_body s' = length h).
Proof.
  intros R H. unfold copy_val in H. apply obind_ok in H as (h1 & A & H). cbv zeta in H.
  set (s1 := {| v_body := v_body s; v_off := v_off s; v_len := v_len s; v_mk := (0, 0) |}) in *.
  destruct (addref_rc h (v_body s) h1 hs s1 R A eq_refl) as (R1 & K1 & L1 & _).
  apply obind_ok in H as (x & G & H). destruct (is_static x).
  - destruct (unshare_rc _ _ _ _ _ R1 H) as (R2 & K2 & VL & LL & C). split; [exact R2|]. split; [eapply keep_trans; eassumption|].
    split; [lia|]. split; [exact VL|]. destruct C as [[-> _]|[C _]]; [left; reflexivity|right; lia].
  - injection H as <- <-. split; [exact R1|]. split; [exact K1|]. split; [lia|]. auto.
Qed.

Lemma substr_rc h s hs a l h' s' : RC h hs -> substr h s a l = Ok (h', s') -> RC h' (s' :: hs) /\ keep h h' hs.
Proof.
  intros R H. unfold substr in H.
  assert (MK : forall n h' s', (do h1 <- saddref h (v_body s); Ok (h1, {| v_body := v_body s; v_off := u32 (v_off s + a); v_len := n; v_mk := (0, 0) |})) = Ok (h', s') ->
     RC h' (s' :: hs) /\ keep h h' hs).
  { intros n h2 s2 E. apply obind_ok in E as (h1 & A & E). injection E as <- <-.
    match goal with |- RC _ (?t :: _) /\ _ => destruct (addref_rc h (v_body s) h1 hs t R A eq_refl) as (R1 & K1 & _) end. auto. }
  cbv zeta in H. destruct (_ || _).
  - destruct (copy_val_rc _ _ _ _ _ R H) as (R1 & K1 & _). auto.
  - destruct (l >? 0); [destruct (l >? _)|]; eapply MK; exact H.
Qed.

Lemma insert_rc h s pos w self hs h' s' : RC h (s :: hs) -> insert h s pos w self = Ok (h', s') ->
  RC h' (s' :: hs) /\ keep h h' hs /\ (length h <= length h')%nat /\ (v_body s' = v_body s \/ v_body s' = length h).
Proof.
  intros R H. unfold insert in H. destruct (_ && _).
  - injection H as <- <-. split; [eapply RC_body; [|exact R]; reflexivity|]. split; [apply keep_refl|]. auto.
  - apply obind_ok in H as ([h1 s1] & U & H). destruct (unshare_rc _ _ _ _ _ R U) as (R1 & K1 & _ & L1 & C1). cbv zeta in H.
    set (w1 := if self then s1 else w) in *.
    apply obind_ok in H as (ra & NA & H). apply obind_ok in H as (rb & NB & H).
    apply nth_c_sim in NA. apply nth_c_sim in NB. assert (S12 := hsim_trans _ _ _ NA NB).
    destruct (snd ra) as [ap|]; [|discriminate]. destruct (snd rb) as [ae|]; [|discriminate].
    apply obind_ok in H as (m & _ & H). apply obind_ok in H as ([[h2 s2] p] & N2 & H). apply obind_ok in H as ([[h3 s3] q] & N3 & H).
    apply nth_m_sim in N2 as (S2 & E2 & _). apply nth_m_sim in N3 as (S3 & E3 & _).
    assert (S3' := hsim_trans _ _ _ S12 (hsim_trans _ _ _ S2 S3)).
    destruct p as [p|]; [|discriminate]. destruct q as [q|]; [|discriminate].
    apply obind_ok in H as (x & G & H). apply obind_ok in H as (x' & I & H). injection H as <- <-.
    unfold insert_bytes in I. apply obind_ok in I as (a & I & I2). injection I2 as <-. apply body_insert_keeps in I as (I1 & I2 & I3).
    assert (R3 : RC h3 (s3 :: hs)) by (eapply RC_body; [|exact (hsim_RC _ _ _ S3' R1)]; congruence).
    match goal with |- RC (sput _ _ ?y) (?t :: _) /\ _ => destruct (write_rc h3 s3 t hs x y R3 G I3 eq_refl I1 I2) as [R4 K4] end.
    split; [exact R4|]. split; [eapply keep_trans; [exact K1|eapply keep_trans; [apply hsim_keep; exact S3'|exact K4]]|].
    rewrite sput_length. destruct S3' as [SL _]. split; [lia|]. cbn [v_body]. rewrite E3, E2.
    destruct C1 as [[-> _]|[C1 _]]; [left; reflexivity|right; exact C1].
Qed.

Lemma assign_rc h s w hs h' s' : RC h (s :: hs) -> assign_val h s w = Ok (h', s') ->
  RC h' (s' :: hs) /\ keep h h' hs /\ length h' = length h /\ s' = w.
Proof.
  intros R H. unfold assign_val in H. apply obind_ok in H as (h1 & A & H). apply obind_ok in H as (h2 & B & H). injection H as <- <-.
  destruct (addref_rc h _ h1 _ w R A eq_refl) as (R1 & K1 & L1 & _).
  assert (R1' : RC h1 (s :: w :: hs)) by (eapply RC_perm; [apply perm_swap|exact R1]).
  destruct (release_rc _ _ _ _ R1' B) as (R2 & K2 & L2).
  split; [exact R2|]. split; [eapply keep_trans; [exact (keep_tl _ _ _ _ K1)|exact (keep_tl _ _ _ _ K2)]|]. split; [lia|reflexivity].
Qed.

Lemma add_eq_rc h s w self hs h' s' : RC h (s :: hs) -> add_eq h s w self = Ok (h', s') ->
  RC h' (s' :: hs) /\ keep h h' hs /\ (length h <= length h')%nat /\
  (v_body s' = v_body s \/ v_body s' = length h \/ s' = w /\ forall x, sget h (v_body w) = Ok x -> is_static x = false).
Proof.
  intros R H. unfold add_eq in H. apply obind_ok in H as (x & G & H). destruct ((v_len s =? 0) && negb (is_static x)) eqn:C.
  - destruct (assign_rc _ _ _ _ _ _ R H) as (R1 & K1 & L1 & E). split; [exact R1|]. split; [exact K1|]. split; [lia|].
    right. right. split; [exact E|]. intros y Gy. rewrite G in Gy. injection Gy as <-. destruct (is_static x); [rewrite andb_false_r in C; discriminate|reflexivity].
  - destruct (insert_rc _ _ _ _ _ _ _ _ R H) as (R1 & K1 & L1 & E). split; [exact R1|]. split; [exact K1|]. split; [exact L1|]. tauto.
Qed.

Lemma make_rc h data n al hs h' s' : RC h hs -> make h data n al = Ok (h', s') ->
  RC h' (s' :: hs) /\ keep h h' hs /\ (length h <= length h')%nat /\ (v_body s' = 0%nat \/ v_body s' = length h).
Proof.
  intros R H. unfold make in H. destruct (n =? 0).
  - apply obind_ok in H as (h1 & A & H). apply obind_ok in H as (x & G & H). apply obind_ok in H as ([y k] & N & H).
    injection H as <- <-. cbn [fst snd].
    match goal with |- RC _ (?t :: _) /\ _ => destruct (addref_rc h 0 h1 hs t R A eq_refl) as (R1 & K1 & L1 & _) end.
    apply num_chars_arr in N. assert (S1 := sput_sim h1 0 x y G N).
    split; [exact (hsim_RC _ _ _ S1 R1)|]. split; [eapply keep_trans; [exact K1|apply hsim_keep; exact S1]|]. rewrite sput_length. split; [lia|auto].
  - apply obind_ok in H as (y & Y & H). apply obind_ok in H as ([z k] & N & H). injection H as <- <-. cbn [fst snd].
    apply new_sbody_rc in Y as [Y1 Y2]. apply num_chars_arr in N.
    match goal with |- RC (?hh ++ [Some ?y]) (?t :: _) /\ _ => destruct (fresh_rc h hs y t R eq_refl) as [R1 K1] end.
    { unfold stat. rewrite N, Y1, Y2. reflexivity. }
    rewrite app_length. split; [exact R1|]. split; [exact K1|]. split; [lia|auto].
Qed.

Lemma make_lit_rc h bs st hs h' s' : RC h hs -> make_lit h bs st = Ok (h', s') -> RC h' (s' :: hs) /\ keep h h' hs.
Proof.
  intros R H. unfold make_lit in H. destruct bs as [|b bs0].
  - destruct (make_rc _ _ _ _ _ _ _ R H) as (R1 & K1 & _). auto.
  - set (bs := b :: bs0) in *. apply obind_ok in H as (y & Y & H). apply obind_ok in H as ([z k] & N & H). injection H as <- <-. cbn [fst snd].
    apply num_chars_arr in N. apply (fresh_rc h hs z _ R); [reflexivity|]. rewrite N. destruct st.
    + injection Y as <-. reflexivity.
    + apply new_sbody_rc in Y as [Y1 Y2]. unfold stat. rewrite Y1, Y2. reflexivity.
Qed.

Lemma make_char_rc h ch hs h' s' : RC h hs -> make_char h ch = Ok (h', s') -> RC h' (s' :: hs) /\ keep h h' hs.
Proof.
  intros R H. unfold make_char in H. apply obind_ok in H as (y & Y & H). injection H as <- <-.
  apply (fresh_rc h hs y _ R); [reflexivity|]. apply new_sbody_rc in Y as [Y1 Y2]. unfold stat. rewrite Y1, Y2. reflexivity.
Qed.

Lemma local_char_rc h ch hs h' t : RC h hs -> local_char h ch = Ok (h', t) ->
  RC h' (t :: hs) /\ keep h h' hs /\ v_body t = length h /\ length h' = S (length h) /\
  (forall x, sget h' (v_body t) = Ok x -> is_static x = true).
Proof.
  intros R H. unfold local_char in H. apply obind_ok in H as ([y k] & N & H). injection H as <- <-. cbn [fst snd].
  apply num_chars_arr in N.
  match goal with |- RC _ (?t :: _) /\ _ => destruct (fresh_rc h hs y t R eq_refl) as [R1 K1] end.
  { rewrite N. reflexivity. }
  split; [exact R1|]. split; [exact K1|]. cbn [v_body]. split; [reflexivity|]. rewrite app_length. split; [cbn [length]; lia|].
  intros x G. apply sget_arr in G. rewrite arr_app, Nat.eqb_refl in G. injection G as G. unfold is_static. rewrite <- G, N.
  cbn. destruct (Z.gtb_spec (Z.of_nat (length (UTF8Put ch)) + 1) 0); [reflexivity|lia].
Qed.

(** The local body dies; nothing else refers to it. *)
Lemma end_local_rc h t hs h' : RC h (t :: hs) -> end_local h t = Ok h' ->
  (forall s, In s hs -> v_body s <> v_body t) ->
  RC h' hs /\ keep h h' hs /\ length h' = length h.
Proof.
  intros R H NR. unfold end_local in H. apply obind_ok in H as (h1 & D & H). injection H as <-.
  assert (AL : exists a, arr h (v_body t) = Some a) by (destruct R as [_ B]; inversion B; assumption).
  destruct AL as [a AL]. destruct (release_rc _ _ _ _ R D) as ([A B] & K & L).
  assert (LT : (v_body t < length h1)%nat) by (rewrite L; eapply arr_lt; exact AL).
  assert (AR := fun c => arr_none h1 (v_body t) c LT).
  split; [split|split; [|rewrite upd_length; exact L]].
  - intros c a'. rewrite AR. destruct (Nat.eqb_spec c (v_body t)); [discriminate|]. apply A.
  - rewrite Forall_forall in *. intros s Hs. rewrite AR. destruct (Nat.eqb_spec (v_body s) (v_body t)); [destruct (NR s Hs e)|]. apply B, Hs.
  - eapply keep_trans; [exact K|]. unfold keep. rewrite Forall_forall. intros s Hs. unfold obits. rewrite AR.
    destruct (Nat.eqb_spec (v_body s) (v_body t)); [destruct (NR s Hs e)|reflexivity].
Qed.

Lemma RC_lt h hs s : RC h hs -> In s hs -> (v_body s < length h)%nat.
Proof. intros [_ B] I. rewrite Forall_forall in B. destruct (B s I) as [a Ha]. eapply arr_lt; exact Ha. Qed.

Lemma add_eq_char_rc h s ch hs h' s' : RC h (s :: hs) -> add_eq_char h s ch = Ok (h', s') -> RC h' (s' :: hs) /\ keep h h' hs.
Proof.
  intros R H. unfold add_eq_char in H. apply obind_ok in H as ([h1 t] & LC & H). apply obind_ok in H as ([h2 s2] & A & H).
  apply obind_ok in H as (h3 & E & H). injection H as <- <-.
  destruct (local_char_rc _ _ _ _ _ R LC) as (R1 & K1 & B1 & L1 & ST).
  assert (R1' : RC h1 (s :: t :: hs)) by (eapply RC_perm; [apply perm_swap|exact R1]).
  destruct (add_eq_rc _ _ _ _ _ _ _ R1' A) as (R2 & K2 & L2 & C).
  assert (R2' : RC h2 (t :: s2 :: hs)) by (eapply RC_perm; [apply perm_swap|exact R2]).
  assert (LS := RC_lt _ _ s R (or_introl eq_refl)).
  destruct (end_local_rc h2 t (s2 :: hs) h3 R2' E) as (R3 & K3 & _).
  { intros u [<-|Hu].
    - destruct C as [C|[C|[-> C]]].
      + lia.
      + lia.
      + destruct R1 as [_ B]. inversion B as [|? ? [a Ha] _]; subst. destruct (arr_sget _ _ _ Ha) as (x & G & _).
        specialize (ST x G). rewrite (C x G) in ST. discriminate.
    - assert (X := RC_lt _ _ u R (or_intror Hu)). lia. }
  split; [exact R3|]. eapply keep_trans; [exact (keep_tl _ _ _ _ K1)|]. eapply keep_trans; [exact (keep_tl _ _ _ _ K2)|exact (keep_tl _ _ _ _ K3)].
Qed.

Lemma plus_rc h s w hs h' r : RC h hs -> In w hs -> plus h s w = Ok (h', r) ->
  RC h' (r :: hs) /\ keep h h' hs /\ (length h <= length h')%nat /\
  (v_body r = v_body s \/ v_body r = 0%nat \/ (length h <= v_body r)%nat \/ r = w /\ forall x, sget h (v_body w) = Ok x -> is_static x = false).
Proof.
  intros R IW H. unfold plus in H. destruct (_ && _).
  - apply obind_ok in H as (h1 & A & H). injection H as <- <-.
    match goal with |- RC _ (?t :: _) /\ _ => destruct (addref_rc h (v_body s) h1 hs t R A eq_refl) as (R1 & K1 & L1 & _) end.
    split; [exact R1|]. split; [exact K1|]. split; [lia|]. auto.
  - apply obind_ok in H as (r1 & N1 & H). destruct (snd r1) as [cp|]; [|discriminate].
    apply obind_ok in H as (r2 & N2 & H). apply obind_ok in H as (r3 & N3 & H). apply obind_ok in H as (m & _ & H).
    destruct (cp <? 0); [discriminate|]. apply obind_ok in H as ([h4 t] & M & H).
    apply nth_c_sim in N1. apply num_bytes_sim in N2. apply num_bytes_sim in N3.
    assert (S3 := hsim_trans _ _ _ N1 (hsim_trans _ _ _ N2 N3)). assert (R3 := hsim_RC _ _ _ S3 R).
    destruct (make_rc _ _ _ _ _ _ _ R3 M) as (R4 & K4 & L4 & C4).
    destruct (add_eq_rc _ _ _ _ _ _ _ R4 H) as (R5 & K5 & L5 & C5).
    assert (K04 : keep h h4 hs) by (eapply keep_trans; [apply hsim_keep; exact S3|exact K4]). destruct S3 as [SL SA].
    split; [exact R5|]. split; [eapply keep_trans; eassumption|].
    split; [lia|]. destruct C5 as [C5|[C5|[C5 ST]]].
    + destruct C4; [right; left|right; right; left]; lia.
    + right. right. left. lia.
    + subst r. right. right. right. split; [reflexivity|]. intros x Gx.
      unfold keep in K04. rewrite Forall_forall in K04. specialize (K04 w IW).
      destruct R4 as [_ B4]. inversion B4 as [|? ? _ B4']; subst. rewrite Forall_forall in B4'. destruct (B4' w IW) as [a Ha].
      destruct (arr_sget _ _ _ Ha) as (y & Gy & Ey). specialize (ST y Gy).
      unfold obits in K04. rewrite Ha, (sget_arr _ _ _ Gx) in K04. cbn [option_map] in K04. unfold bits in K04. injection K04 as K1 K2 K3 K4'.
      unfold is_static in *. rewrite Ey in ST. rewrite <- K2, <- K3. exact ST.
Qed.

Lemma plus_char_rc h s ch hs h' r : RC h hs -> (0 < length h)%nat -> In s hs -> plus_char h s ch = Ok (h', r) ->
  RC h' (r :: hs) /\ keep h h' hs.
Proof.
  intros R H0 IS H. unfold plus_char in H. apply obind_ok in H as ([h1 t] & LC & H). apply obind_ok in H as ([h2 r2] & A & H).
  apply obind_ok in H as (h3 & E & H). injection H as <- <-.
  destruct (local_char_rc _ _ _ _ _ R LC) as (R1 & K1 & B1 & L1 & ST).
  destruct (plus_rc _ _ _ _ _ _ R1 (or_introl eq_refl) A) as (R2 & K2 & L2 & C).
  assert (R2' : RC h2 (t :: r2 :: hs)) by (eapply RC_perm; [apply perm_swap|exact R2]).
  assert (LS := RC_lt _ _ s R IS).
  destruct (end_local_rc h2 t (r2 :: hs) h3 R2' E) as (R3 & K3 & _).
  { intros u [<-|Hu].
    - destruct C as [C|[C|[C|[-> C]]]]; [lia|lia|lia|].
      destruct R1 as [_ B]. inversion B as [|? ? [a Ha] _]; subst. destruct (arr_sget _ _ _ Ha) as (x & G & _).
      specialize (ST x G). rewrite (C x G) in ST. discriminate.
    - assert (X := RC_lt _ _ u R Hu). lia. }
  split; [exact R3|]. eapply keep_trans; [exact K1|]. eapply keep_trans; [exact (keep_tl _ _ _ _ K2)|exact (keep_tl _ _ _ _ K3)].
Qed.

Lemma times_loop_rc k : forall h res s hs h' r, RC h (res :: hs) -> times_loop k h res s = Ok (h', r) -> RC h' (r :: hs) /\ keep h h' hs.
Proof.
  induction k as [|k IH]; intros h res s hs h' r R H; cbn [times_loop] in H.
  - injection H as <- <-. split; [exact R|apply keep_refl].
  - apply obind_ok in H as ([h1 r1] & A & H). destruct (add_eq_rc _ _ _ _ _ _ _ R A) as (R1 & K1 & _).
    destruct (IH _ _ _ _ _ _ R1 H) as [R2 K2]. split; [exact R2|eapply keep_trans; eassumption].
Qed.
Lemma times_rc h s n hs h' s' r : RC h hs -> times h s n = Ok (h', s', r) ->
  RC h' (r :: hs) /\ keep h h' hs /\ v_body s' = v_body s /\ v_off s' = v_off s /\ v_len s' = v_len s.
Proof.
  intros R H. unfold times in H. apply obind_ok in H as ([[h1 s1] p1] & N1 & H). apply obind_ok in H as ([[h2 s2] p2] & N2 & H).
  apply obind_ok in H as ([h3 res] & M & H). apply obind_ok in H as ([h4 r4] & T & H). injection H as <- <- <-.
  apply nth_m_sim in N1 as (S1 & E1 & E2 & E3). apply nth_m_sim in N2 as (S2 & F1 & F2 & F3). assert (S12 := hsim_trans _ _ _ S1 S2).
  destruct (make_rc _ _ _ _ _ _ _ (hsim_RC _ _ _ S12 R) M) as (R3 & K3 & _). destruct (times_loop_rc _ _ _ _ _ _ _ R3 T) as [R4 K4].
  cbn [fst snd]. split; [exact R4|]. split; [eapply keep_trans; [apply hsim_keep; exact S12|eapply keep_trans; eassumption]|]. split; [congruence|split; congruence].
Qed.

Lemma transform_loop_keeps k : forall m up ep f a n a' n', transform_loop k m up ep f a n = Ok (a', n') ->
  b_refs a' = b_refs a /\ b_static a' = b_static a.
Proof.
  induction k as [|k IH]; intros m up ep f a n a' n'; cbn [transform_loop]; destruct (up <? ep)%nat; intros H; try discriminate;
    try (injection H as <- <-; auto).
  apply obind_ok in H as (r & _ & H). apply obind_ok in H as (bs & _ & H). apply obind_ok in H as (c & _ & H).
  apply obind_ok in H as (up' & _ & H). apply obind_ok in H as (a1 & B & H). apply body_insert_keeps in B as (B1 & B2 & _).
  apply IH in H as [H1 H2]. split; congruence.
Qed.
Lemma transform_keeps x f y : transform x f = Ok y ->
  b_refs (sb_arr y) = b_refs (sb_arr x) /\ b_static (sb_arr y) = b_static (sb_arr x) /\ b_refs (sb_arr x) <= 1.
Proof.
  unfold transform, cassert. destruct (Z.leb_spec (b_refs (sb_arr x)) 1); [|discriminate]. intros E.
  apply obind_ok in E as (m & _ & E). apply obind_ok in E as ([x1 mv] & RZ & E). apply obind_ok in E as ([a n] & T & E).
  apply obind_ok in E as (a2 & I & E). injection E as <-. cbn [fst snd sb_arr] in *.
  apply resize_keeps in RZ as [Z1 Z2]. apply transform_loop_keeps in T as [T1 T2]. apply body_insert_keeps in I as (I1 & I2 & _). cbn in Z1, Z2.
  split; [congruence|]. split; [congruence|exact H].
Qed.
Lemma to_case_rc up h s hs h' s' : RC h (s :: hs) -> to_case up h s = Ok (h', s') -> RC h' (s' :: hs) /\ keep h h' hs.
Proof.
  intros R H. unfold to_case in H. apply obind_ok in H as ([h1 s1] & U & H). destruct (unshare_rc _ _ _ _ _ R U) as (R1 & K1 & _).
  apply obind_ok in H as (x & G & H). apply obind_ok in H as (y & T & H). apply obind_ok in H as (m & _ & H). cbv zeta in H.
  apply obind_ok in H as ([z n] & N & H). injection H as <- <-. cbn [fst snd].
  apply transform_keeps in T as (T1 & T2 & T3). apply num_chars_arr in N.
  assert (NZ : sb_arr z = sb_arr y) by (rewrite N; destruct (forallb _ m); reflexivity).
  match goal with |- RC _ (?t :: _) /\ _ => destruct (write_rc h1 s1 t hs x z R1 G T3 eq_refl) as [R2 K2] end; [congruence|congruence|].
  split; [exact R2|eapply keep_trans; eassumption].
Qed.
Lemma as_case_rc up h s hs h' r : RC h hs -> as_case up h s = Ok (h', r) -> RC h' (r :: hs) /\ keep h h' hs.
Proof.
  intros R H. unfold as_case in H. apply obind_ok in H as ([h1 t] & C & H). destruct (copy_val_rc _ _ _ _ _ R C) as (R1 & K1 & _).
  destruct (to_case_rc _ _ _ _ _ _ R1 H) as [R2 K2]. split; [exact R2|eapply keep_trans; eassumption].
Qed.
Lemma to_json_rc h s hs h' s' : RC h (s :: hs) -> to_json h s = Ok (h', s') -> RC h' (s' :: hs) /\ keep h h' hs.
Proof.
  intros R H. unfold to_json in H. apply obind_ok in H as ([h1 s1] & U & H). destruct (unshare_rc _ _ _ _ _ R U) as (R1 & K1 & _).
  apply obind_ok in H as (x & G & H). apply obind_ok in H as (y & T & H). 
  apply obind_ok in H as ([z n] & N & H). injection H as <- <-. cbn [fst snd].
  apply transform_keeps in T as (T1 & T2 & T3). apply num_chars_arr in N.
  match goal with |- RC _ (?t :: _) /\ _ => destruct (write_rc h1 s1 t hs x z R1 G T3 eq_refl) as [R2 K2] end; [congruence|congruence|].
  split; [exact R2|eapply keep_trans; eassumption].
Qed.
Lemma as_json_rc h s hs h' r : RC h hs -> as_json h s = Ok (h', r) -> RC h' (r :: hs) /\ keep h h' hs.
Proof.
  intros R H. unfold as_json in H. apply obind_ok in H as ([h1 t] & C & H). destruct (copy_val_rc _ _ _ _ _ R C) as (R1 & K1 & _).
  destruct (to_json_rc _ _ _ _ _ R1 H) as [R2 K2]. split; [exact R2|eapply keep_trans; eassumption].
Qed.
Lemma as_utf8_rc h s hs h' s' p : RC h (s :: hs) -> as_utf8 h s = Ok (h', s', p) -> RC h' (s' :: hs) /\ keep h h' hs.
Proof.
  intros R H. unfold as_utf8 in H. apply obind_ok in H as (x & G & H). apply obind_ok in H as ([y n] & N & H). cbv zeta in H. cbn [fst snd] in H.
  apply num_chars_arr in N. assert (S1 := sput_sim h (v_body s) x y G N). assert (R1 := hsim_RC _ _ _ S1 R).
  apply obind_ok in H as ([h2 s2] & C & H). apply obind_ok in H as ([[h3 s3] q] & N3 & H). cbn [fst snd] in H. destruct q; [|discriminate]. injection H as <- <- <-.
  apply nth_m_sim in N3 as (S3 & E3 & _).
  assert (K : RC h2 (s2 :: hs) /\ keep h h2 hs).
  { destruct (_ <? n).
    - destruct (copy_body_rc _ _ _ _ _ R1 C) as (R2 & K2 & _). split; [exact R2|]. eapply keep_trans; [apply hsim_keep; exact S1|exact K2].
    - injection C as <- <-. split; [exact R1|apply hsim_keep; exact S1]. }
  destruct K as [R2 K2]. split; [eapply RC_body; [exact E3|exact (hsim_RC _ _ _ S3 R2)]|]. eapply keep_trans; [exact K2|apply hsim_keep; exact S3].
Qed.
