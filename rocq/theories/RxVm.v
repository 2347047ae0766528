(** The program as a machine: steps, and what it means for a piece of code to
    implement a relation between offsets. *)
From Verif Require Import Base UTF8Model UTF8Spec UTF8Proofs CharTables CharModel CharSpec CharProofs RxCompModel RxModel RxSpec.
Ltac Zify.zify_post_hook ::= Z.div_mod_to_equations.

Definition zl (l : list Z) : Z := Z.of_nat (length l).
Lemma zl_app a b : zl (a ++ b) = zl a + zl b.
Proof. unfold zl. rewrite app_length. lia. Qed.
Lemma zl_cons a b : zl (a :: b) = 1 + zl b.
Proof. unfold zl. cbn [length]. lia. Qed.
Lemma zl_nil : zl [] = 0.
Proof. reflexivity. Qed.
Lemma zl_pos a : 0 <= zl a.
Proof. unfold zl. lia. Qed.

(** ** Offsets *)
Lemma zigzag_eq v : - 2^30 < v < 2^30 -> zigzag v = 2 * Z.abs v + (if v <? 0 then 1 else 0).
Proof. intros H. unfold zigzag, u32. rewrite Z.shiftl_mul_pow2 by lia. change (2^1) with 2. destruct (v <? 0); lia. Qed.
Lemma zagzig_zigzag v : - 2^30 < v < 2^30 -> zagzig (zigzag v) = v.
Proof.
  intros H. rewrite zigzag_eq by assumption. unfold zagzig, s32.
  set (z := 2 * Z.abs v + (if v <? 0 then 1 else 0)).
  assert (Hz : 0 <= z < 2147483648) by (unfold z; destruct (v <? 0); lia).
  rewrite Z.mod_small by lia. destruct (z <? 2147483648) eqn:E; [|lia].
  rewrite Z.shiftr_div_pow2 by lia. change (2^1) with 2.
  assert (Ho : Z.odd z = (v <? 0)).
  { unfold z. rewrite Z.odd_add_mul_2 || (rewrite Z.add_comm, Z.odd_add_mul_2). destruct (v <? 0); reflexivity. }
  rewrite Ho. unfold z. destruct (v <? 0) eqn:N; lia.
Qed.
Lemma zigzag_range v : - 2^30 < v < 2^30 -> 0 <= zigzag v < 2^31.
Proof. intros H. rewrite zigzag_eq by assumption. destruct (v <? 0); lia. Qed.

Lemma small_ucs4 c : 0 <= c < 2^31 -> ucs4 c /\ ~ replacement c.
Proof. intros H. unfold ucs4, replacement. lia. Qed.
Lemma put_len c : 0 <= c < 2^31 -> length (UTF8Put c) = UTF8Len c.
Proof. intros H. apply put_length. apply small_ucs4, H. Qed.
Lemma get_put c rest : 0 <= c < 2^31 -> UTF8Get (UTF8Put c ++ rest) = Ok (c, length (UTF8Put c)).
Proof. intros H. apply get_seq, put_seq; apply small_ucs4, H. Qed.

Lemma skipn_len {A} (a b : list A) n : n = length a -> skipn n (a ++ b) = b.
Proof. intros ->. rewrite skipn_app, skipn_all, Nat.sub_diag. reflexivity. Qed.
Lemma firstn_len {A} (a b : list A) n : n = length a -> firstn n (a ++ b) = a.
Proof. intros ->. rewrite firstn_app, firstn_all, Nat.sub_diag. cbn. apply app_nil_r. Qed.

Lemma rdZ_mid pre x (post : list Z) p : p = zl pre -> rdZ (pre ++ x :: post) p = Ok x.
Proof.
  intros ->. apply rdZ_ok; [apply zl_pos|]. unfold zl. rewrite Nat2Z.id, nth_error_app2, Nat.sub_diag by lia. reflexivity.
Qed.
Lemma get_at_put pre c post p : p = zl pre -> 0 <= c < 2^31 ->
  get_at (pre ++ UTF8Put c ++ post) p = Ok (c, p + zl (UTF8Put c)).
Proof.
  intros -> H. unfold get_at. pose proof (zl_pos pre). destruct (zl pre <? 0) eqn:E; [lia|].
  rewrite skipn_len by (unfold zl; lia). rewrite get_put by assumption. reflexivity.
Qed.
Lemma offset_at_put pre v post p : p = zl pre -> - 2^30 < v < 2^30 -> 0 <= p + v < 2^32 ->
  offset_at (pre ++ offset_bytes v ++ post) p = Ok (p + v, p + zl (offset_bytes v)).
Proof.
  intros Hp Hv Hr. unfold offset_at, offset_bytes. rewrite get_at_put by (assumption || apply zigzag_range, Hv).
  cbn [obind fst snd]. rewrite zagzig_zigzag by assumption. unfold u32. rewrite Z.mod_small by lia. reflexivity.
Qed.
Lemma nbytes_eq l : Forall ok_char l -> nbytes l = zl (flat_map UTF8Put l).
Proof.
  induction 1 as [|c l H _ IH]; [reflexivity|]. cbn [nbytes fold_right flat_map]. fold (nbytes l). rewrite zl_app, IH.
  unfold blen, zl. rewrite put_len by (destruct H; lia). reflexivity.
Qed.
Lemma decode_loop_put l : Forall ok_char l -> forall f post n, n = length (flat_map UTF8Put l) -> (n <= f)%nat ->
  decode_loop f (flat_map UTF8Put l ++ post) n = Ok l.
Proof.
  induction 1 as [|c l H Hl IH]; intros f post n -> Hf; [destruct f; reflexivity|].
  assert (Hc : 0 <= c < 2^31) by (destruct H; lia).
  cbn [flat_map] in *. rewrite app_length in *.
  assert (Hp : (0 < length (UTF8Put c))%nat).
  { rewrite put_len by assumption. rewrite len_norm by (apply small_ucs4; assumption).
    repeat match goal with |- context [if ?b then _ else _] => destruct b end; lia. }
  destruct f as [|f]; [lia|]. rewrite decode_loop_S by lia. rewrite <- app_assoc, get_put by assumption. cbn [obind].
  rewrite skipn_len by reflexivity. rewrite (IH f post) by lia. reflexivity.
Qed.
Lemma text_at_put pre l post p : p = zl pre -> Forall ok_char l -> nbytes l < 2^31 ->
  text_at (pre ++ string_bytes l ++ post) p = Ok (l, p + zl (string_bytes l)).
Proof.
  intros -> Hl Hn. unfold text_at, string_bytes. rewrite <- app_assoc.
  pose proof (nbytes_eq l Hl) as E. pose proof (zl_pos (flat_map UTF8Put l)).
  rewrite get_at_put by lia. cbn [obind fst snd].
  rewrite app_assoc, skipn_len by (rewrite app_length; unfold zl; lia).
  rewrite decode_loop_put by (assumption || (rewrite E; unfold zl; lia)). cbn [obind]. rewrite zl_app. do 2 f_equal. lia.
Qed.

(** ** Steps *)
Section Vm.
Variable t : list Z.
Notation tl := (zl t).

Definition bol (i : Z) : bool := (i =? 0) || (char_at t (i - 1) =? 10).
Definition eol (i : Z) : bool := (i =? len t) || (char_at t i =? 10).

(** Without consuming, at offset i *)
Inductive eps (P : list Z) (i : Z) : Z -> Z -> Prop :=
| eps_bol s n : decode P s = Ok (IBOL n) -> bol i = true -> eps P i s n
| eps_eol s n : decode P s = Ok (IEOL n) -> eol i = true -> eps P i s n
| eps_jump s a : decode P s = Ok (IJump a) -> eps P i s a
| eps_alt s a n : decode P s = Ok (ISplit a n) -> eps P i s a
| eps_next s a n : decode P s = Ok (ISplit a n) -> eps P i s n.
Inductive step (P : list Z) : Z * Z -> Z * Z -> Prop :=
| step_eps i s s' : eps P i s s' -> step P (s, i) (s', i)
| step_eat i s x s' : decode P s = Ok x -> consume x (char_at t i) = Ok (Some (Some s')) -> step P (s, i) (s', i + 1).
Inductive steps (P : list Z) : nat -> Z * Z -> Z * Z -> Prop :=
| steps_0 a : steps P O a a
| steps_S n a b c : step P a b -> steps P n b c -> steps P (S n) a c.
Definition reach P a b := exists n, steps P n a b.

Lemma reach_refl P a : reach P a a. Proof. exists O. constructor. Qed.
Lemma reach_step P a b c : step P a b -> reach P b c -> reach P a c.
Proof. intros H [n Hn]. exists (S n). econstructor; eassumption. Qed.
Lemma steps_app P n a b c m : steps P n a b -> steps P m b c -> steps P (n + m) a c.
Proof. induction 1; intros; [assumption|cbn; econstructor; eauto]. Qed.
Lemma reach_trans P a b c : reach P a b -> reach P b c -> reach P a c.
Proof. intros [n H] [m H']. exists (n + m)%nat. eapply steps_app; eassumption. Qed.

(** Instructions of the region *)
Definition simple (x : instr) : Prop :=
  match x with
  | IChar _ _ | IAny _ | IBOL _ | IEOL _ | IJump _ | ISplit _ _ => True
  | IClass _ l _ | IProp l _ => l <> []
  | _ => False
  end.
Definition inside (P : list Z) (p q s : Z) : Prop := p <= s < q /\ exists x, decode P s = Ok x /\ simple x.
Definition pos (i : Z) := 0 <= i <= tl.
Definition small (P : list Z) := zl P < 2^29.

(** The code [X], wherever it is, does what [R] says: it leads from its start
    at i to its end at j exactly if [R i j], and nowhere else. *)
Definition impl (R : Z -> Z -> Prop) (X : list Z) : Prop :=
  forall pre post P, P = pre ++ X ++ post -> small P ->
    (forall i j, pos i -> R i j -> pos j /\ reach P (zl pre, i) (zl pre + zl X, j)) /\
    (forall n i s k, pos i -> steps P n (zl pre, i) (s, k) ->
       inside P (zl pre) (zl pre + zl X) s \/
       exists m j, (m <= n)%nat /\ R i j /\ pos j /\ steps P m (zl pre + zl X, j) (s, k)).

Lemma impl_ext R R' X : (forall i j, R i j <-> R' i j) -> impl R X -> impl R' X.
Proof.
  intros E H pre post P HP HS. destruct (H pre post P HP HS) as [F B]. split.
  - intros i j Hi Hr. apply F; [assumption|]. apply E, Hr.
  - intros n i s k Hi Hn. destruct (B n i s k Hi Hn) as [L | (m & j & A1 & A2 & A3 & A4)]; [left; assumption|].
    right. exists m, j. split; [assumption|]. split; [apply E, A2|]. split; assumption.
Qed.

Lemma impl_nil : impl eq [].
Proof.
  intros pre post P -> HS. rewrite zl_nil, Z.add_0_r. split.
  - intros i j Hi <-. split; [assumption|apply reach_refl].
  - intros n i s k Hi Hn. right. exists n, i. repeat split; try lia; try apply Hi. assumption.
Qed.

Lemma inside_sub P p q p' q' s : p' <= p -> q <= q' -> inside P p q s -> inside P p' q' s.
Proof. intros A B [C D]. split; [lia|exact D]. Qed.

Lemma impl_app R1 R2 X Y : impl R1 X -> impl R2 Y -> impl (fun i j => exists k, R1 i k /\ R2 k j) (X ++ Y).
Proof.
  intros H1 H2 pre post P HP HS.
  destruct (H1 pre (Y ++ post) P ltac:(rewrite HP, <- app_assoc; reflexivity) HS) as [F1 B1].
  destruct (H2 (pre ++ X) post P ltac:(rewrite HP, <- !app_assoc; reflexivity) HS) as [F2 B2].
  rewrite zl_app in F2, B2 |- *. rewrite Z.add_assoc.
  pose proof (zl_pos X); pose proof (zl_pos Y). split.
  - intros i j Hi (k & A & B). destruct (F1 i k Hi A) as [Hk Rk]. destruct (F2 k j Hk B) as [Hj Rj].
    split; [assumption|]. eapply reach_trans; eassumption.
  - intros n i s k Hi Hn. destruct (B1 n i s k Hi Hn) as [L | (m & j & A1 & A2 & A3 & A4)].
    + left. apply (inside_sub P (zl pre) (zl pre + zl X)); [lia..|assumption].
    + destruct (B2 m j s k A3 A4) as [L | (m' & j' & C1 & C2 & C3 & C4)].
      * left. apply (inside_sub P (zl pre + zl X) (zl pre + zl X + zl Y)); [lia..|assumption].
      * right. exists m', j'. split; [lia|]. split; [exists j; split; assumption|]. split; assumption.
Qed.

(** An instruction that consumes one character *)
Lemma impl_one R x X :
  (forall pre post P, P = pre ++ X ++ post -> small P -> decode P (zl pre) = Ok (x (zl pre + zl X)) /\ simple (x (zl pre + zl X))) ->
  X <> [] ->
  (forall n, match x n with IChar _ _ | IAny _ | IClass _ _ _ | IProp _ _ => True | _ => False end) ->
  (forall n i j, pos i -> (R i j <-> j = i + 1 /\ i < tl /\ consume (x n) (char_at t i) = Ok (Some (Some n)))) ->
  (forall n i n', pos i -> consume (x n) (char_at t i) = Ok (Some (Some n')) -> n' = n /\ i < tl) ->
  impl R X.
Proof.
  intros HD HX Hk HR Hn pre post P HP HS. destruct (HD pre post P HP HS) as [E S].
  set (p := zl pre) in *. set (q := p + zl X) in *.
  assert (Hlen : 0 < zl X) by (destruct X; [contradiction|rewrite zl_cons; pose proof (zl_pos X); lia]).
  split.
  - intros i j Hi Hr. apply (HR q i j Hi) in Hr. destruct Hr as (-> & Hl & C). split; [unfold pos in *; lia|].
    eapply reach_step; [|apply reach_refl]. eapply step_eat; eassumption.
  - intros n i s k Hi Hs. inversion Hs as [a|n' a b c St Rest]; subst.
    + left. split; [unfold q; lia|]. eexists. split; [exact E|exact S].
    + right. specialize (Hk q). inversion St as [i' s' s'' He|i' s' x' s'' He Hc]; subst.
      * exfalso. destruct (x q) eqn:Ex; try contradiction; inversion He; congruence.
      * assert (x' = x q) by congruence. subst x'. destruct (Hn q i s'' Hi Hc) as [-> Hl].
        exists n', (i + 1). split; [lia|]. split; [apply (HR q i (i + 1) Hi); auto|]. split; [unfold pos in *; lia|]. exact Rest.
Qed.

Lemma char_at_has i c : pos i -> (has t i c <-> i < tl /\ char_at t i = c).
Proof.
  intros Hi. unfold has, char_at, pos, zl in *. destruct (i =? Z.of_nat (length t)) eqn:E.
  - split; [|lia]. intros [_ H]. assert (nth_error t (Z.to_nat i) <> None) by congruence. apply nth_error_Some in H0. lia.
  - assert (Hl : (Z.to_nat i < length t)%nat) by lia. split.
    + intros [_ H]. split; [lia|]. apply (nth_error_nth _ _ _ H).
    + intros [_ <-]. split; [lia|]. apply nth_error_nth'. exact Hl.
Qed.
Lemma char_at_end i : pos i -> ~ i < tl -> char_at t i = 0.
Proof. intros Hi H. unfold char_at, pos, zl in *. destruct (i =? Z.of_nat (length t)) eqn:E; [reflexivity|lia]. Qed.

Ltac decode_tac :=
  unfold decode; rewrite <- ?app_assoc; cbn [app].

Lemma small_app P pre X post : P = pre ++ X ++ post -> small P -> 0 <= zl pre /\ 0 <= zl X /\ 0 <= zl post /\ zl pre + zl X + zl post < 2^29.
Proof. intros -> H. unfold small in H. rewrite !zl_app in H. pose proof (zl_pos pre); pose proof (zl_pos X); pose proof (zl_pos post). lia. Qed.

Lemma snoc_app {A} (a : list A) x b : a ++ x :: b = (a ++ [x]) ++ b.
Proof. rewrite <- app_assoc. reflexivity. Qed.
Lemma zl_snoc a x : zl (a ++ [x]) = zl a + 1.
Proof. rewrite zl_app. reflexivity. Qed.

Lemma decode_char pre c post P : P = pre ++ (67 :: UTF8Put c) ++ post -> ok_char c ->
  decode P (zl pre) = Ok (IChar c (zl pre + zl (67 :: UTF8Put c))).
Proof.
  intros -> Hc. unfold decode. cbn [app]. rewrite rdZ_mid by reflexivity. cbn [obind].
  change (67 =? 67) with true. cbn [obind].
  rewrite snoc_app. rewrite (get_at_put (pre ++ [67])) by (rewrite ?zl_snoc; destruct Hc; lia).
  cbn [obind fst snd]. rewrite zl_cons. do 2 f_equal. lia.
Qed.
Lemma impl_char c : ok_char c -> impl (fun i j => j = i + 1 /\ has t i c) (67 :: UTF8Put c).
Proof.
  intros Hc. apply (impl_one _ (IChar c)).
  - intros pre post P HP HS. split; [apply (decode_char pre c post); assumption|exact I].
  - discriminate.
  - intros; exact I.
  - intros n i j Hi. rewrite (char_at_has i c Hi). cbn [consume]. split.
    + intros (-> & Hl & ->). rewrite Z.eqb_refl. auto.
    + intros (-> & Hl & E). destruct (char_at t i =? c) eqn:Ec; [|discriminate]. split; [reflexivity|]. split; [assumption|lia].
  - intros n i n' Hi E. cbn [consume] in E. destruct (char_at t i =? c) eqn:Ec; [|discriminate]. split; [congruence|].
    destruct (Z_lt_dec i tl); [assumption|]. rewrite char_at_end in Ec by assumption. destruct Hc; lia.
Qed.
Lemma impl_any : impl (fun i j => j = i + 1 /\ exists c, has t i c /\ c <> 0) [46].
Proof.
  apply (impl_one _ IAny).
  - intros pre post P HP HS. split; [|exact I]. subst P. unfold decode. cbn [app]. rewrite rdZ_mid by reflexivity. reflexivity.
  - discriminate.
  - intros; exact I.
  - intros n i j Hi. cbn [consume]. split.
    + intros (-> & c & Hh & Hc). apply char_at_has in Hh; [|assumption]. destruct Hh as [Hl E].
      split; [reflexivity|]. split; [assumption|]. rewrite E. destruct (c =? 0) eqn:E0; [lia|reflexivity].
    + intros (-> & Hl & E). split; [reflexivity|]. exists (char_at t i). split; [apply char_at_has; auto|].
      destruct (char_at t i =? 0) eqn:E0; [discriminate|lia].
  - intros n i n' Hi E. cbn [consume] in E. destruct (char_at t i =? 0) eqn:E0; [discriminate|]. split; [congruence|].
    destruct (Z_lt_dec i tl); [assumption|]. rewrite char_at_end in E0 by assumption. lia.
Qed.

(** Instructions that consume nothing *)
Lemma impl_test R b x X :
  (forall pre post P, P = pre ++ X ++ post -> small P -> decode P (zl pre) = Ok (x (zl pre + zl X))) ->
  X <> [] ->
  (forall n, simple (x n)) ->
  (forall P i s n s', decode P s = Ok (x n) -> (eps P i s s' <-> b i = true /\ s' = n)) ->
  (forall n c s', consume (x n) c <> Ok (Some (Some s'))) ->
  (forall i j, pos i -> (R i j <-> i = j /\ b i = true)) ->
  impl R X.
Proof.
  intros HD HX Hs He Hc HR pre post P HP HS. specialize (HD pre post P HP HS).
  assert (Hlen : 0 < zl X) by (destruct X; [contradiction|rewrite zl_cons; pose proof (zl_pos X); lia]).
  split.
  - intros i j Hi Hr. apply (HR i j Hi) in Hr. destruct Hr as [<- Hb]. split; [assumption|].
    eapply reach_step; [|apply reach_refl]. apply step_eps. apply (He P i _ _ _ HD). auto.
  - intros n i s k Hi Hn. inversion Hn as [a|n' a d c St Rest]; subst.
    + left. split; [lia|]. eexists. split; [exact HD|apply Hs].
    + right. inversion St as [i' s' s'' Hep|i' s' x' s'' Hx Hcc]; subst.
      * apply (He _ i _ _ s'' HD) in Hep. destruct Hep as [Hb ->].
        exists n', i. split; [lia|]. split; [apply HR; auto|]. split; assumption.
      * rewrite HD in Hx. injection Hx as <-. exfalso. exact (Hc _ _ _ Hcc).
Qed.
Lemma impl_bol : impl (fun i j => i = j /\ (i = 0 \/ has t (i - 1) 10)) [94].
Proof.
  apply (impl_test _ bol IBOL).
  - intros pre post P -> HS. unfold decode. cbn [app]. rewrite rdZ_mid by reflexivity. reflexivity.
  - discriminate.
  - intros; exact I.
  - intros P i s n s' E. split.
    + intros H. inversion H; subst; try congruence. split; [assumption|congruence].
    + intros [Hb ->]. apply eps_bol; assumption.
  - intros; discriminate.
  - intros i j Hi. unfold bol. rewrite orb_true_iff, !Z.eqb_eq.
    split; intros [-> H]; (split; [reflexivity|]); destruct H as [H|H]; auto.
    + right. destruct H as [H0 H]. apply char_at_has; [unfold pos in *; lia|split; assumption].
    + destruct (Z.eq_dec j 0); [auto|]. right. apply char_at_has; unfold pos in *; [lia|split; [lia|assumption]].
Qed.
Lemma impl_eol : impl (fun i j => i = j /\ (i = Z.of_nat (length t) \/ has t i 10)) [36].
Proof.
  apply (impl_test _ eol IEOL).
  - intros pre post P -> HS. unfold decode. cbn [app]. rewrite rdZ_mid by reflexivity. reflexivity.
  - discriminate.
  - intros; exact I.
  - intros P i s n s' E. split.
    + intros H. inversion H; subst; try congruence. split; [assumption|congruence].
    + intros [Hb ->]. apply eps_eol; assumption.
  - intros; discriminate.
  - intros i j Hi. unfold eol, len. rewrite orb_true_iff, !Z.eqb_eq.
    split; intros [-> H]; (split; [reflexivity|]); destruct H as [H|H]; auto.
    + right. apply char_at_has in H; [apply H|assumption].
    + destruct (Z.eq_dec j (Z.of_nat (length t))); [auto|]. right. apply char_at_has; unfold pos, zl in *; [assumption|split; [lia|assumption]].
Qed.

(** Classes and properties *)
Lemma decode_text op pre l post P : P = pre ++ (op :: string_bytes l) ++ post -> small P -> Forall ok_char l ->
  text_at P (zl pre + 1) = Ok (l, zl pre + zl (op :: string_bytes l)).
Proof.
  intros HP HS Hl. destruct (small_app _ _ _ _ HP HS) as (A1 & A2 & A3 & A4). subst P. cbn [app]. rewrite snoc_app, text_at_put.
  - rewrite zl_cons. do 2 f_equal. lia.
  - rewrite zl_snoc. reflexivity.
  - assumption.
  - rewrite nbytes_eq by assumption. rewrite zl_cons in A4. unfold string_bytes in A4. rewrite zl_app in A4.
    pose proof (zl_pos (UTF8Put (nbytes l))). lia.
Qed.
Definition class_text (l : list (Z * Z)) : list Z := flat_map (fun x => [fst x; snd x]) l.
Lemma in_class_ranges c l : in_class c (class_text l) = true <-> in_ranges l c.
Proof.
  unfold in_ranges. induction l as [|[lo hi] l IH]; cbn [class_text flat_map app in_class fst snd].
  - split; [discriminate|]. intros (lo & hi & [] & _).
  - fold (class_text l). rewrite orb_true_iff, IH. split.
    + intros [H|(a & b & Hi & H)]; [exists lo, hi; split; [left; reflexivity|lia]|exists a, b; split; [right; exact Hi|exact H]].
    + intros (a & b & [E|Hi] & H); [left; assert (lo = a /\ hi = b) by (split; congruence); lia|right; eauto].
Qed.
Lemma class_text_ok l : Forall (fun x => ok_char (fst x) /\ ok_char (snd x)) l -> Forall ok_char (class_text l).
Proof. induction 1 as [|x l [A B] _ IH]; cbn; [constructor|]. constructor; [assumption|]. constructor; assumption. Qed.
Lemma impl_class (neg : bool) l : l <> [] -> Forall (fun x => ok_char (fst x) /\ ok_char (snd x)) l ->
  impl (fun i j => j = i + 1 /\ exists c, has t i c /\ c <> 0 /\ (if neg : bool then ~ in_ranges l c else in_ranges l c))
    ((if neg : bool then 78 else 76) :: string_bytes (class_text l)).
Proof.
  intros Hne Hl. apply class_text_ok in Hl.
  assert (Hne' : class_text l <> []) by (destruct l; [contradiction|discriminate]).
  assert (Hlen : (0 <? length (class_text l))%nat = true) by (destruct (class_text l); [contradiction|reflexivity]).
  assert (HC : forall n c, consume (IClass neg (class_text l) n) c =
                 Ok (Some (if (c =? 0) then None else if Bool.eqb (in_class c (class_text l)) (negb neg) then Some n else None))).
  { intros n c. cbn [consume]. rewrite Hlen. cbn [cassert]. destruct (c =? 0); reflexivity. }
  apply (impl_one _ (IClass neg (class_text l))).
  - intros pre post P HP HS. split; [|exact Hne'].
    pose proof (decode_text _ _ _ _ _ HP HS Hl) as E. subst P. unfold decode. cbn [app] in *. rewrite rdZ_mid by reflexivity. cbn [obind].
    destruct neg; cbn [Z.eqb Pos.eqb]; rewrite E; reflexivity.
  - destruct neg; discriminate.
  - intros; exact I.
  - intros n i j Hi. rewrite HC. split.
    + intros (-> & c & Hh & Hc & Hm). apply char_at_has in Hh; [|assumption]. destruct Hh as [Hl' ->].
      split; [reflexivity|]. split; [assumption|]. destruct (c =? 0) eqn:E0; [lia|].
      pose proof (in_class_ranges c l) as Q. destruct neg, (in_class c (class_text l)); cbn; try reflexivity; exfalso; tauto || (destruct Q as [Q1 Q2]; auto; discriminate (Q2 Hm)).
    + intros (-> & Hl' & E). split; [reflexivity|]. exists (char_at t i). split; [apply char_at_has; auto|].
      destruct (char_at t i =? 0) eqn:E0; [discriminate|]. split; [lia|].
      pose proof (in_class_ranges (char_at t i) l) as Q. destruct neg, (in_class (char_at t i) (class_text l)); cbn in E; try discriminate.
      * intros H. apply Q in H. discriminate.
      * apply Q. reflexivity.
  - intros n i n' Hi E. rewrite HC in E. destruct (char_at t i =? 0) eqn:E0; [discriminate|].
    destruct (Bool.eqb _ _); [|discriminate]. split; [congruence|].
    destruct (Z_lt_dec i tl); [assumption|]. rewrite char_at_end in E0 by assumption. lia.
Qed.
Lemma memo0 : 0 <= 0 < Z.of_nat (length UCS4_DigitRanges).
Proof. vm_compute. split; [discriminate|reflexivity]. Qed.
Lemma digit_test c : exists d, UCS4Digit 0 c = Ok d /\ ((fst d >=? 0) = true <-> is_digit c).
Proof.
  destruct (ucs4digit_spec 0 c memo0) as (v & w & E & S & R & _). exists (v, w). split; [exact E|]. cbn [fst]. split.
  - intros H. exists v. split; [exact S|lia].
  - intros (v' & S' & H). destruct S as [D|[N ->]]; destruct S' as [D'|[N' E']].
    + pose proof (digit_value_range _ _ _ digit_ok D). lia.
    + lia.
    + exfalso. exact (N _ D').
    + lia.
Qed.
Lemma property_spec p c : p = 115 \/ p = 100 \/ p = 104 -> exists b, has_property c [p] = Ok b /\ (b = true <-> in_property p c).
Proof.
  intros Hp. unfold has_property, in_property. destruct (digit_test c) as (d & -> & Hd). cbn [obind].
  destruct Hp as [-> | [-> | ->]]; cbn [Z.eqb Pos.eqb].
  - exists (UCS4IsWhite c). split; [reflexivity|]. split; [auto|]. intros [[_ H]|[[H _]|[H _]]]; [assumption|discriminate..].
  - exists (fst d >=? 0). split; [reflexivity|]. rewrite Hd. split; [auto|]. intros [[H _]|[[_ H]|[H _]]]; [discriminate|assumption|discriminate].
  - eexists. split; [reflexivity|]. rewrite !orb_true_iff, Hd, !andb_true_iff. split.
    + intros H. right. right. split; [reflexivity|]. destruct H as [[H|H]|H]; [left; exact H|right; left; lia|right; right; lia].
    + intros [[H _]|[[H _]|[_ H]]]; [discriminate..|]. destruct H as [H|[H|H]]; [auto|left; right; lia|right; lia].
Qed.
Lemma impl_prop p : p = 115 \/ p = 100 \/ p = 104 ->
  impl (fun i j => j = i + 1 /\ exists c, has t i c /\ c <> 0 /\ in_property p c) (80 :: string_bytes [p]).
Proof.
  intros Hp.
  assert (Hl : Forall ok_char [p]) by (repeat constructor; lia).
  assert (HC : forall n c, exists b, (b = true <-> in_property p c) /\ consume (IProp [p] n) c =
                 Ok (Some (if (c =? 0) then None else if b : bool then Some n else None))).
  { intros n c. destruct (property_spec p c Hp) as (b & E & Hb). exists b. split; [exact Hb|]. cbn [consume].
    change (0 <? length [p])%nat with true. cbn [cassert]. rewrite E. destruct (c =? 0); reflexivity. }
  apply (impl_one _ (IProp [p])).
  - intros pre post P HP HS. split; [|discriminate].
    pose proof (decode_text _ _ _ _ _ HP HS Hl) as E. subst P. unfold decode. cbn [app] in *. rewrite rdZ_mid by reflexivity. cbn [obind].
    cbn [Z.eqb Pos.eqb]; rewrite E; reflexivity.
  - discriminate.
  - intros; exact I.
  - intros n i j Hi. destruct (HC n (char_at t i)) as (b & Hb & ->). split.
    + intros (-> & c & Hh & Hc & Hm). apply char_at_has in Hh; [|assumption]. destruct Hh as [Hl' <-].
      split; [reflexivity|]. split; [assumption|]. destruct (char_at t i =? 0) eqn:E0; [lia|]. apply Hb in Hm. subst b. reflexivity.
    + intros (-> & Hl' & E). split; [reflexivity|]. exists (char_at t i). split; [apply char_at_has; auto|].
      destruct (char_at t i =? 0) eqn:E0; [discriminate|]. split; [lia|]. destruct b; [|discriminate]. apply Hb. reflexivity.
  - intros n i n' Hi E. destruct (HC n (char_at t i)) as (b & Hb & Ec). rewrite Ec in E. destruct (char_at t i =? 0) eqn:E0; [discriminate|].
    destruct b; [|discriminate]. split; [congruence|].
    destruct (Z_lt_dec i tl); [assumption|]. rewrite char_at_end in E0 by assumption. lia.
Qed.

Ltac norm_app := repeat (rewrite <- app_assoc || rewrite <- app_comm_cons); try reflexivity.

(** Splits and jumps *)
Lemma decode_split pre v post P : P = pre ++ (65 :: offset_bytes v) ++ post -> small P -> 0 <= zl pre + 1 + v <= zl P ->
  decode P (zl pre) = Ok (ISplit (zl pre + 1 + v) (zl pre + 1 + zl (offset_bytes v))).
Proof.
  intros HP HS Hv. destruct (small_app _ _ _ _ HP HS) as (A1 & A2 & A3 & A4). unfold small in HS. subst P. unfold decode. cbn [app] in *.
  rewrite rdZ_mid by reflexivity. cbn [obind Z.eqb Pos.eqb]. rewrite snoc_app, offset_at_put; [reflexivity|rewrite zl_snoc; reflexivity|lia|lia].
Qed.
Lemma decode_jump pre v post P : P = pre ++ (74 :: offset_bytes v) ++ post -> small P -> 0 <= zl pre + 1 + v <= zl P ->
  decode P (zl pre) = Ok (IJump (zl pre + 1 + v)).
Proof.
  intros HP HS Hv. destruct (small_app _ _ _ _ HP HS) as (A1 & A2 & A3 & A4). unfold small in HS. subst P. unfold decode. cbn [app] in *.
  rewrite rdZ_mid by reflexivity. cbn [obind Z.eqb Pos.eqb]. rewrite snoc_app, offset_at_put; [reflexivity|rewrite zl_snoc; reflexivity|lia|lia].
Qed.
Lemma step_split P s a n i c : decode P s = Ok (ISplit a n) -> step P (s, i) c -> c = (a, i) \/ c = (n, i).
Proof.
  intros D H. inversion H as [i' s' s'' He|i' s' x s'' Hx Hc]; subst.
  - inversion He; subst; try congruence;
      rewrite D in *; match goal with E : Ok _ = Ok _ |- _ => injection E as -> -> end; auto.
  - rewrite D in Hx. injection Hx as <-. discriminate.
Qed.
Lemma step_jump P s a i c : decode P s = Ok (IJump a) -> step P (s, i) c -> c = (a, i).
Proof.
  intros D H. inversion H as [i' s' s'' He|i' s' x s'' Hx Hc]; subst.
  - inversion He; subst; try congruence; rewrite D in *; match goal with E : Ok _ = Ok _ |- _ => injection E as -> end; auto.
  - rewrite D in Hx. injection Hx as <-. discriminate.
Qed.
Lemma inside_split P p q s a n : decode P s = Ok (ISplit a n) -> p <= s < q -> inside P p q s.
Proof. intros D H. split; [exact H|]. eexists. split; [exact D|exact I]. Qed.
Lemma inside_jump P p q s a : decode P s = Ok (IJump a) -> p <= s < q -> inside P p q s.
Proof. intros D H. split; [exact H|]. eexists. split; [exact D|exact I]. Qed.

Lemma impl_opt R X v : v = zl (offset_bytes v) + zl X -> impl R X ->
  impl (fun i j => i = j \/ R i j) (65 :: offset_bytes v ++ X).
Proof.
  intros Hv H pre post P HP HS.
  destruct (small_app _ _ _ _ HP HS) as (A1 & A2 & A3 & A4).
  set (o := offset_bytes v) in *. rewrite zl_cons, zl_app in *. pose proof (zl_pos o); pose proof (zl_pos X).
  assert (HP' : P = (pre ++ 65 :: o) ++ X ++ post) by (rewrite HP; norm_app).
  assert (HPl : zl P = zl pre + (1 + (zl o + zl X)) + zl post) by (rewrite HP', !zl_app, zl_cons; lia).
  destruct (H _ _ _ HP' HS) as [F B]. rewrite zl_app, zl_cons in F, B.
  assert (D : decode P (zl pre) = Ok (ISplit (zl pre + 1 + v) (zl pre + 1 + zl o))).
  { apply (decode_split pre v (X ++ post)); [|assumption|lia]. rewrite HP; norm_app. }
  replace (zl pre + 1 + v) with (zl pre + (1 + (zl o + zl X))) in D by lia.
  replace (zl pre + 1 + zl o) with (zl pre + (1 + zl o)) in D by lia.
  replace (zl pre + (1 + zl o) + zl X) with (zl pre + (1 + (zl o + zl X))) in F, B by lia.
  split.
  - intros i j Hi [<-|Hr].
    + split; [assumption|]. eapply reach_step; [|apply reach_refl]. apply step_eps. eapply eps_alt, D.
    + destruct (F i j Hi Hr) as [Hj Rj]. split; [assumption|]. eapply reach_step; [|exact Rj]. apply step_eps. eapply eps_next, D.
  - intros n i s k Hi Hn. inversion Hn as [a|n' a b c St Rest]; subst a; [subst s k|subst n c].
    + left. apply (inside_split _ _ _ _ _ _ D). lia.
    + destruct (step_split _ _ _ _ _ _ D St) as [-> | ->].
      * right. exists n', i. split; [lia|]. split; [left; reflexivity|]. split; assumption.
      * destruct (B n' i s k Hi Rest) as [L | (m & j & C1 & C2 & C3 & C4)].
        -- left. eapply inside_sub; [| |exact L]; lia.
        -- right. exists m, j. split; [lia|]. split; [right; assumption|]. split; assumption.
Qed.

Lemma impl_alt R1 R2 X Y v w : v = zl (offset_bytes v) + zl X + 1 + zl (offset_bytes w) -> w = zl (offset_bytes w) + zl Y ->
  impl R1 X -> impl R2 Y ->
  impl (fun i j => R1 i j \/ R2 i j) (65 :: offset_bytes v ++ X ++ 74 :: offset_bytes w ++ Y).
Proof.
  intros Hv Hw H1 H2 pre post P HP HS.
  destruct (small_app _ _ _ _ HP HS) as (A1 & A2 & A3 & A4).
  set (o := offset_bytes v) in *. set (u := offset_bytes w) in *.
  repeat (rewrite zl_cons in * || rewrite zl_app in * ). pose proof (zl_pos o); pose proof (zl_pos X); pose proof (zl_pos u); pose proof (zl_pos Y).
  assert (HP1 : P = (pre ++ 65 :: o) ++ X ++ (74 :: u ++ Y) ++ post).
  { rewrite HP; norm_app. }
  assert (HP2 : P = (pre ++ 65 :: o ++ X ++ 74 :: u) ++ Y ++ post).
  { rewrite HP; norm_app. }
  assert (HP3 : P = (pre ++ 65 :: o ++ X) ++ (74 :: u) ++ Y ++ post).
  { rewrite HP; norm_app. }
  assert (HPl : zl P = zl pre + (1 + (zl o + (zl X + (1 + (zl u + zl Y))))) + zl post).
  { rewrite HP2. repeat (rewrite zl_cons in * || rewrite zl_app in * ). lia. }
  destruct (H1 _ _ _ HP1 HS) as [F1 B1]. destruct (H2 _ _ _ HP2 HS) as [F2 B2].
  assert (D : decode P (zl pre) = Ok (ISplit (zl pre + 1 + v) (zl pre + 1 + zl o))).
  { apply (decode_split pre v (X ++ 74 :: u ++ Y ++ post)); [|assumption|lia]. rewrite HP; norm_app. }
  pose proof (decode_jump _ w _ P HP3 HS) as D2.
  repeat (rewrite zl_cons in * || rewrite zl_app in * ). specialize (D2 ltac:(lia)).
  set (q := zl pre + (1 + (zl o + (zl X + (1 + (zl u + zl Y)))))).
  set (pX := zl pre + (1 + zl o)) in *. set (pJ := pX + zl X) in *. set (pY := pJ + 1 + zl u).
  replace (zl pre + 1 + v) with pY in D by (unfold pY, pJ, pX; lia).
  replace (zl pre + 1 + zl o) with pX in D by (unfold pX; lia).
  replace (zl pre + (1 + (zl o + (zl X + (1 + zl u))))) with pY in F2, B2 by (unfold pY, pJ, pX; lia).
  replace (pY + zl Y) with q in F2, B2 by (unfold q, pY, pJ, pX; lia).
  replace (zl pre + (1 + (zl o + zl X))) with pJ in D2 by (unfold pJ, pX; lia).
  replace (pJ + 1 + w) with q in D2 by (unfold q, pJ, pX; lia).
  fold q. split.
  - intros i j Hi [Hr|Hr].
    + destruct (F1 i j Hi Hr) as [Hj Rj]. split; [assumption|]. eapply reach_step; [apply step_eps; eapply eps_next, D|].
      eapply reach_trans; [exact Rj|]. eapply reach_step; [apply step_eps; eapply eps_jump, D2|apply reach_refl].
    + destruct (F2 i j Hi Hr) as [Hj Rj]. split; [assumption|]. eapply reach_step; [apply step_eps; eapply eps_alt, D|exact Rj].
  - intros n i s k Hi Hn. inversion Hn as [a|n' a b c St Rest]; subst a; [subst s k|subst n c].
    + left. apply (inside_split _ _ _ _ _ _ D). unfold q. lia.
    + destruct (step_split _ _ _ _ _ _ D St) as [-> | ->].
      * destruct (B2 n' i s k Hi Rest) as [L | (m & j & C1 & C2 & C3 & C4)].
        -- left. eapply inside_sub; [| |exact L]; unfold q, pY, pJ, pX; lia.
        -- right. exists m, j. split; [lia|]. split; [right; assumption|]. split; assumption.
      * destruct (B1 n' i s k Hi Rest) as [L | (m & j & C1 & C2 & C3 & C4)].
        -- left. eapply inside_sub; [| |exact L]; unfold q, pJ, pX; lia.
        -- inversion C4 as [a|m' a b' c St' Rest']; subst a; [subst s k|subst m c].
           ++ left. apply (inside_jump _ _ _ _ _ D2). unfold q, pJ, pX; lia.
           ++ rewrite (step_jump _ _ _ _ _ D2 St') in Rest'. right. exists m', j. split; [lia|]. split; [left; assumption|]. split; assumption.
Qed.

Lemma impl_star R X v w : v = zl (offset_bytes v) + zl X + 1 + zl (offset_bytes w) -> w = - (1 + zl (offset_bytes v) + zl X + 1) ->
  impl R X -> impl (many R) (65 :: offset_bytes v ++ X ++ 74 :: offset_bytes w).
Proof.
  intros Hv Hw H1 pre post P HP HS.
  destruct (small_app _ _ _ _ HP HS) as (A1 & A2 & A3 & A4).
  set (o := offset_bytes v) in *. set (u := offset_bytes w) in *.
  repeat (rewrite zl_cons in * || rewrite zl_app in * ). pose proof (zl_pos o); pose proof (zl_pos X); pose proof (zl_pos u).
  assert (HP1 : P = (pre ++ 65 :: o) ++ X ++ (74 :: u) ++ post).
  { rewrite HP; norm_app. }
  assert (HP3 : P = (pre ++ 65 :: o ++ X) ++ (74 :: u) ++ post).
  { rewrite HP; norm_app. }
  assert (HPl : zl P = zl pre + (1 + (zl o + (zl X + (1 + zl u)))) + zl post).
  { rewrite HP3. repeat (rewrite zl_cons in * || rewrite zl_app in * ). lia. }
  destruct (H1 _ _ _ HP1 HS) as [F1 B1].
  assert (D : decode P (zl pre) = Ok (ISplit (zl pre + 1 + v) (zl pre + 1 + zl o))).
  { apply (decode_split pre v (X ++ 74 :: u ++ post)); [|assumption|lia]. rewrite HP; norm_app. }
  pose proof (decode_jump _ w _ P HP3 HS) as D2.
  repeat (rewrite zl_cons in * || rewrite zl_app in * ). specialize (D2 ltac:(lia)).
  set (q := zl pre + (1 + (zl o + (zl X + (1 + zl u))))).
  set (pX := zl pre + (1 + zl o)) in *. set (pJ := pX + zl X) in *.
  replace (zl pre + 1 + v) with q in D by (unfold q; lia).
  replace (zl pre + 1 + zl o) with pX in D by (unfold pX; lia).
  replace (zl pre + (1 + (zl o + zl X))) with pJ in D2 by (unfold pJ, pX; lia).
  replace (pJ + 1 + w) with (zl pre) in D2 by (unfold pJ, pX; lia).
  fold q. split.
  - intros i j Hi Hr. revert Hi. induction Hr as [i|i j k Hr Hm IH]; intros Hi.
    + split; [assumption|]. eapply reach_step; [apply step_eps; eapply eps_alt, D|apply reach_refl].
    + destruct (F1 i j Hi Hr) as [Hj Rj]. destruct (IH Hj) as [Hk Rk]. split; [assumption|].
      eapply reach_step; [apply step_eps; eapply eps_next, D|].
      eapply reach_trans; [exact Rj|]. eapply reach_step; [apply step_eps; eapply eps_jump, D2|exact Rk].
  - intros n. induction n as [n IH] using (well_founded_induction lt_wf). intros i s k Hi Hn.
    inversion Hn as [a|n' a b c St Rest]; subst a; [subst s k|subst n c].
    + left. apply (inside_split _ _ _ _ _ _ D). unfold q. lia.
    + destruct (step_split _ _ _ _ _ _ D St) as [-> | ->].
      * right. exists n', i. split; [lia|]. split; [constructor|]. split; assumption.
      * destruct (B1 n' i s k Hi Rest) as [L | (m & j & C1 & C2 & C3 & C4)].
        -- left. eapply inside_sub; [| |exact L]; unfold q, pJ, pX; lia.
        -- inversion C4 as [a|m' a b' c St' Rest']; subst a; [subst s k|subst m c].
           ++ left. apply (inside_jump _ _ _ _ _ D2). unfold q, pJ, pX; lia.
           ++ rewrite (step_jump _ _ _ _ _ D2 St') in Rest'.
              destruct (IH m' ltac:(lia) j s k C3 Rest') as [L | (m2 & j2 & E1 & E2 & E3 & E4)]; [left; assumption|].
              right. exists m2, j2. split; [lia|]. split; [econstructor; eassumption|]. split; assumption.
Qed.

Lemma impl_plus R X v : v = - (zl X + 1) -> impl R X ->
  impl (fun i j => exists k, R i k /\ many R k j) (X ++ 65 :: offset_bytes v).
Proof.
  intros Hv H1 pre post P HP HS.
  destruct (small_app _ _ _ _ HP HS) as (A1 & A2 & A3 & A4).
  set (o := offset_bytes v) in *.
  repeat (rewrite zl_cons in * || rewrite zl_app in * ). pose proof (zl_pos o); pose proof (zl_pos X).
  assert (HP1 : P = pre ++ X ++ (65 :: o) ++ post) by (rewrite HP; norm_app).
  assert (HP3 : P = (pre ++ X) ++ (65 :: o) ++ post) by (rewrite HP; norm_app).
  assert (HPl : zl P = zl pre + (zl X + (1 + zl o)) + zl post).
  { rewrite HP3. repeat (rewrite zl_cons in * || rewrite zl_app in * ). lia. }
  destruct (H1 _ _ _ HP1 HS) as [F1 B1].
  pose proof (decode_split _ v _ P HP3 HS) as D.
  repeat (rewrite zl_cons in * || rewrite zl_app in * ). specialize (D ltac:(lia)).
  set (q := zl pre + (zl X + (1 + zl o))). set (pS := zl pre + zl X) in *.
  replace (pS + 1 + v) with (zl pre) in D by (unfold pS; lia). fold o in D.
  replace (pS + 1 + zl o) with q in D by (unfold q, pS; lia).
  fold q. split.
  - intros i j Hi (m & Hr & Hm). destruct (F1 i m Hi Hr) as [Hj Rj].
    assert (G : pos j /\ reach P (pS, m) (q, j)).
    { clear Hr Rj. revert Hj. induction Hm as [m|m j k Hr Hm IH]; intros Hj.
      - split; [assumption|]. eapply reach_step; [apply step_eps; eapply eps_next, D|apply reach_refl].
      - destruct (F1 m j Hj Hr) as [Hj' Rj']. destruct (IH Hj') as [Hk Rk]. split; [assumption|].
        eapply reach_step; [apply step_eps; eapply eps_alt, D|]. eapply reach_trans; [exact Rj'|exact Rk]. }
    destruct G as [G1 G2]. split; [assumption|]. eapply reach_trans; eassumption.
  - intros n. induction n as [n IH] using (well_founded_induction lt_wf). intros i s k Hi Hn.
    destruct (B1 n i s k Hi Hn) as [L | (m & j & C1 & C2 & C3 & C4)].
    + left. eapply inside_sub; [| |exact L]; unfold q, pS; lia.
    + inversion C4 as [a|m' a b' c St' Rest']; subst a; [subst s k|subst m c].
      * left. apply (inside_split _ _ _ _ _ _ D). unfold q, pS; lia.
      * destruct (step_split _ _ _ _ _ _ D St') as [-> | ->].
        -- destruct (IH m' ltac:(lia) j s k C3 Rest') as [L | (m2 & j2 & E1 & (k2 & E2 & E2') & E3 & E4)]; [left; assumption|].
           right. exists m2, j2. split; [lia|]. split; [|split; assumption].
           exists j. split; [assumption|]. econstructor; eassumption.
        -- right. exists m', j. split; [lia|]. split; [|split; assumption]. exists j. split; [assumption|constructor].
Qed.
End Vm.
