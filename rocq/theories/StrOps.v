(** Texts under string operations: each operation runs to completion and its
    result's text is the list operation, provided the string it edits is in
    order (see [vin]).  Counts and isolation come from StrHeap.v. *)
From Verif Require Import Base RefModel RefProofs UTF8Model UTF8Spec UTF8Proofs ArrayModel ArraySpec ArrayProofs ArrayRead StrModel StrSpec StrText StrHeap StrState.
From Verif Require ArrayHeap ArrayOps.
From Coq Require Import Permutation.
Ltac Zify.zify_post_hook ::= Z.div_mod_to_equations.

Implicit Types (h : sheap) (s t w : sval) (hs : list sval) (x y : sbody) (chs : list Z).

Lemma decode_enc chs : Forall good chs -> decode_all (enc chs) = Ok chs.
Proof.
  induction 1 as [|c l G GL IH]; [reflexivity|]. assert (PL := put_len_pos _ G). assert (B := enc_bytes (c :: l) (Forall_cons _ G GL)).
  rewrite decode_all_cons; [|exact B|rewrite enc_cons; destruct (UTF8Put c); [cbn in PL; lia|discriminate]].
  rewrite enc_cons, <- app_assoc, get_good by exact G. cbn [obind]. rewrite skipn_app, skipn_all2, Nat.sub_diag by lia. cbn [skipn app]. rewrite IH. reflexivity.
Qed.
Lemma enc_inj a b : Forall good a -> Forall good b -> enc a = enc b -> a = b.
Proof. intros A B E. apply decode_enc in A. apply decode_enc in B. rewrite E in A. congruence. Qed.

Lemma valid_fun (a : body Z) L M : valid a L -> valid a M -> L = M.
Proof.
  intros (A1 & A2 & _) (B1 & B2 & _). assert (length L = length M) by lia. apply nth_ext_list. intros j.
  destruct (nth_error L j) as [c|] eqn:EL.
  - assert (J := nth_lt _ _ _ EL). destruct (nth_some_lt M j ltac:(lia)) as [d EM]. rewrite EM. apply A1 in EL. apply B1 in EM. congruence.
  - apply nth_error_None in EL. symmetry. apply nth_error_None. lia.
Qed.

Lemma bchars_fun x y a b : bits (sb_arr x) = bits (sb_arr y) -> bchars x a -> bchars y b -> a = b.
Proof.
  intros E (A1 & A2 & _) (B1 & B2 & _). apply enc_inj; try assumption.
  assert (V : valid (sb_arr y) (enc a ++ [0])).
  { unfold bits in E. injection E as E1 E2 E3 E4. destruct A2 as (V1 & V2 & V3 & V4 & V5). unfold valid. rewrite <- E1, <- E2, <- E3, <- E4. auto. }
  assert (Q := valid_fun _ _ _ V B2). apply app_inv_tail in Q. exact Q.
Qed.

Lemma bchars_body x chs : bchars x chs -> body_chars x = Some chs.
Proof.
  intros H. assert (N := bchars_num _ _ H). assert (D := decode_enc _ (proj1 H)). destruct H as (G & V & _). unfold body_chars. rewrite N.
  replace (Z.to_nat (Z.of_nat (length (enc chs)) + 1 - 1)) with (length (enc chs)) by lia.
  assert (E := ArrayHeap.valid_cells (sb_arr x) _ 0 (length (enc chs)) V). cbn [skipn plus] in E. rewrite app_length in E. rewrite E by (cbn [length]; lia).
  rewrite firstn_app, firstn_all2, Nat.sub_diag by lia. cbn [firstn]. rewrite app_nil_r, ArrayHeap.all_some_map, D. reflexivity.
Qed.

(** Every body holds a text, is counted or not, and is static exactly if it owns no storage. *)
Definition BG h : Prop := forall b x, sget h b = Ok x -> (exists chs, bchars x chs) /\ (b_static (sb_arr x) = true -> b_alloc (sb_arr x) = 0).
Definition bview h (b : nat) chs : Prop := exists x, sget h b = Ok x /\ bchars x chs.

Definition vmark chs s : Prop :=
  v_mk s = (0, 0) \/
  (exists c, v_mk s = (Z.of_nat c, Z.of_nat (bpos chs c)) /\ (0 < c)%nat /\ v_off s <= Z.of_nat c <= v_off s + v_len s) \/
  (v_off s = 0 /\ 2^31 <= fst (v_mk s) < 2^32 /\ 2^31 <= snd (v_mk s) < 2^32).
(** [s] shows a part of the text [chs] of its body. *)
Definition vin h s chs : Prop :=
  bview h (v_body s) chs /\ 0 <= v_off s /\ 0 <= v_len s /\ v_off s + v_len s <= Z.of_nat (length chs) /\ vmark chs s.
Definition vtext s chs : list Z := l_slice chs (Z.to_nat (v_off s)) (Z.to_nat (v_len s)).

Lemma bview_fun h b a c : bview h b a -> bview h b c -> a = c.
Proof. intros (x & G & A) (y & K & B). rewrite G in K. injection K as <-. eapply bchars_fun; [reflexivity|exact A|exact B]. Qed.
Lemma vin_text h s chs : vin h s chs -> val_text h s = Some (vtext s chs).
Proof.
  intros ((x & G & B) & _). unfold val_text. apply sget_ok in G. rewrite G, (bchars_body _ _ B). reflexivity.
Qed.
Lemma slice_len {A} (L : list A) o n : (o + n <= length L)%nat -> length (l_slice L o n) = n.
Proof. apply ArrayHeap.slice_length. Qed.
Lemma vtext_len h s chs : vin h s chs -> Z.of_nat (length (vtext s chs)) = v_len s.
Proof. intros (_ & A & B & C & _). unfold vtext. rewrite slice_len; lia. Qed.

Lemma vmark_mark chs s : vmark chs s -> 0 <= v_off s -> v_off s + v_len s <= Z.of_nat (length chs) -> mark_ok chs (v_mk s).
Proof.
  intros [M|[(c & M & P & B)|(_ & M)]] O L.
  - left. rewrite M. reflexivity.
  - right. left. exists c. split; [exact M|lia].
  - right. right. exact M.
Qed.

(** Same bytes and a good heap: same text. *)
Lemma keep_bview h h' b chs : BG h' -> obits h' b = obits h b -> bview h b chs -> bview h' b chs.
Proof.
  intros G K (x & S & B). unfold obits in K. rewrite (sget_arr _ _ _ S) in K. destruct (arr h' b) as [a|] eqn:A; [|discriminate].
  destruct (arr_sget _ _ _ A) as (y & Sy & <-). destruct (G b y Sy) as [[c C] _]. exists y. split; [exact Sy|].
  cbn [option_map] in K. injection K as K1 K2 K3 K4.
  assert (E : c = chs) by (eapply bchars_fun; [|exact C|exact B]; unfold bits; congruence). congruence.
Qed.
Lemma keep_vin h h' s chs : BG h' -> obits h' (v_body s) = obits h (v_body s) -> vin h s chs -> vin h' s chs.
Proof. intros G K (B & R). split; [eapply keep_bview; eassumption|exact R]. Qed.
Lemma keep_vin_in h h' hs s chs : BG h' -> keep h h' hs -> In s hs -> vin h s chs -> vin h' s chs.
Proof. intros G K I V. unfold keep in K. rewrite Forall_forall in K. eapply keep_vin; [exact G|apply K; exact I|exact V]. Qed.

Lemma is_static_eq h b x : BG h -> sget h b = Ok x -> is_static x = b_static (sb_arr x).
Proof.
  intros G S. destruct (G b x S) as [[chs B] A]. assert (N := bchars_num _ _ B). destruct B as (_ & (V1 & V2 & V3 & V4 & V5) & _).
  unfold is_static. destruct (Z.gtb_spec (b_num (sb_arr x)) 0); [|lia]. rewrite andb_true_r. destruct (b_static (sb_arr x)) eqn:E.
  - rewrite A by reflexivity. reflexivity.
  - apply agree_len in V1. rewrite (V4 eq_refl). destruct (Z.eqb_spec (Z.of_nat (length (b_data (sb_arr x)))) 0); [lia|reflexivity].
Qed.

(** ** Heaps *)
Lemma sget_sput h b x y c : sget h b = Ok x -> sget (sput h b y) c = if Nat.eqb c b then Ok y else sget h c.
Proof.
  intros S. apply sget_ok in S. unfold sget, sput. rewrite nth_upd. assert (b < length h)%nat by (eapply nth_lt; exact S).
  destruct (Nat.eqb_spec c b); destruct (Nat.ltb_spec b (length h)); try lia; reflexivity.
Qed.
Lemma sget_app h y c : sget (h ++ [Some y]) c = if Nat.eqb c (length h) then Ok y else sget h c.
Proof.
  unfold sget. destruct (Nat.eqb_spec c (length h)).
  - subst. rewrite nth_error_app2, Nat.sub_diag by lia. reflexivity.
  - destruct (Nat.lt_ge_cases c (length h)); [rewrite nth_error_app1 by assumption; reflexivity|].
    rewrite nth_error_app2 by lia. assert (N : nth_error h c = None) by (apply nth_error_None; lia). rewrite N.
    destruct (c - length h)%nat as [|k] eqn:K; [lia|]. destruct k; reflexivity.
Qed.
Lemma BG_sput h b x y chs : BG h -> sget h b = Ok x -> bchars y chs -> (b_static (sb_arr y) = true -> b_alloc (sb_arr y) = 0) -> BG (sput h b y).
Proof.
  intros G S B A c z. rewrite (sget_sput h b x y c S). destruct (Nat.eqb c b).
  - intros E. injection E as <-. eauto.
  - apply G.
Qed.
Lemma BG_app h y chs : BG h -> bchars y chs -> (b_static (sb_arr y) = true -> b_alloc (sb_arr y) = 0) -> BG (h ++ [Some y]).
Proof.
  intros G B A c z. rewrite sget_app. destruct (Nat.eqb c (length h)).
  - intros E. injection E as <-. eauto.
  - apply G.
Qed.
Lemma BG_none h b : BG h -> BG (upd h b None).
Proof.
  intros G c z E. apply (G c z). apply sget_ok in E. apply sget_ok. rewrite nth_upd in E.
  destruct (Nat.eqb c b && (b <? length h)%nat); [discriminate|exact E].
Qed.
Lemma bchars_refs x n chs : bchars x chs -> bchars (with_refs x n) chs.
Proof. intros (G & (V1 & V2 & V3 & V4 & V5) & R). split; [exact G|]. split; [|exact R]. split; [exact V1|]. split; [exact V2|]. split; [exact V3|]. split; [exact V4|exact V5]. Qed.

Lemma saddref_ok h b x : BG h -> sget h b = Ok x -> exists h', saddref h b = Ok h' /\ BG h' /\
  sget h' b = Ok (with_refs x (b_refs (sb_arr x) + 1)).
Proof.
  intros G S. unfold saddref. rewrite S. cbn [obind]. eexists. split; [reflexivity|]. destruct (G b x S) as [[chs B] A]. split.
  - eapply BG_sput; [exact G|exact S|apply bchars_refs; exact B|exact A].
  - rewrite (sget_sput h b x _ b S), Nat.eqb_refl. reflexivity.
Qed.
Lemma srelease_ok h s hs : BG h -> RC h (s :: hs) -> exists h', srelease h (v_body s) = Ok h' /\ BG h'.
Proof.
  intros G [A B]. inversion B as [|? ? [a Ha] _]; subst. destruct (arr_sget _ _ _ Ha) as (x & S & <-). destruct (A _ _ Ha) as [_ P].
  unfold srelease. rewrite S. cbn [obind]. unfold cassert. destruct (Z.gtb_spec (b_refs (sb_arr x)) 0); [|lia].
  destruct (G _ _ S) as [[chs C] D]. destruct (_ =? 0); (eexists; split; [reflexivity|]).
  - apply BG_none. exact G.
  - eapply BG_sput; [exact G|exact S|apply bchars_refs; exact C|exact D].
Qed.

(** ** Reading *)
Lemma sv_nth_ok h s chs i : BG h -> vin h s chs -> 0 <= i <= v_len s ->
  exists h' mk', sv_nth h s i = Ok (h', mk', Some (Z.of_nat (bpos chs (Z.to_nat (v_off s + i))))) /\ BG h' /\
    (mk' = v_mk s \/ exists c, (3 < c)%nat /\ Z.of_nat c = v_off s + i /\ mk' = (Z.of_nat c, Z.of_nat (bpos chs c))).
Proof.
  intros G ((x & S & B) & O & L & OL & M) Hi. unfold sv_nth. destruct (Z.gtb_spec i (v_len s)); [lia|]. rewrite S. cbn [obind].
  assert (SM := bchars_small _ _ B). replace (u32 (v_off s + i)) with (Z.of_nat (Z.to_nat (v_off s + i))) by (unfold u32; lia).
  destruct (nth_char_spec x chs (Z.to_nat (v_off s + i)) (v_mk s) B ltac:(lia) (vmark_mark _ _ M O OL)) as (y & mk' & -> & EA & BY & MK).
  cbn [obind fst snd]. do 2 eexists. split; [reflexivity|]. split.
  - eapply BG_sput; [exact G|exact S|exact BY|]. rewrite EA. apply (G _ _ S).
  - destruct MK as [MK|[C MK]]; [left; exact MK|right]. eexists. split; [exact C|]. split; [lia|exact MK].
Qed.
Lemma sim_vin h h' s chs : BG h' -> hsim h h' -> vin h s chs -> vin h' s chs.
Proof. intros G [_ E] V. eapply keep_vin; [exact G| |exact V]. unfold obits. rewrite E. reflexivity. Qed.

Lemma nth_c_ok h s chs i : BG h -> vin h s chs -> 0 <= i <= v_len s ->
  exists h', nth_c h s i = Ok (h', Some (Z.of_nat (bpos chs (Z.to_nat (v_off s + i))))) /\ BG h' /\ hsim h h' /\ vin h' s chs.
Proof.
  intros G V Hi. destruct (sv_nth_ok h s chs i G V Hi) as (h' & mk' & E & G' & _). exists h'.
  assert (SM := sv_nth_sim _ _ _ _ E). unfold nth_c. rewrite E. cbn [obind fst snd] in *.
  split; [reflexivity|]. split; [exact G'|]. split; [exact SM|eapply sim_vin; eassumption].
Qed.

(** The mutable overload may move the bookmark to the character asked for. *)
Definition mark_le s (pos : Z) : Prop := fst (v_mk s) <= v_off s + pos \/ 2^31 <= fst (v_mk s).
Lemma nth_m_ok h s chs i : BG h -> vin h s chs -> 0 <= i <= v_len s ->
  exists h' s', nth_m h s i = Ok (h', s', Some (Z.of_nat (bpos chs (Z.to_nat (v_off s + i))))) /\ BG h' /\ hsim h h' /\ vin h' s' chs /\
    v_body s' = v_body s /\ v_off s' = v_off s /\ v_len s' = v_len s /\
    (forall pos, i <= pos -> mark_le s pos -> mark_le s' pos) /\ (v_off s + i <= 3 -> v_mk s' = v_mk s).
Proof.
  intros G V Hi. destruct (sv_nth_ok h s chs i G V Hi) as (h' & mk' & E & G' & MK).
  assert (SM := sv_nth_sim _ _ _ _ E). unfold nth_m. rewrite E. cbn [obind fst snd] in *.
  do 2 eexists. split; [reflexivity|]. split; [exact G'|]. split; [exact SM|]. cbn [v_body v_off v_len v_mk].
  split; [|split; [reflexivity|split; [reflexivity|split; [reflexivity|split]]]].
  - destruct (sim_vin _ _ _ _ G' SM V) as (A & B & C & D & M). split; [exact A|]. split; [exact B|]. split; [exact C|]. split; [exact D|].
    destruct MK as [->|(c & C3 & EC & ->)]; [exact M|]. right. left. exists c. cbn [v_mk v_off v_len]. split; [reflexivity|lia].
  - intros pos Hp ML. unfold mark_le in *. cbn [v_mk v_off fst snd]. destruct MK as [->|(c & C3 & EC & ->)]; [exact ML|]. cbn [fst]. lia.
  - intros H3. destruct MK as [->|(c & C3 & EC & ->)]; [reflexivity|lia].
Qed.

(** ** New bodies *)
Lemma src_list (l : list Z) n : (n <= length l)%nat -> src_is (rdZ l) (firstn n l).
Proof.
  intros H i Hi. rewrite firstn_length in Hi. destruct (nth_some_lt l (Z.to_nat i) ltac:(lia)) as [a Ha]. exists a. split.
  - apply rdZ_ok; [lia|exact Ha].
  - rewrite nth_firstn. destruct (Nat.ltb_spec (Z.to_nat i) n); [exact Ha|lia].
Qed.

Lemma new_sbody_ok cs d tl al r : Forall good cs -> cs <> [] -> Z.of_nat (length (enc cs)) < 2^30 -> 0 <= al < 2^31 ->
  exists y, new_sbody (enc cs ++ d :: tl) (Z.of_nat (length (enc cs))) al r = Ok y /\ bchars y cs /\ sb_n y = 0.
Proof.
  intros G NE LB AL. unfold new_sbody. assert (LG := enc_len_ge _ G). assert (0 < length cs)%nat by (destruct cs; [congruence|cbn; lia]).
  destruct (Z.eqb_spec (Z.of_nat (length (enc cs))) 0); [lia|]. cbn [obind].
  assert (SS := src_list (enc cs ++ d :: tl) (length (enc cs) + 1)). rewrite app_length in SS. cbn [length] in SS. specialize (SS ltac:(lia)).
  rewrite firstn_app, firstn_all2 in SS by lia. replace (length (enc cs) + 1 - length (enc cs))%nat with 1%nat in SS by lia. cbn [firstn] in SS.
  assert (LS : length (enc cs ++ [d]) = (length (enc cs) + 1)%nat) by (rewrite app_length; reflexivity).
  replace (u32 (Z.of_nat (length (enc cs)) + 1)) with (Z.of_nat (length (enc cs ++ [d]))) by (unfold u32; lia).
  destruct (new_body_ok _ _ al SS ltac:(lia) ltac:(lia)) as [a EA]. rewrite EA. cbn [obind].
  destruct (new_body_spec _ _ _ _ SS ltac:(lia) EA) as ((V1 & V2 & V3 & V4 & V5) & RA & SA).
  unfold cell_wr. assert (AL2 := agree_len _ _ V1). rewrite LS in *.
  destruct ((0 <=? b_num a - 1) && (b_num a - 1 <? Z.of_nat (length (b_data a)))) eqn:CW; [|lia]. cbn [obind].
  eexists. split; [reflexivity|]. split; [|reflexivity]. split; [exact G|]. cbn [sb_arr sb_n]. split; [|auto].
  split; [|cbn [b_num b_alloc b_static b_data]; rewrite app_length; cbn [length]; rewrite upd_length; split; [lia|split; [lia|split; [intros _; apply V4; exact SA|exact V5]]]].
  cbn [b_data]. intros j a' Ha. rewrite nth_upd. destruct (Nat.eqb_spec j (Z.to_nat (b_num a - 1))).
  - destruct (Nat.ltb_spec (Z.to_nat (b_num a - 1)) (length (b_data a))); [|lia]. cbn [andb]. subst j.
    rewrite nth_error_app2 in Ha by lia. replace (Z.to_nat (b_num a - 1) - length (enc cs))%nat with 0%nat in Ha by lia. cbn in Ha. congruence.
  - cbn [andb]. apply V1. assert (J := nth_lt _ _ _ Ha). rewrite app_length in J. cbn [length] in J. rewrite nth_error_app1 in Ha by lia. rewrite nth_error_app1 by lia. exact Ha.
Qed.

(** strlen stops at the first NUL character. *)
Fixpoint upto0 (cs : list Z) : list Z := match cs with [] => [] | c :: r => if c =? 0 then [] else c :: upto0 r end.
Lemma upto0_prefix cs : exists r, cs = upto0 cs ++ r /\ (forall d r', r = d :: r' -> d = 0).
Proof.
  induction cs as [|c cs (r & E & Z0)]; [exists []; split; [reflexivity|discriminate]|]. cbn [upto0]. destruct (Z.eqb_spec c 0).
  - subst. exists (0 :: cs). split; [reflexivity|]. intros d r' H. congruence.
  - exists r. cbn [app]. split; [congruence|exact Z0].
Qed.
Lemma upto0_good cs : Forall good cs -> Forall good (upto0 cs).
Proof. induction 1 as [|c cs G _ IH]; cbn [upto0]; [constructor|]. destruct (c =? 0); constructor; assumption. Qed.
Lemma put_zero : UTF8Put 0 = [0]. Proof. reflexivity. Qed.
Lemma put_nonzero c : good c -> c <> 0 -> Forall (fun b => b <> 0) (UTF8Put c).
Proof.
  intros [G R] N. destruct (put_seq c G R) as (lead & tl & lo & pay & E & F & Hl & Ht & EC). rewrite E in *.
  constructor.
  - destruct tl as [|t0 tl].
    + cbn in EC, F. injection F as <- <-. lia.
    + intros ->. clear -F Hl. destruct tl as [|a [|b [|c0 [|d [|e tl]]]]]; cbn in F; injection F as <- <- || discriminate; lia.
  - eapply Forall_impl; [|exact Ht]. intros b Hb. unfold continuation in Hb. lia.
Qed.
Lemma strlen_nz bs rest : Forall (fun b => b <> 0) bs -> strlen (bs ++ 0 :: rest) = Ok (Z.of_nat (length bs)).
Proof.
  induction 1 as [|b bs N _ IH]; [reflexivity|]. cbn [app strlen length]. destruct (Z.eqb_spec b 0); [congruence|]. rewrite IH. cbn [obind]. f_equal. lia.
Qed.
Lemma strlen_enc cs rest : Forall good cs -> strlen (enc cs ++ 0 :: rest) = Ok (Z.of_nat (length (enc (upto0 cs)))).
Proof.
  induction 1 as [|c cs G GL IH]; [reflexivity|]. cbn [upto0]. destruct (Z.eqb_spec c 0).
  - subst. rewrite enc_cons, put_zero. reflexivity.
  - rewrite enc_cons, <- app_assoc. rewrite enc_cons, app_length. assert (NZ := put_nonzero c G n).
    revert NZ. generalize (UTF8Put c). intros p NZ. induction NZ as [|b p N NZ IHp]; cbn [app strlen length]; [exact IH|].
    destruct (Z.eqb_spec b 0); [congruence|]. rewrite IHp. cbn [obind]. f_equal. lia.
Qed.
Lemma new_sbody_0 cs rest r : Forall good cs -> Z.of_nat (length (enc cs)) < 2^30 ->
  exists y, new_sbody (enc cs ++ 0 :: rest) 0 0 r = Ok y /\ bchars y (upto0 cs) /\ sb_n y = 0.
Proof.
  intros G LB. unfold new_sbody. cbn [Z.eqb]. rewrite strlen_enc by exact G. cbn [obind].
  destruct (upto0_prefix cs) as (q & E & Z0). assert (GU := upto0_good _ G).
  assert (LQ : length (enc cs) = (length (enc (upto0 cs)) + length (enc q))%nat) by (rewrite E at 1; rewrite enc_app, app_length; reflexivity).
  assert (D : exists tl, enc cs ++ 0 :: rest = enc (upto0 cs) ++ 0 :: tl).
  { assert (E2 : enc cs = enc (upto0 cs) ++ enc q) by (rewrite <- enc_app, <- E; reflexivity). rewrite E2, <- app_assoc. destruct q as [|d q]; [exists rest; reflexivity|]. rewrite (Z0 _ _ eq_refl), enc_cons, put_zero. cbn [app]. eauto. }
  destruct D as [tl ->]. set (cu := upto0 cs) in *.
  assert (SS := src_list (enc cu ++ 0 :: tl) (length (enc cu) + 1)). rewrite app_length in SS. cbn [length] in SS. specialize (SS ltac:(lia)).
  rewrite firstn_app, firstn_all2 in SS by lia. replace (length (enc cu) + 1 - length (enc cu))%nat with 1%nat in SS by lia. cbn [firstn] in SS.
  assert (LS : length (enc cu ++ [0]) = (length (enc cu) + 1)%nat) by (rewrite app_length; reflexivity).
  replace (u32 (Z.of_nat (length (enc cu)) + 1)) with (Z.of_nat (length (enc cu ++ [0]))) by (unfold u32; lia).
  destruct (new_body_ok _ _ 0 SS ltac:(lia) ltac:(lia)) as [a EA]. rewrite EA. cbn [obind].
  destruct (new_body_spec _ _ _ _ SS ltac:(lia) EA) as ((V1 & V2 & V3 & V4 & V5) & RA & SA).
  eexists. split; [reflexivity|]. split; [|reflexivity]. split; [exact GU|]. cbn [sb_arr sb_n]. split; [|split; [auto|lia]].
  split; [exact V1|]. cbn [b_num b_alloc b_static b_data]. split; [exact V2|]. split; [exact V3|]. split; [intros _; apply V4; exact SA|exact V5].
Qed.

Lemma good_slice chs o n : Forall good chs -> Forall good (l_slice chs o n).
Proof.
  intros G. unfold l_slice. apply Forall_forall. intros c Hc. eapply Forall_forall; [exact G|].
  rewrite <- (firstn_skipn o chs). apply in_app_iff. right. rewrite <- (firstn_skipn n (skipn o chs)). apply in_app_iff. left. exact Hc.
Qed.
Lemma enc_slice_len chs o n : (length (enc (l_slice chs o n)) = bpos chs (o + n) - bpos chs o)%nat.
Proof.
  unfold bpos. assert (E : firstn (o + n) chs = firstn o chs ++ l_slice chs o n).
  { unfold l_slice. revert o. induction chs as [|c chs IH]; intros o; [rewrite !firstn_nil, skipn_nil, firstn_nil; reflexivity|].
    destruct o; [reflexivity|]. cbn [Nat.add firstn skipn app]. rewrite IH. reflexivity. }
  rewrite E, enc_app, app_length. lia.
Qed.
Lemma skipn_slice chs o n tl : enc (skipn o chs) ++ tl = enc (l_slice chs o n) ++ enc (skipn (o + n) chs) ++ tl.
Proof.
  rewrite app_assoc, <- enc_app. do 2 f_equal. unfold l_slice. rewrite <- ArrayOps.skipn_skipn. symmetry. apply firstn_skipn.
Qed.
Lemma skipn_add_comm chs o n : skipn (o + n) chs = skipn n (skipn o chs).
Proof. rewrite ArrayOps.skipn_skipn. reflexivity. Qed.

(** A position in the middle of a new body's data: something follows. *)
Lemma follows chs k : exists d tl, enc (skipn k chs) ++ [0] = d :: tl.
Proof. destruct (enc (skipn k chs)); cbn [app]; eauto. Qed.
Lemma slice_nil_len {A} (L : list A) o n : (o + n <= length L)%nat -> l_slice L o n = [] -> n = 0%nat.
Proof. intros H E. assert (Q := slice_len L o n H). rewrite E in Q. cbn in Q. lia. Qed.

Lemma slice_incl chs o n : incl (l_slice chs o n) chs.
Proof.
  intros c Hc. unfold l_slice in Hc. rewrite <- (firstn_skipn o chs). apply in_app_iff. right. rewrite <- (firstn_skipn n (skipn o chs)). apply in_app_iff. left. exact Hc.
Qed.

(** Copying [k] characters from [o] on into a new body. *)
Lemma new_copy_ok chs o k r : Forall good chs -> Z.of_nat (length (enc chs)) < 2^30 -> (o + k <= length chs)%nat ->
  exists y cs, new_sbody (skipn (bpos chs o) (enc chs ++ [0])) (Z.of_nat (bpos chs (o + k)) - Z.of_nat (bpos chs o)) 0 r = Ok y /\ bchars y cs /\ sb_n y = 0 /\
    firstn k cs = l_slice chs o k /\ (k <= length cs)%nat /\ (length (enc cs) <= length (enc chs))%nat /\ ((0 < k)%nat -> cs = l_slice chs o k) /\ incl cs chs.
Proof.
  intros G LB HK. rewrite skipn_bpos.
  assert (BL := bpos_le chs o (o + k) ltac:(lia)). assert (SL := enc_slice_len chs o k). assert (BM := bpos_max chs (o + k)).
  replace (Z.of_nat (bpos chs (o + k)) - Z.of_nat (bpos chs o)) with (Z.of_nat (length (enc (l_slice chs o k)))) by lia.
  destruct (Nat.eq_dec k 0) as [->|NK].
  - assert (GS : Forall good (skipn o chs)).
    { apply Forall_forall. intros c Hc. eapply Forall_forall; [exact G|]. rewrite <- (firstn_skipn o chs). apply in_app_iff. right. exact Hc. }
    assert (LE : (length (enc (skipn o chs)) <= length (enc chs))%nat) by (rewrite <- (firstn_skipn o chs) at 2; rewrite enc_app, app_length; lia).
    unfold l_slice at 1. cbn [firstn enc_nil]. rewrite enc_nil. cbn [length Z.of_nat].
    destruct (new_sbody_0 (skipn o chs) [] r GS ltac:(lia)) as (y & -> & B & N). exists y, (upto0 (skipn o chs)).
    split; [reflexivity|]. split; [exact B|]. split; [exact N|]. split; [reflexivity|]. split; [lia|].
    destruct (upto0_prefix (skipn o chs)) as (q & E & _). assert (length (enc (skipn o chs)) = length (enc (upto0 (skipn o chs))) + length (enc q))%nat by (rewrite E at 1; rewrite enc_app, app_length; reflexivity).
    split; [lia|]. split; [lia|]. intros c Hc. rewrite <- (firstn_skipn o chs). apply in_app_iff. right. rewrite E. apply in_app_iff. left. exact Hc.
  - rewrite (skipn_slice chs o k). destruct (follows chs (o + k)) as (d & tl & ->).
    destruct (new_sbody_ok (l_slice chs o k) d tl 0 r) as (y & -> & B & N); [apply good_slice; exact G| |lia|lia|].
    + intros E. apply slice_nil_len in E; lia.
    + exists y, (l_slice chs o k). split; [reflexivity|]. split; [exact B|]. split; [exact N|]. split; [apply firstn_all2; rewrite slice_len; lia|].
      split; [rewrite slice_len; lia|]. split; [lia|]. split; [reflexivity|apply slice_incl].
Qed.

Lemma bpos_slice chs o n c : (o <= c <= o + n)%nat -> (o + n <= length chs)%nat -> bpos (l_slice chs o n) (c - o) = (bpos chs c - bpos chs o)%nat.
Proof.
  intros H L. unfold bpos at 1. unfold l_slice. rewrite firstn_firstn. replace (Nat.min (c - o) n) with (c - o)%nat by lia.
  change (firstn (c - o) (skipn o chs)) with (l_slice chs o (c - o)). rewrite enc_slice_len. f_equal. f_equal. lia.
Qed.
Lemma bpos_firstn cs k n : (k <= n)%nat -> bpos (firstn n cs) k = bpos cs k.
Proof. intros H. unfold bpos. rewrite firstn_firstn. replace (Nat.min k n) with k by lia. reflexivity. Qed.

Lemma copy_body_ok h s hs chs : BG h -> RC h (s :: hs) -> vin h s chs ->
  exists h' s' cs, copy_body h s = Ok (h', s') /\ BG h' /\ vin h' s' cs /\ vtext s' cs = vtext s chs /\ v_off s' = 0 /\ v_len s' = v_len s /\
    v_body s' = length h /\ (exists x', sget h' (v_body s') = Ok x' /\ b_refs (sb_arr x') = 1 /\ b_static (sb_arr x') = false) /\
    (length (enc cs) <= length (enc chs))%nat /\ (0 < v_len s -> cs = vtext s chs) /\ (forall pos, 0 <= pos -> mark_le s pos -> mark_le s' pos) /\
    (fst (v_mk s) = 0 \/ 2^31 <= fst (v_mk s) -> fst (v_mk s') = 0 \/ 2^31 <= fst (v_mk s')) /\ incl cs chs.
Proof.
  intros G R V. assert (V0 := V). destruct V0 as ((x & SX & BX) & O & L & OL & M). assert (SM := bchars_small _ _ BX). assert (LB := BX). destruct LB as (GC & _ & _ & LB).
  unfold copy_body. cbv zeta.
  destruct (nth_m_ok h s chs 0 G V ltac:(lia)) as (h1 & s1 & -> & G1 & S1 & V1 & E1 & E2 & E3 & _). cbn [obind].
  rewrite Z.add_0_r.
  destruct (nth_m_ok h1 s1 chs (v_len s) G1 V1 ltac:(lia)) as (h2 & s2 & -> & G2 & S2 & V2 & F1 & F2 & F3 & _). cbn [obind].
  assert (S12 := hsim_trans _ _ _ S1 S2). assert (V2' := V2). destruct V2' as ((x2 & SX2 & BX2) & _).
  unfold sv_mem. rewrite SX2. cbn [obind]. rewrite (bchars_smem _ _ BX2). cbn [obind].
  destruct (Z.ltb_spec (Z.of_nat (bpos chs (Z.to_nat (v_off s)))) 0); [lia|]. rewrite Nat2Z.id. rewrite E2.
  set (o := Z.to_nat (v_off s)) in *. set (k := Z.to_nat (v_len s)).
  replace (Z.to_nat (v_off s + v_len s)) with (o + k)%nat by lia.
  assert (BL := bpos_le chs o (o + k) ltac:(lia)). assert (BM := bpos_max chs (o + k)).
  replace (u32 (Z.of_nat (bpos chs (o + k)) - Z.of_nat (bpos chs o))) with (Z.of_nat (bpos chs (o + k)) - Z.of_nat (bpos chs o)) by (unfold u32; lia).
  destruct (new_copy_ok chs o k 1 GC LB ltac:(lia)) as (y & cs & EY & BY & NY & PF & LC & LE & EQ & INC). rewrite EY. cbn [obind].
  assert (YR := new_sbody_rc _ _ _ _ _ EY). destruct YR as [YR YS].
  set (s' := {| v_body := length h2; v_off := 0; v_len := v_len s; v_mk := (u32 (fst (v_mk s) - v_off s), u32 (snd (v_mk s) - Z.of_nat (bpos chs o))) |}).
  destruct (fresh_rc h2 (s :: hs) y s' (hsim_RC _ _ _ S12 R) eq_refl) as [R3 K3]; [unfold stat; rewrite YR, YS; reflexivity|].
  assert (R4 : RC (h2 ++ [Some y]) (s :: s' :: hs)) by (eapply RC_perm; [apply perm_swap|exact R3]).
  assert (G3 : BG (h2 ++ [Some y])) by (eapply BG_app; [exact G2|exact BY|rewrite YS; discriminate]).
  destruct (srelease_ok _ _ _ G3 R4) as (h3 & E4 & G4). rewrite E4. cbn [obind].
  destruct (release_rc _ _ _ _ R4 E4) as (R5 & K5 & L5).
  assert (V3 : bview (h2 ++ [Some y]) (length h2) cs) by (exists y; rewrite sget_app, Nat.eqb_refl; auto).
  assert (BV : bview h3 (length h2) cs) by (eapply keep_bview; [exact G4|exact (keep_hd _ _ _ _ K5)|exact V3]).
  assert (LEN : length h2 = length h) by (apply S12).
  exists h3, s', cs. split; [reflexivity|]. split; [exact G4|]. split.
  { split; [exact BV|]. cbn [v_off v_len s']. split; [lia|]. split; [exact L|]. split; [lia|]. unfold vmark, s'. cbn [v_off v_len v_mk v_body].
    destruct M as [M|[(c & M & P & B)|(Z0 & M1 & M2)]].
    - destruct (Z.eq_dec (v_off s) 0) as [Z0|NZ].
      + left. cbn [v_mk]. rewrite M. cbn [fst snd]. unfold o. rewrite Z0. reflexivity.
      + right. right. cbn [v_off v_mk fst snd]. rewrite M. cbn [fst snd].
        assert (BO := bpos_ge chs o GC ltac:(lia)). assert (BO2 := bpos_max chs o). unfold u32. lia.
    - cbn [v_mk]. destruct (Z.eq_dec (Z.of_nat c) (v_off s)) as [EC|NC].
      + left. cbn [v_mk]. rewrite M. cbn [fst snd]. replace c with o by lia. unfold u32. f_equal; lia.
      + right. left. exists (c - o)%nat. cbn [v_mk v_off v_len]. rewrite M. cbn [fst snd].
        assert (BC := bpos_le chs o c ltac:(lia)). assert (BM2 := bpos_max chs c).
        assert (EB : bpos cs (c - o) = (bpos chs c - bpos chs o)%nat).
        { rewrite <- (bpos_slice chs o k c) by lia. rewrite <- PF. rewrite bpos_firstn by lia. reflexivity. }
        split; [|lia]. rewrite EB. f_equal; unfold u32; lia.
    - right. right. cbn [v_off v_mk fst snd]. rewrite Z0. unfold o. rewrite Z0. cbn [Z.to_nat bpos]. rewrite bpos_0. unfold u32. lia. }
  split; [unfold vtext, l_slice in *; cbn [v_off v_len s' Z.to_nat skipn]; exact PF|].
  split; [reflexivity|]. split; [reflexivity|]. split; [exact LEN|]. split.
  { destruct BV as (x' & SX' & BX'). exists x'. split; [exact SX'|].
    assert (A5 := sget_arr _ _ _ SX'). destruct R5 as [A5' _]. destruct (A5' _ _ A5) as [RR RP].
    assert (OB := keep_hd _ _ _ _ K5). cbn [v_body s'] in OB. unfold obits in OB. rewrite A5 in OB. rewrite arr_app, Nat.eqb_refl in OB. cbn [option_map] in OB.
    injection OB as _ _ _ OS. assert (ST : b_static (sb_arr x') = false) by congruence. split; [|exact ST]. rewrite RR. unfold stat. rewrite ST.
    rewrite cnt_cons. cbn [v_body s']. rewrite Nat.eqb_refl.
    assert (C0 : cnt (length h2) hs = 0%nat).
    { destruct (cnt (length h2) hs) eqn:CE; [reflexivity|exfalso]. unfold cnt in CE. destruct (filter (refers (length h2)) hs) as [|u l] eqn:FE; [discriminate|].
      assert (X : In u (filter (refers (length h2)) hs)) by (rewrite FE; left; reflexivity). apply filter_In in X as [X1 X2]. unfold refers in X2. apply Nat.eqb_eq in X2.
      assert (Q := RC_lt _ _ u R (or_intror X1)). lia. }
    rewrite C0. reflexivity. }
  split; [exact LE|]. split; [intros HL; apply EQ; lia|]. split.
  - intros pos Hp ML. unfold mark_le in *. cbn [v_mk v_off fst snd s']. assert (FM : 0 <= fst (v_mk s) < 2^32).
    { destruct M as [M|[(c & M & P & B)|(Z0 & M1 & M2)]]; [rewrite M; cbn; lia|rewrite M; cbn [fst]; lia|lia]. }
    assert (FM2 : 2^31 <= fst (v_mk s) -> v_off s = 0).
    { intros H31. destruct M as [M|[(c & M & P & B)|(Z0 & M1 & M2)]]; [rewrite M in H31; cbn in H31; lia|rewrite M in H31; cbn [fst] in H31; lia|exact Z0]. }
    unfold u32. lia.
  - split; [|exact INC]. intros MN. cbn [v_mk fst s']. destruct MN as [MN|MN].
    + rewrite MN. unfold u32. lia.
    + destruct M as [M|[(c & M & P & B)|(Z0 & M1 & M2)]]; [rewrite M in MN; cbn in MN; lia|rewrite M in MN; cbn [fst] in MN; lia|]. rewrite Z0. unfold u32. lia.
Qed.
