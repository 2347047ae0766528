(** Text inside one string body: counting, finding the n-th character with and
    without bookmark. *)
From Verif Require Import Base RefModel RefProofs UTF8Model UTF8Spec UTF8Proofs ArrayModel ArraySpec ArrayProofs ArrayHeap ArrayRead StrModel StrSpec.
Ltac Zify.zify_post_hook ::= Z.div_mod_to_equations.

Definition good (ch : Z) : Prop := ucs4 ch /\ ~ replacement ch.
Notation enc := encode_all.

Lemma enc_nil : enc [] = []. Proof. reflexivity. Qed.
Lemma enc_cons c l : enc (c :: l) = UTF8Put c ++ enc l. Proof. reflexivity. Qed.
Lemma enc_app a b : enc (a ++ b) = enc a ++ enc b.
Proof. unfold encode_all. rewrite map_app, concat_app. reflexivity. Qed.
Lemma put_len_pos c : good c -> (1 <= length (UTF8Put c) <= 6)%nat.
Proof. intros [G R]. apply put_seq in R; [|exact G]. apply seq_bounds in R. tauto. Qed.
Lemma enc_len_ge l : Forall good l -> (length l <= length (enc l))%nat.
Proof.
  induction 1 as [|c l G _ IH]; [simpl; lia|]. rewrite enc_cons, app_length. cbn [length]. apply put_len_pos in G. lia.
Qed.
Lemma put_bytes c : good c -> bytes (UTF8Put c).
Proof. intros [G R]. apply put_seq in R; [|exact G]. apply seq_bounds in R. tauto. Qed.
Lemma enc_bytes l : Forall good l -> bytes (enc l).
Proof. induction 1 as [|c l G _ IH]; [constructor|]. rewrite enc_cons. apply Forall_app. split; [apply put_bytes; exact G|exact IH]. Qed.

Lemma get_good c rest : good c -> UTF8Get (UTF8Put c ++ rest) = Ok (c, length (UTF8Put c)).
Proof. intros [G R]. apply get_seq, put_seq; assumption. Qed.

Lemma lenptr_seq s ch rest : seq s ch -> UTF8LenPtr (s ++ rest) = Ok (length s).
Proof.
  intros Q. assert (B := seq_bounds _ _ Q). destruct B as (_ & LB & BB). destruct Q as (lead & tl & lo & pay & -> & F & Hl & Ht & _).
  unfold UTF8LenPtr. unfold rd at 1. cbn [nth_error app obind].
  assert (CL : UTF8CorrectLen lead = length (lead :: tl)) by (eapply form_correctlen; eassumption). rewrite CL. cbn [length].
  assert (K : forall k, (k <= S (length tl))%nat -> UTF8LenPtr_chk (lead :: tl ++ rest) k = Ok true).
  { induction k as [|k IH]; intros Hk; [reflexivity|]. destruct k as [|k]; [reflexivity|].
    change (UTF8LenPtr_chk (lead :: tl ++ rest) (S (S k))) with
        (do b <- rd (lead :: tl ++ rest) (S k); if UTF8Is1st b then Ok false else UTF8LenPtr_chk (lead :: tl ++ rest) (S k)).
    unfold rd. cbn [nth_error]. rewrite nth_error_app1 by lia. destruct (nth_some_lt tl k ltac:(lia)) as [b Hb]. rewrite Hb. cbn [obind].
    assert (C : continuation b) by (eapply Forall_forall; [exact Ht|eapply nth_error_In; exact Hb]). unfold continuation in C.
    rewrite is1st_spec by (unfold is_byte; lia). destruct ((128 <=? b) && (b <=? 191)) eqn:EE; [|lia]. cbn [negb]. apply IH. lia. }
  rewrite K by lia. reflexivity.
Qed.
Lemma lenptr_good c rest : good c -> UTF8LenPtr (UTF8Put c ++ rest) = Ok (length (UTF8Put c)).
Proof. intros [G R]. eapply lenptr_seq. apply put_seq; assumption. Qed.

(** Byte position of character [k]. *)
Definition bpos (chs : list Z) (k : nat) : nat := length (enc (firstn k chs)).

Lemma bpos_0 chs : bpos chs 0 = 0%nat. Proof. reflexivity. Qed.
Lemma bpos_all chs k : (length chs <= k)%nat -> bpos chs k = length (enc chs).
Proof. intros H. unfold bpos. rewrite firstn_all2 by exact H. reflexivity. Qed.
Lemma firstn_S_nth {A} (l : list A) k c : nth_error l k = Some c -> firstn (S k) l = firstn k l ++ [c].
Proof. revert k. induction l as [|a l IH]; intros [|k] H; cbn in *; try discriminate; [congruence|]. rewrite (IH k H). reflexivity. Qed.
Lemma bpos_S chs k c : nth_error chs k = Some c -> bpos chs (S k) = (bpos chs k + length (UTF8Put c))%nat.
Proof. intros H. unfold bpos. rewrite (firstn_S_nth _ _ _ H), enc_app, app_length, enc_cons, app_nil_r. reflexivity. Qed.
Lemma bpos_le chs j k : (j <= k)%nat -> (bpos chs j <= bpos chs k)%nat.
Proof.
  intros H. unfold bpos. replace (firstn k chs) with (firstn j (firstn k chs) ++ skipn j (firstn k chs)) by apply firstn_skipn.
  rewrite firstn_firstn. replace (Nat.min j k) with j by lia. rewrite enc_app, app_length. lia.
Qed.
Lemma bpos_lt chs j k : Forall good chs -> (j < k <= length chs)%nat -> (bpos chs j < bpos chs k)%nat.
Proof.
  intros G H. destruct (nth_some_lt chs j ltac:(lia)) as [c Hc]. assert (E := bpos_S _ _ _ Hc). assert (L := bpos_le chs (S j) k ltac:(lia)).
  assert (GC : good c) by (eapply Forall_forall; [exact G|eapply nth_error_In; exact Hc]). apply put_len_pos in GC. lia.
Qed.
Lemma bpos_ge chs k : Forall good chs -> (k <= length chs)%nat -> (k <= bpos chs k)%nat.
Proof.
  intros G H. unfold bpos. assert (L := enc_len_ge (firstn k chs)). rewrite firstn_length in L. replace (Nat.min k (length chs)) with k in L by lia.
  apply L. apply Forall_forall. intros c Hc. eapply Forall_forall; [exact G|]. rewrite <- (firstn_skipn k chs). apply in_app_iff. left. exact Hc.
Qed.
Lemma bpos_max chs k : (bpos chs k <= length (enc chs))%nat.
Proof. unfold bpos. rewrite <- (firstn_skipn k chs) at 2. rewrite enc_app, app_length. lia. Qed.

(** The memory around character [k]. *)
Lemma split_char chs k c : nth_error chs k = Some c ->
  enc chs = enc (firstn k chs) ++ UTF8Put c ++ enc (skipn (S k) chs).
Proof.
  intros H. rewrite <- (firstn_skipn k chs) at 1. rewrite enc_app. f_equal.
  rewrite (skipn_cons _ _ _ H). apply enc_cons.
Qed.
Lemma skipn_at chs k c tl : nth_error chs k = Some c ->
  skipn (bpos chs k) (enc chs ++ tl) = UTF8Put c ++ enc (skipn (S k) chs) ++ tl.
Proof.
  intros H. rewrite (split_char _ _ _ H), <- !app_assoc. unfold bpos.
  rewrite skipn_app. rewrite skipn_all2 by lia. rewrite Nat.sub_diag. reflexivity.
Qed.
Lemma skipn_bpos chs k tl : skipn (bpos chs k) (enc chs ++ tl) = enc (skipn k chs) ++ tl.
Proof.
  rewrite <- (firstn_skipn k chs) at 2. rewrite enc_app, <- app_assoc. unfold bpos. rewrite skipn_app. rewrite skipn_all2 by lia. rewrite Nat.sub_diag. reflexivity.
Qed.
Lemma firstn_bpos chs k tl : firstn (bpos chs k) (enc chs ++ tl) = enc (firstn k chs).
Proof.
  rewrite <- (firstn_skipn k chs) at 2. rewrite enc_app, <- app_assoc. unfold bpos. rewrite firstn_app. rewrite firstn_all2 by lia. rewrite Nat.sub_diag. cbn [firstn]. apply app_nil_r.
Qed.

Definition bchars (x : sbody) (chs : list Z) : Prop :=
  Forall good chs /\ valid (sb_arr x) (enc chs ++ [0]) /\ (sb_n x = 0 \/ sb_n x = Z.of_nat (length chs)) /\
  Z.of_nat (length (enc chs)) < 2^30.

Lemma bchars_num x chs : bchars x chs -> b_num (sb_arr x) = Z.of_nat (length (enc chs)) + 1.
Proof. intros (_ & (_ & N & _) & _). rewrite N, app_length. cbn [length]. lia. Qed.
Lemma bchars_small x chs : bchars x chs -> Z.of_nat (length chs) < 2^30.
Proof. intros (G & _ & _ & B). apply enc_len_ge in G. lia. Qed.

Lemma bchars_smem x chs : bchars x chs -> smem x = Ok (enc chs ++ [0]).
Proof.
  intros H. assert (N := bchars_num _ _ H). destruct H as (G & V & _ & B). unfold smem. rewrite N.
  assert (E := valid_cells (sb_arr x) _ 0 (length (enc chs) + 1) V). cbn [skipn plus] in E. rewrite app_length in E. cbn [length] in E.
  replace (Z.to_nat (Z.of_nat (length (enc chs)) + 1)) with (length (enc chs) + 1)%nat by lia. rewrite E by lia.
  rewrite firstn_all2 by (rewrite app_length; cbn [length]; lia). rewrite all_some_map. reflexivity.
Qed.
Lemma bchars_same x y chs : bchars x chs -> sb_arr y = sb_arr x -> (sb_n y = 0 \/ sb_n y = Z.of_nat (length chs)) -> bchars y chs.
Proof. intros (G & V & _ & B) E N. split; [exact G|]. rewrite E. auto. Qed.

Lemma count_loop_spec l : Forall good l -> forall fuel pre rest n, (length l <= fuel)%nat -> 0 <= n -> n + Z.of_nat (length l) < 2^32 ->
  count_loop fuel (pre ++ enc l ++ 0 :: rest) (length pre) (length pre + length (enc l)) n = Ok (n + Z.of_nat (length l)).
Proof.
  induction 1 as [|c l G GL IH]; intros fuel pre rest n Hf Hn HB.
  - destruct fuel; cbn [count_loop enc_nil length]; rewrite enc_nil; cbn [length]; (destruct (Nat.ltb_spec (length pre) (length pre + 0)); [lia|]); f_equal; lia.
  - destruct fuel as [|fuel]; cbn [length] in Hf; [lia|]. assert (PL := put_len_pos _ G). cbn [count_loop].
    assert (EL : length (enc (c :: l)) = (length (UTF8Put c) + length (enc l))%nat) by (rewrite enc_cons, app_length; reflexivity).
    destruct (Nat.ltb_spec (length pre) (length pre + length (enc (c :: l)))); [|lia].
    rewrite skipn_app, skipn_all2 by lia. rewrite Nat.sub_diag. cbn [skipn app]. rewrite enc_cons, <- app_assoc, get_good by exact G. cbn [obind fst snd].
    destruct (Z.eqb_spec c UCS4_NONE).
    { exfalso. destruct G as [_ G]. apply G. right. exact e. }
    rewrite app_length. cbn [orb]. destruct (Nat.ltb_spec (length pre + (length (UTF8Put c) + length (enc l))) (length pre + length (UTF8Put c))); [lia|].
    replace (length pre + (length (UTF8Put c) + length (enc l)))%nat with (length (pre ++ UTF8Put c) + length (enc l))%nat by (rewrite app_length; lia).
    replace (length pre + length (UTF8Put c))%nat with (length (pre ++ UTF8Put c)) by apply app_length.
    rewrite app_assoc. cbn [length] in HB.
    replace (u32 (n + 1)) with (n + 1) by (unfold u32; lia). rewrite IH by lia. f_equal. cbn [length]. lia.
Qed.

Lemma num_chars_spec x chs : bchars x chs ->
  exists y, num_chars x = Ok (y, Z.of_nat (length chs)) /\ sb_arr y = sb_arr x /\ bchars y chs /\ sb_n y = Z.of_nat (length chs).
Proof.
  intros H. assert (S := bchars_small _ _ H). assert (M := bchars_smem _ _ H). unfold num_chars.
  destruct (Z.eqb_spec (sb_n x) 0) as [Z0|NZ].
  - rewrite M. cbn [obind]. rewrite app_length. cbn [length].
    assert (C := count_loop_spec chs (proj1 H) (length (enc chs) + 1) [] [] 0). cbn [app length] in C.
    assert (G := enc_len_ge chs (proj1 H)).
    replace (length (enc chs) + 1 - 1)%nat with (0 + length (enc chs))%nat by lia. rewrite C by lia. cbn [obind].
    rewrite Z.add_0_l. eexists. split; [reflexivity|]. split; [reflexivity|]. split; [|reflexivity]. eapply bchars_same; [exact H|reflexivity|]. right. reflexivity.
  - exists x. destruct H as (G & V & [N|N] & B); [lia|]. rewrite N. split; [reflexivity|]. split; [reflexivity|].
    split; [split; auto|reflexivity].
Qed.

(** ** Bookmarks *)
(** A bookmark is absent, or names a character and its byte position, or was
    wrapped below zero by copyBody. *)
Definition mark_ok (chs : list Z) (mk : Z * Z) : Prop :=
  fst mk = 0 \/
  (exists c, mk = (Z.of_nat c, Z.of_nat (bpos chs c)) /\ (0 < c <= length chs)%nat) \/
  (2^31 <= fst mk < 2^32 /\ 2^31 <= snd mk < 2^32).

Lemma fwd_spec chs tl : Forall good chs -> forall k fuel sc n ep, (n - sc = k)%nat -> (sc <= n <= length chs)%nat -> (k <= fuel)%nat ->
  Z.of_nat (bpos chs n) <= ep -> Z.of_nat (length chs) < 2^31 ->
  fwd fuel (enc chs ++ tl) (Z.of_nat (bpos chs sc)) (Z.of_nat sc) ep (Z.of_nat n) = Ok (Z.of_nat (bpos chs n)).
Proof.
  intros G. induction k as [|k IH]; intros fuel sc n ep K R F E B.
  - replace sc with n by lia. destruct fuel; cbn [fwd]; (destruct (Z.ltb_spec (Z.of_nat n) (Z.of_nat n)); [lia|reflexivity]).
  - destruct fuel as [|fuel]; [lia|]. cbn [fwd]. assert (L := bpos_lt chs sc n G ltac:(lia)).
    destruct (Z.ltb_spec (Z.of_nat sc) (Z.of_nat n)); [|lia]. destruct (Z.ltb_spec (Z.of_nat (bpos chs sc)) ep); [|lia]. cbn [andb].
    destruct (Z.ltb_spec (Z.of_nat (bpos chs sc)) 0); [lia|]. rewrite Nat2Z.id.
    destruct (nth_some_lt chs sc ltac:(lia)) as [c Hc]. rewrite (skipn_at _ _ _ _ Hc).
    assert (GC : good c) by (eapply Forall_forall; [exact G|eapply nth_error_In; exact Hc]).
    rewrite lenptr_good by exact GC. cbn [obind]. assert (BS := bpos_S _ _ _ Hc).
    replace (Z.of_nat (bpos chs sc) + Z.of_nat (length (UTF8Put c))) with (Z.of_nat (bpos chs (S sc))) by lia.
    replace (u32 (Z.of_nat sc + 1)) with (Z.of_nat (S sc)) by (unfold u32; lia). apply IH; lia.
Qed.

Lemma bwd_spec chs tl : Forall good chs -> forall k fuel ec n up, (ec - n = k)%nat -> (n <= ec <= length chs)%nat -> (k <= fuel)%nat ->
  up <= Z.of_nat (bpos chs n) -> Z.of_nat (length chs) < 2^31 ->
  bwd fuel (enc chs ++ tl) up (Z.of_nat (bpos chs ec)) (Z.of_nat ec) (Z.of_nat n) = Ok (Z.of_nat (bpos chs n)).
Proof.
  intros G. induction k as [|k IH]; intros fuel ec n up K R F E B.
  - replace ec with n by lia. destruct fuel; cbn [bwd]; (destruct (Z.gtb_spec (Z.of_nat n) (Z.of_nat n)); [lia|reflexivity]).
  - destruct fuel as [|fuel]; [lia|]. cbn [bwd]. assert (L := bpos_lt chs n ec G ltac:(lia)).
    destruct (Z.gtb_spec (Z.of_nat ec) (Z.of_nat n)); [|lia]. destruct (Z.gtb_spec (Z.of_nat (bpos chs ec)) up); [|lia]. cbn [andb].
    destruct ec as [|e]; [lia|]. destruct (nth_some_lt chs e ltac:(lia)) as [c Hc].
    assert (GC : good c) by (eapply Forall_forall; [exact G|eapply nth_error_In; exact Hc]).
    assert (BS := bpos_S _ _ _ Hc). rewrite (split_char _ _ _ Hc), <- !app_assoc. rewrite BS.
    unfold bpos at 1. rewrite (backup_seq _ _ c) by (try (apply put_seq; apply GC); lia). cbn [obind].
    rewrite app_assoc, app_assoc, <- (app_assoc (enc (firstn e chs))), <- (split_char _ _ _ Hc).
    change (length (enc (firstn e chs))) with (bpos chs e).
    replace (u32 (Z.of_nat (S e) - 1)) with (Z.of_nat e) by (unfold u32; lia). apply IH; lia.
Qed.

Lemma bpos_ascii_full chs : Forall good chs -> length (enc chs) = length chs -> forall k, (k <= length chs)%nat -> bpos chs k = k.
Proof.
  intros G E k H. assert (A := bpos_ge chs k G H). rewrite <- (firstn_skipn k chs), enc_app, !app_length in E.
  assert (B : (length (skipn k chs) <= length (enc (skipn k chs)))%nat).
  { apply enc_len_ge. apply Forall_forall. intros c Hc. eapply Forall_forall; [exact G|]. rewrite <- (firstn_skipn k chs). apply in_app_iff. right. exact Hc. }
  unfold bpos in *. rewrite firstn_length in E. lia.
Qed.

Lemma nth_char_spec x chs n mk : bchars x chs -> (n <= length chs)%nat -> mark_ok chs mk ->
  exists y mk', nth_char x (Z.of_nat n) mk = Ok (y, mk', Z.of_nat (bpos chs n)) /\ sb_arr y = sb_arr x /\ bchars y chs /\
    (mk' = mk \/ ((3 < n)%nat /\ mk' = (Z.of_nat n, Z.of_nat (bpos chs n)))).
Proof.
  intros H Hn M. assert (NU := bchars_num _ _ H). assert (SM := bchars_small _ _ H). assert (G := proj1 H).
  unfold nth_char. destruct ((Z.of_nat n =? 0) || (sb_n x =? b_num (sb_arr x) - 1)) eqn:FP.
  - exists x, mk. assert (E : Z.of_nat (bpos chs n) = Z.of_nat n).
    { apply orb_true_iff in FP as [Z0|FP].
      - replace n with 0%nat by lia. reflexivity.
      - destruct H as (_ & _ & [N|N] & _).
        + assert (length (enc chs) = 0%nat) by lia. assert (L := enc_len_ge _ G). replace n with 0%nat by lia. reflexivity.
        + f_equal. apply bpos_ascii_full; [exact G|lia|exact Hn]. }
    rewrite E. auto 10.
  - destruct (num_chars_spec x chs H) as (y & -> & EA & HY & NY). cbn [obind]. unfold cassert.
    destruct (Z.leb_spec (Z.of_nat n) (Z.of_nat (length chs))); [|lia].
    rewrite (bchars_smem _ _ HY). cbn [obind]. cbv zeta. rewrite NU.
    assert (LE := enc_len_ge _ G). assert (BA := bpos_all chs (length chs) (le_n _)).
    assert (FU : (length chs <= S (length (enc chs ++ [0%Z])))%nat) by (rewrite app_length; cbn [length]; lia).
    assert (P : exists up sc ep ec, (if fst mk >? 0
        then if Z.of_nat n >=? fst mk then (snd mk, fst mk, Z.of_nat (length (enc chs)) + 1 - 1, Z.of_nat (length chs)) else (0, 0, snd mk, fst mk)
        else (0, 0, Z.of_nat (length (enc chs)) + 1 - 1, Z.of_nat (length chs))) = (up, sc, ep, ec) /\
      (if u32 (Z.of_nat n - sc) <? u32 (ec - Z.of_nat n) then fwd (S (length (enc chs ++ [0]))) (enc chs ++ [0]) up sc ep (Z.of_nat n)
       else bwd (S (length (enc chs ++ [0]))) (enc chs ++ [0]) up ep ec (Z.of_nat n)) = Ok (Z.of_nat (bpos chs n))).
    { assert (BM := bpos_max chs n).
      assert (T0 : (if u32 (Z.of_nat n - 0) <? u32 (Z.of_nat (length chs) - Z.of_nat n)
         then fwd (S (length (enc chs ++ [0]))) (enc chs ++ [0]) 0 0 (Z.of_nat (length (enc chs)) + 1 - 1) (Z.of_nat n)
         else bwd (S (length (enc chs ++ [0]))) (enc chs ++ [0]) 0 (Z.of_nat (length (enc chs)) + 1 - 1) (Z.of_nat (length chs)) (Z.of_nat n)) = Ok (Z.of_nat (bpos chs n))).
      { destruct (_ <? _).
        - apply (fwd_spec chs [0] G n _ 0 n); lia.
        - replace (Z.of_nat (length (enc chs)) + 1 - 1) with (Z.of_nat (bpos chs (length chs))) by lia.
          apply (bwd_spec chs [0] G (length chs - n)); lia. }
      destruct M as [M|[(c & -> & Hc)|[M1 M2]]].
      - rewrite M. cbn [Z.gtb Z.compare]. do 4 eexists. split; [reflexivity|exact T0].
      - cbn [fst snd]. destruct (Z.gtb_spec (Z.of_nat c) 0); [|lia]. destruct (Z.geb_spec (Z.of_nat n) (Z.of_nat c)).
        + do 4 eexists. split; [reflexivity|]. match goal with |- (if ?b then _ else _) = _ => destruct b end.
          * apply (fwd_spec chs [0] G (n - c)); lia.
          * replace (Z.of_nat (length (enc chs)) + 1 - 1) with (Z.of_nat (bpos chs (length chs))) by lia.
            apply (bwd_spec chs [0] G (length chs - n)); try lia. assert (Q := bpos_le chs c n ltac:(lia)). lia.
        + do 4 eexists. split; [reflexivity|]. match goal with |- (if ?b then _ else _) = _ => destruct b end.
          * apply (fwd_spec chs [0] G n _ 0 n); try lia. assert (Q := bpos_le chs n c ltac:(lia)). lia.
          * apply (bwd_spec chs [0] G (c - n)); lia.
      - destruct (Z.gtb_spec (fst mk) 0); [|lia]. destruct (Z.geb_spec (Z.of_nat n) (fst mk)); [lia|].
        do 4 eexists. split; [reflexivity|]. unfold u32.
        destruct (Z.ltb_spec ((Z.of_nat n - 0) mod 4294967296) ((fst mk - Z.of_nat n) mod 4294967296)); [|lia].
        destruct H as (_ & _ & _ & HB). apply (fwd_spec chs [0] G n _ 0 n); lia. }
    destruct P as (up & sc & ep & ec & -> & ->). cbn [obind].
    eexists y, _. split; [reflexivity|]. split; [exact EA|]. split; [exact HY|].
    destruct (Z.gtb_spec (Z.of_nat n) 3); cbn [andb]; [|left; reflexivity]. destruct (_ <? _); [right; split; [lia|reflexivity]|left; reflexivity].
Qed.
