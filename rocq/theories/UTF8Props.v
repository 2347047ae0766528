(** Property theorems C01-C07: UTF-8.  Specification vocabulary: UTF8Spec.v. *)
From Verif Require Import Base UTF8Model UTF8Spec UTF8Proofs.

(** C01: encode/decode round trip, whatever follows in memory. *)
Theorem C01_utf8_roundtrip :
  forall ch rest, ucs4 ch -> ~ replacement ch ->
    UTF8Get (UTF8Put ch ++ rest) = Ok (ch, length (UTF8Put ch)).
Proof. intros ch rest H R. exact (get_seq _ _ rest (put_seq ch H R)). Qed.
Print Assumptions C01_utf8_roundtrip.

Example C01_ex : ucs4 0x1F389 /\ ~ replacement 0x1F389 /\ UTF8Put 0x1F389 = [0xF0; 0x9F; 0x8E; 0x89].
Proof. repeat split; unfold replacement; try lia; vm_compute; reflexivity. Qed.

(** The excluded codes each write one raw byte, and a byte that starts nothing
    reads back as its 0x800000xx code. *)
Theorem C01_replacement_codes :
  forall b rest, is_byte b -> bytes rest ->
    UTF8Put (0x80000000 + b) = [b] /\
    (bad_start (b :: rest ++ [0]) -> UTF8Get (b :: rest ++ [0]) = Ok (0x80000000 + b, 1%nat)).
Proof.
  intros b rest Hb Hr. split; [exact (put_stray b Hb)|]. intros Hbad.
  assert (Hm : bytes (b :: rest ++ [0])) by (constructor; [exact Hb|exact (bytes_nul _ Hr)]).
  destruct (get_nul _ (S (length rest)) Hm) as ([ch k] & G).
  { simpl. rewrite nth_error_app2, Nat.sub_diag by lia. reflexivity. }
  destruct (get_bad _ Hm Hbad _ _ G) as (-> & b' & r & E & ->). inversion E; subst. exact G.
Qed.
Print Assumptions C01_replacement_codes.

Example C01_replacement_ex : bad_start [0xE2; 0x82; 0x41; 0].
Proof.
  intros a b ch E Q. assert (G := get_seq a ch b Q). rewrite <- E in G.
  replace (UTF8Get [0xE2; 0x82; 0x41; 0]) with (Ok (0x800000E2, 1%nat)) in G by reflexivity.
  injection G as E1 E2. subst ch.
  apply seq_bounds in Q as (B & L & _). rewrite <- E2 in B. simpl in B. lia.
Qed.

(** C02: the length function is what the encoder writes, is the shortest
    possible, and is announced by the first byte. *)
Theorem C02_utf8_length :
  forall ch, ucs4 ch ->
    length (UTF8Put ch) = UTF8Len ch /\ (1 <= UTF8Len ch <= 6)%nat /\
    (~ replacement ch ->
       shortest (UTF8Put ch) ch /\
       exists lead tl, UTF8Put ch = lead :: tl /\
         UTF8CorrectLen lead = UTF8Len ch /\ UTF8Is1st lead = true /\
         Forall (fun b => UTF8Is2nd b = true) tl).
Proof.
  intros ch H. split; [exact (put_length ch H)|]. split.
  - destruct (UCS4IsIllegal ch) eqn:E.
    + apply illegal_spec in E; [|exact H]. rewrite len_repl by assumption. lia.
    + destruct (len_cases ch H) as (n & -> & Hn & _); [|exact Hn].
      intros R; apply illegal_spec in R; [congruence|exact H].
  - intros R. split; [exact (put_shortest ch H R)|].
    destruct (put_seq ch H R) as (lead & tl & lo & pay & E & F & Hl & Ht & _).
    exists lead, tl. split; [exact E|].
    destruct (form_correctlen _ _ _ _ F Hl) as [CL _].
    split; [rewrite CL; exact (put_length ch H)|].
    apply form_some in F. split.
    + rewrite is1st_spec by (unfold is_byte; lia). lia.
    + eapply Forall_impl; [|exact Ht]. unfold continuation. intros b Hb.
      rewrite is2nd_spec by (unfold is_byte; lia). lia.
Qed.
Print Assumptions C02_utf8_length.

Example C02_ex : UTF8Len 0x7FF = 2%nat /\ UTF8Len 0x800 = 3%nat /\ UTF8Len 0xFFFFFFFE = 6%nat.
Proof. repeat split. Qed.

(** C03: decoding at any position of any memory moves 1..6 bytes, over
    continuation bytes only, and UTF8Len(pointer) predicts the move.  The
    character is the value of the complete sequence there or, if none starts
    there, the replacement code of the byte.  (Six readable bytes are required
    by UTF8Len(pointer): see C05.) *)
Theorem C03_utf8_progress :
  forall m, bytes m -> (6 <= length m)%nat ->
    exists ch k, UTF8Get m = Ok (ch, k) /\ UTF8LenPtr m = Ok k /\ (1 <= k <= 6)%nat /\
      (forall j b, (0 < j < k)%nat -> nth_error m j = Some b -> continuation b) /\
      (seq (firstn k m) ch \/
       bad_start m /\ k = 1%nat /\ exists b r, m = b :: r /\ ch = 0x80000000 + b).
Proof.
  intros m Hm HL. destruct (lenptr_get m Hm HL) as (ch & k & G & P).
  exists ch, k. split; [exact G|]. split; [exact P|].
  destruct (get_advance _ _ _ Hm G) as [A B]. split; [exact A|].
  destruct (get_inv _ _ _ Hm G) as [[Q L]|Q].
  - split; [|left; exact Q].
    destruct Q as (lead & tl & lo & pay & E & _ & _ & C & _).
    intros j b Hj Hb. destruct j as [|j]; [lia|].
    rewrite <- (firstn_skipn k m), E in Hb. simpl in Hb.
    rewrite E in L. cbn [length] in L. rewrite nth_error_app1 in Hb by lia.
    eapply Forall_forall; [exact C|]. eapply nth_error_In; exact Hb.
  - split; [|right; exact Q]. destruct Q as (_ & -> & _). intros; lia.
Qed.
Print Assumptions C03_utf8_progress.

Example C03_ex : UTF8Get [0xE2; 0x82; 0xAC; 65; 0; 0] = Ok (0x20AC, 3%nat) /\
                 UTF8Get [0xE2; 0x82; 0x41; 65; 0; 0] = Ok (0x800000E2, 1%nat).
Proof. split; vm_compute; reflexivity. Qed.

(** C04: decode-everything / encode-everything.  It is always defined, never
    grows the text, and is the identity exactly on the clean byte strings. *)
Theorem C04_passthrough :
  forall s, bytes s ->
    exists chs, decode_all s = Ok chs /\
      (length (encode_all chs) <= length s)%nat /\
      (encode_all chs = s <-> clean s).
Proof.
  intros s Hs. destruct (decode_all_total s Hs) as (chs & D). exists chs. split; [exact D|].
  split; [exact (reencode_le chs s Hs D)|]. split.
  - exact (reencode_clean chs s Hs D).
  - intros C. destruct (clean_roundtrip s C Hs) as (chs' & D' & E). congruence.
Qed.
Print Assumptions C04_passthrough.

(** A malformed text that is clean: e-acute, a truncated lead byte, 'A'. *)
Example C04_ex : exists chs, decode_all [0xC3; 0xA9; 0xE2; 0x82; 0x41] = Ok chs /\
   encode_all chs = [0xC3; 0xA9; 0xE2; 0x82; 0x41] /\ chs = [0xE9; 0x800000E2; 0x80000082; 0x41].
Proof. eexists. split; [vm_compute; reflexivity|]. split; vm_compute; reflexivity. Qed.
(** And one that is not: the over-long NUL is compacted. *)
Example C04_ex_overlong : exists chs, decode_all [0xC0; 0x80] = Ok chs /\ encode_all chs = [0].
Proof. eexists. split; [vm_compute; reflexivity|]. vm_compute; reflexivity. Qed.

(** Compaction is not idempotent on spelled-out replacement codes: a second
    pass changes the text again. *)
Theorem C04_idempotent_refuted :
  exists s c1 c2, bytes s /\ decode_all s = Ok c1 /\ decode_all (encode_all c1) = Ok c2 /\
    length c2 <> length c1.
Proof.
  exists [0xC3; 0xFE; 0x80; 0x80; 0x80; 0x82; 0xB8], [0x800000C3; 0x800000B8], [0xF8].
  split; [repeat constructor; unfold is_byte; lia|].
  split; [vm_compute; reflexivity|]. split; [vm_compute; reflexivity|]. discriminate.
Qed.
Print Assumptions C04_idempotent_refuted.

(** C05: reading a character never needs a byte after the first NUL: the bytes
    after it may be absent, and the result does not depend on them. *)
Theorem C05_get_stops_at_nul :
  forall s after, bytes s -> bytes after ->
    exists ch k, UTF8Get (s ++ [0]) = Ok (ch, k) /\ UTF8Get (s ++ 0 :: after) = Ok (ch, k) /\
      (s <> [] -> (k <= length s)%nat).
Proof.
  intros s after Hs Ha.
  destruct (get_nul (s ++ [0]) (length s) (bytes_nul _ Hs)) as ([ch k] & G).
  { rewrite nth_error_app2, Nat.sub_diag by lia. reflexivity. }
  exists ch, k. split; [exact G|]. split.
  - assert (M : forall n i x r, UTF8Get_cont (s ++ [0]) n i x = Ok r -> UTF8Get_cont (s ++ 0 :: after) n i x = Ok r).
    { induction n as [|n IH]; intros i x r H; [exact H|]. cbn [UTF8Get_cont] in *.
      apply obind_ok in H as (b & R & H). apply rd_ok in R.
      assert (R' : rd (s ++ 0 :: after) i = Ok b).
      { apply rd_ok. change (0 :: after) with ([0] ++ after). rewrite app_assoc, nth_error_app1; [exact R|].
        apply nth_error_Some. congruence. }
      rewrite R'. cbn [obind]. destruct (UTF8Is1st b); [exact H|apply IH; exact H]. }
    unfold UTF8Get in *. destruct s as [|c s]; [exact G|].
    unfold rd in *; cbn [nth_error app obind] in *.
    destruct (UTF8CorrectLen c); [exact G|].
    apply obind_ok in G as (r & G & H). cbn [app] in M. rewrite (M _ _ _ _ G). exact H.
  - intros Hne. exact (proj2 (get_within s [] ch k Hs ltac:(constructor) Hne G)).
Qed.
Print Assumptions C05_get_stops_at_nul.

Example C05_ex : UTF8Get [0xFC; 0] = Ok (0x800000FC, 1%nat).
Proof. reflexivity. Qed.

(** UTF8Len(pointer) checks the last continuation byte first and so reads
    beyond the terminator of a truncated sequence. *)
Theorem C05_len_of_pointer_refuted :
  exists s, bytes s /\ UTF8LenPtr (s ++ [0]) = UB.
Proof. exists [0xFC]. split; [repeat constructor; unfold is_byte; lia|reflexivity]. Qed.
Print Assumptions C05_len_of_pointer_refuted.

(** C06: backing up over a complete character, wherever it stands. *)
Theorem C06_backup_partial :
  forall pre s ch rest limit, seq s ch ->
    match limit with None => True | Some l => l <= Z.of_nat (length pre) end ->
    UTF8Get (s ++ rest) = Ok (ch, length s) /\
    UTF8Backup (pre ++ s ++ rest) (Z.of_nat (length pre + length s)) limit
      = Ok (Some (Z.of_nat (length pre))).
Proof. intros pre s ch rest limit Q L. exact (conj (get_seq s ch rest Q) (backup_seq pre s ch rest limit Q L)). Qed.
Print Assumptions C06_backup_partial.

Example C06_ex : seq [0xE2; 0x82; 0xAC] 0x20AC.
Proof. exists 0xE2, [0x82; 0xAC], 0xE0, 16. repeat split; try lia. repeat constructor; unfold continuation; lia. Qed.

(** With a limit inside the buffer, backing up stays in bounds, moves 1..6
    bytes back and never before the limit, on any bytes. *)
Theorem C06_backup_in_bounds :
  forall m cp l, bytes m -> 0 <= l -> l < cp -> cp <= Z.of_nat (length m) ->
    exists p, UTF8Backup m cp (Some l) = Ok (Some p) /\ l <= p /\ cp - 6 <= p < cp.
Proof. exact backup_range. Qed.
Print Assumptions C06_backup_in_bounds.

(** On malformed text stepping back is not the inverse of stepping forward:
    E4 B8 41 reads as three characters, at 0, 1 and 2, but backing up from 2
    lands on 0. *)
Theorem C06_backup_refuted :
  exists m c1 c2, bytes m /\ UTF8Get m = Ok (c1, 1%nat) /\ UTF8Get (skipn 1 m) = Ok (c2, 1%nat) /\
    UTF8Backup m 2 (Some 0) <> Ok (Some 1).
Proof.
  exists [0xE4; 0xB8; 0x41; 0], 0x800000E4, 0x800000B8.
  split; [repeat constructor; unfold is_byte; lia|]. repeat split. vm_compute. discriminate.
Qed.
Print Assumptions C06_backup_refuted.

(** C07: UTF8PutPaddedZero writes the right number of bytes, and for lengths
    0 and 1 they read back as one NUL ... *)
Theorem C07_padded_zero_partial :
  forall n, 0 <= n <= 6 ->
    exists s, UTF8PutPaddedZero n = Ok s /\ Z.of_nat (length s) = Z.max n 1 /\
      (n <= 1 -> forall rest, UTF8Get (s ++ rest) = Ok (0, 1%nat)).
Proof.
  intros n Hn.
  assert (D : n = 0 \/ n = 1 \/ n = 2 \/ n = 3 \/ n = 4 \/ n = 5 \/ n = 6) by lia.
  destruct D as [->|[->|[->|[->|[->|[->| ->]]]]]]; eexists; (split; [reflexivity|]); (split; [reflexivity|]);
    intros; try lia; reflexivity.
Qed.
Print Assumptions C07_padded_zero_partial.

(** ... but for every length from 2 to 6 they do not: the lead byte is taken
    from the wrong column of the table. *)
Theorem C07_padded_zero_refuted :
  forall n, 2 <= n <= 6 ->
    exists s, UTF8PutPaddedZero n = Ok s /\ UTF8Get (s ++ [0]) <> Ok (0, Z.to_nat n).
Proof.
  intros n Hn. assert (D : n = 2 \/ n = 3 \/ n = 4 \/ n = 5 \/ n = 6) by lia.
  destruct D as [->|[->|[->|[->| ->]]]]; eexists; (split; [reflexivity|]); vm_compute; discriminate.
Qed.
Print Assumptions C07_padded_zero_refuted.
