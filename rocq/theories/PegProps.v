(** Properties C30-C36: the Pegexp matcher and the Peg parser. *)
From Coq Require Import Sorting.Permutation Sorting.Sorted.
From Coq Require Strings.String Strings.Ascii.
From Verif Require Import Base UTF8Model UTF8Spec UTF8Proofs PegModel PegSpec PegText PegSrc PegEval PegSkip PegMatch
  PegTotal PegLookup PegAscii PegGram PegQuiet.
Import Strings.String.StringSyntax.

(** The codes of a text, for the examples. *)
Fixpoint codes (s : String.string) : list Z :=
  match s with
  | String.EmptyString => []
  | String.String c s => Z.of_nat (Ascii.nat_of_ascii c) :: codes s
  end.
Arguments codes s%string_scope.
Example codes_ex : codes "aZ" = [97; 90].
Proof. reflexivity. Qed.

Definition lit (c : Z) : pe := Char (Lit c).

(** The dialects: a plain Pegexp, with and without labels and \a-like escapes;
    a grammar without labels on atoms. *)
Definition plain_dialect (labels kinds : bool) : dialect := mkdialect false labels kinds.
Definition peg_dialect (labels kinds : bool) : dialect := mkdialect true labels kinds.

(** ** C30: the matcher implements the meaning of the notation *)

(** A plain Pegexp, matched at any position of any text. [P] is any kind of
    context; [snth tx n] is the source after reading [n] characters.  The
    escapes for kinds of characters need characters below 256. *)
Theorem C30_match_partial : forall labels kinds P pat e tx cs n cx,
  spells (plain_dialect labels kinds) e pat ->
  textb tx -> decode_all tx = Ok cs -> (n <= length cs)%nat ->
  (kinds = true -> Forall (fun c => 0 <= c <= 255) cs) ->
  exists r, eval [] (fun _ => true) cs (mkenv [] None) (0 <? c_rep cx)%nat e n r /\
    exists cx' b, forall f, (b <= f)%nat ->
      match_here f Plain P pat [] (snth tx n) cx =
      Done (match r with
            | Some (m, _) => (false, snth tx m, cx')
            | None => (true, snth tx n, cx')
            end).
Proof.
  intros labels kinds P pat e tx cs n cx Hs Htx Hcs Hn Hk.
  assert (NC : forall X : Prop, False -> X) by contradiction.
  destruct (plain_run (plain_dialect labels kinds) P (fun _ => true) tx cs False eq_refl Hk Htx Hcs
     (NC _) (NC _) (NC _) (NC _) e pat [] n cx Hs Hn) as (r & E & H).
  exists r. split; [exact E|]. destruct r as [[m l]|]; destruct H as (cx' & _ & b & K); exists cx', b; exact K.
Qed.

(** Such a meaning is unique, so the theorem determines the outcome. *)
Theorem C30_meaning_unique : forall G keep cs w rp e n r r',
  eval G keep cs w rp e n r -> eval G keep cs w rp e n r' -> r = r'.
Proof. exact eval_det. Qed.

(** Searching finds the leftmost match. *)
Theorem C30_search_partial : forall labels kinds P pat e tx cs initial cx,
  spells (plain_dialect labels kinds) e pat ->
  textb tx -> decode_all tx = Ok cs ->
  (kinds = true -> Forall (fun c => 0 <= c <= 255) cs) ->
  let means := eval [] (fun _ => true) cs (mkenv [] None) (0 <? c_rep cx)%nat e in
  exists b found s s' cx', (forall f, (b <= f)%nat ->
      search f Plain P pat [] initial (src_start tx) cx = Done (found, s, s', cx')) /\
    ((exists n m l, found = true /\ s = snth tx n /\ s' = snth tx m /\ means n (Some (m, l)) /\
        forall k, (k < n)%nat -> means k None) \/
     (found = false /\ forall k, (k <= length cs)%nat -> means k None)).
Proof.
  intros labels kinds P pat e tx cs initial cx Hs Htx Hcs Hk means.
  assert (G : forall d n cx0, (length cs - n <= d)%nat -> (n <= length cs)%nat -> c_rep cx0 = c_rep cx ->
     (forall k, (k < n)%nat -> means k None) ->
     exists b found s s' cx', (forall f, (b <= f)%nat ->
        search f Plain P pat [] initial (snth tx n) cx0 = Done (found, s, s', cx')) /\
      ((exists n m l, found = true /\ s = snth tx n /\ s' = snth tx m /\ means n (Some (m, l)) /\
        forall k, (k < n)%nat -> means k None) \/
       (found = false /\ forall k, (k <= length cs)%nat -> means k None))).
  { induction d as [|d IH]; intros n cx0 Hd Hn Hc Hb;
      assert (Hr : c_rep (roll P cx0 initial) = c_rep cx)
        by (unfold roll; destruct (pol_roll P (c_caps cx0) initial) as [? []]; exact Hc);
      assert (NC : forall X : Prop, False -> X) by contradiction;
      destruct (plain_run (plain_dialect labels kinds) P (fun _ => true) tx cs False eq_refl Hk Htx Hcs
         (NC _) (NC _) (NC _) (NC _) e pat [] n (roll P cx0 initial) Hs Hn) as (r & E & H);
      rewrite Hr in E; fold means in E; destruct r as [[m l]|];
      destruct H as (cx1 & (_ & Hrep & _) & b & K).
    1,3: exists (S b), true, (snth tx n), (snth tx m), cx1; split;
      [intros f Hf; destruct f as [|f]; [lia|]; cbn [search]; rewrite K by lia; reflexivity
      |left; exists n, m, l; auto].
    - assert (n = length cs) by lia. subst n. exists (S b), false, (snth tx (length cs)), (snth tx (length cs)), cx1.
      split.
      + intros f Hf. destruct f as [|f]; [lia|]. cbn [search]. rewrite K by lia. cbn [rbind negb].
        rewrite (snth_eof tx cs Htx Hcs) by lia. rewrite (proj2 (nth_error_None cs (length cs)) (le_n _)). reflexivity.
      + right. split; [reflexivity|]. intros k Hk'. destruct (Nat.eq_dec k (length cs)) as [->|]; [exact E|]. apply Hb. lia.
    - destruct (nth_error cs n) as [c|] eqn:En.
      + assert (n < length cs)%nat by (apply nth_error_Some; congruence).
        assert (Hb' : forall k, (k < S n)%nat -> means k None).
        { intros k Hk'. destruct (Nat.eq_dec k n) as [->|]; [exact E|]. apply Hb. lia. }
        destruct (IH (S n) cx1 ltac:(lia) ltac:(lia) ltac:(congruence) Hb') as (b' & found & s & s' & cx' & K' & F).
        exists (S (max b b')), found, s, s', cx'. split; [|exact F].
        intros f Hf. destruct f as [|f]; [lia|]. cbn [search]. rewrite K by lia. cbn [rbind negb].
        rewrite (snth_eof tx cs Htx Hcs) by lia. rewrite En. rewrite (snth_get tx cs Htx Hcs n c En). cbn [rbind snd].
        apply K'. lia.
      + assert (n = length cs) by (apply nth_error_None in En; lia). subst n.
        exists (S b), false, (snth tx (length cs)), (snth tx (length cs)), cx1. split.
        * intros f Hf. destruct f as [|f]; [lia|]. cbn [search]. rewrite K by lia. cbn [rbind negb].
          rewrite (snth_eof tx cs Htx Hcs) by lia. rewrite En. reflexivity.
        * right. split; [reflexivity|]. intros k Hk'. destruct (Nat.eq_dec k (length cs)) as [->|]; [exact E|]. apply Hb. lia. }
  apply (G (length cs) 0%nat cx); auto; try lia.
Qed.

(** A grammar: parse matches the expression of TOP, calls meaning the called
    rules.  [rs] is the sorted table of rules. *)
Theorem C30_parse_partial : forall labels kinds P G rules rs tx cs e w r,
  grammar_text (peg_dialect labels kinds) G rules -> Permutation rs rules -> sorted rs ->
  textb tx -> decode_all tx = Ok cs ->
  (kinds = true -> Forall (fun c => 0 <= c <= 255) cs) ->
  assoc G TOP = Some (e, w) ->
  eval G (fun _ => true) cs (mkenv w None) false e 0 r ->
  exists cx' b, forall f, (b <= f)%nat ->
    parse f P rs tx =
    Ok (Done (match r with
              | Some (m, _) => (false, snth tx m, cx')
              | None => (true, snth tx 0, cx')
              end)).
Proof.
  intros labels kinds P G rules rs tx cs e w r Ht Hp Hs Htx Hcs Hk A E.
  assert (NC : forall X : Prop, False -> X) by contradiction.
  apply (eval_active_rule G (fun _ => true) cs w e 0 r TOP (Nat.le_0_l _) A) in E.
  pose proof (parse_run (peg_dialect labels kinds) P G (fun _ => true) rules rs tx cs False eq_refl Hk Htx Hcs Ht Hp Hs
     (NC _) (NC _) (NC _) (NC _) (NC _) (NC _) e w r A E) as H.
  destruct r as [[m l]|]; destruct H as (cx' & _ & b & K); exists cx', b; exact K.
Qed.

(** Non-vacuity: a pattern, its expression and what it means on a text. *)
Definition ex_pat : list Z := codes "^*[a-c\d]:w:?(|x|y!z)$".
Definition ex_e : pe :=
  Seq Bol (Seq (Star (Label (Char (Class false [Range 97 99; Has Digit])) (codes "w")))
    (Seq (Opt (Group (Or (lit 120) (Seq (lit 121) (Not (lit 122))))))
      (Seq Eol Eps))).

Example C30_ex_spells : spells (plain_dialect true true) ex_e ex_pat.
Proof.
  unfold spells, ex_e. let x := eval vm_compute in ex_pat in change ex_pat with x.
  change (codes "w") with [119].
  eapply x_atom. { apply a_prim, p_bare; [apply b_bol|cbn; lia]. }
  eapply x_atom.
  { apply a_star. eapply (p_label _ _ _ [119]).
    - reflexivity.
    - apply b_class; [|cbn; lia]. eapply it_range with (c1 := 97) (c2 := 99).
      + apply cc_plain; lia.
      + apply cc_plain; lia.
      + apply (it_kind _ Digit); [reflexivity|cbn; lia|]. apply it_end.
    - repeat constructor; unfold letter; lia.
    - apply le_colon. cbn. lia. }
  eapply x_atom.
  { apply a_opt, p_bare.
    - apply b_group. apply x_alts. eapply al_more.
      + apply br_one, a_prim, p_bare; [apply b_plain; [lia|cbv; intuition discriminate|discriminate]|cbn; lia].
      + apply al_last.
        * eapply br_more.
          -- apply a_prim, p_bare; [apply b_plain; [lia|cbv; intuition discriminate|discriminate]|cbn; lia].
          -- apply br_one, a_prim, p_not, p_bare; [apply b_plain; [lia|cbv; intuition discriminate|discriminate]|cbn; lia].
        * right. eauto.
    - cbn. lia. }
  eapply x_atom. { apply a_prim, p_bare; [apply b_eol|cbn; trivial]. }
  apply x_end. left. reflexivity.
Qed.

Example C30_ex_meaning : exists l,
  eval [] (fun _ => true) (codes "ab1y") (mkenv [] None) false ex_e 0 (Some (4%nat, l)) /\ length l = 3%nat.
Proof.
  eexists. split; [apply (peval_eval _ _ _ 20); vm_compute; reflexivity|reflexivity].
Qed.

Example C30_ex_fails :
  eval [] (fun _ => true) (codes "abyz") (mkenv [] None) false ex_e 0 None.
Proof. apply (peval_eval _ _ _ 20). vm_compute. reflexivity. Qed.

(** *** Where the notation does not mean what its description says *)

(** "Zero or one of the following expression", the expression being an
    alternation: the text must then match the rest of the last alternate. *)
Theorem C30_optional_alternation_refuted :
  let e := Opt (Or (lit 97) (Seq (lit 98) (lit 99))) in
  eval [] (fun _ => true) (codes "x") (mkenv [] None) false e 0 (Some (0%nat, [])) /\
  (forall f, (20 <= f)%nat -> exists cx',
     match_here f Plain null_policy (codes "?|a|bc") [] (src_start (codes "x")) ctx0
       = Done (true, src_start (codes "x"), cx')) /\
  eval [] (fun _ => true) (codes "c") (mkenv [] None) false e 0 (Some (0%nat, [])) /\
  (forall f, (20 <= f)%nat -> exists cx',
     match_here f Plain null_policy (codes "?|a|bc") [] (src_start (codes "c")) ctx0
       = Done (false, snth (codes "c") 1, cx')).
Proof.
  cbv zeta. split; [apply (peval_eval _ _ _ 9); reflexivity|].
  split; [intros f Hf; do 20 (destruct f as [|f]; [lia|]); eexists; reflexivity|].
  split; [apply (peval_eval _ _ _ 9); reflexivity|].
  intros f Hf; do 20 (destruct f as [|f]; [lia|]); eexists; reflexivity.
Qed.

Ltac steps := intros f Hf; do 30 (destruct f as [|f]; [lia|]); eexists; reflexivity.

(** "Continue only if A succeeds", A being an alternation: the remaining
    alternates must then match, too. *)
Theorem C30_lookahead_alternation_refuted :
  eval [] (fun _ => true) (codes "a") (mkenv [] None) false (Ahead (Or (lit 97) (lit 98))) 0 (Some (0%nat, [])) /\
  forall f, (30 <= f)%nat -> exists cx',
    match_here f Plain null_policy (codes "&|a|b") [] (src_start (codes "a")) ctx0
      = Done (true, src_start (codes "a"), cx').
Proof. split; [apply (peval_eval _ _ _ 9); reflexivity|]. steps. Qed.

(** A repetition as the operand of a repetition or of a lookahead. *)
Theorem C30_nested_operator_refuted :
  eval [] (fun _ => true) (codes "b") (mkenv [] None) false (Seq (Star (Plus (lit 97))) (lit 98)) 0 (Some (1%nat, [])) /\
  (forall f, (30 <= f)%nat -> exists cx',
    match_here f Plain null_policy (codes "*+ab") [] (src_start (codes "b")) ctx0
      = Done (true, src_start (codes "b"), cx')) /\
  eval [] (fun _ => true) (codes "b") (mkenv [] None) false (Seq (Ahead (Star (lit 97))) (lit 98)) 0 (Some (1%nat, [])) /\
  (forall f, (30 <= f)%nat -> exists cx',
    match_here f Plain null_policy (codes "&*ab") [] (src_start (codes "b")) ctx0
      = Done (true, src_start (codes "b"), cx')).
Proof.
  split; [apply (peval_eval _ _ _ 9); reflexivity|]. split; [steps|].
  split; [apply (peval_eval _ _ _ 9); reflexivity|]. steps.
Qed.

(** An empty alternate does not match the empty string. *)
Theorem C30_empty_alternate_refuted :
  eval [] (fun _ => true) (codes "b") (mkenv [] None) false (Or Eps (lit 97)) 0 (Some (0%nat, [])) /\
  forall f, (30 <= f)%nat -> exists cx',
    match_here f Plain null_policy (codes "||a") [] (src_start (codes "b")) ctx0
      = Done (true, src_start (codes "b"), cx').
Proof. split; [apply (peval_eval _ _ _ 9); reflexivity|]. steps. Qed.

(** A range that begins with a control escape: [\t-\r] does not contain the
    newline. *)
Theorem C30_escaped_range_refuted :
  eval [] (fun _ => true) [10] (mkenv [] None) false (Char (Class false [Range 9 13])) 0 (Some (1%nat, [])) /\
  forall f, (30 <= f)%nat -> exists cx',
    match_here f Plain null_policy (codes "[\t-\r]") [] (src_start [10]) ctx0
      = Done (true, src_start [10], cx').
Proof. split; [apply (peval_eval _ _ _ 9); reflexivity|]. steps. Qed.

(** "anychar: match that non-operator character": a character outside ASCII in
    a pattern (here U+E9) never matches itself. *)
Theorem C30_non_ascii_refuted :
  decode_all [195; 169] = Ok [233] /\
  eval [] (fun _ => true) [233] (mkenv [] None) false (lit 233) 0 (Some (1%nat, [])) /\
  forall f, (30 <= f)%nat -> exists cx',
    match_here f Plain null_policy [195; 169] [] (src_start [195; 169]) ctx0
      = Done (true, src_start [195; 169], cx').
Proof. split; [reflexivity|]. split; [apply (peval_eval _ _ _ 9); reflexivity|]. steps. Qed.

(** The escapes for kinds of characters call <cctype> with arguments out of its
    domain for characters above 255. *)
Theorem C30_kind_of_wide_character_refuted :
  decode_all [206; 177] = Ok [945] /\
  forall f, (30 <= f)%nat ->
    match_here f Plain null_policy (codes "\a") [] (src_start [206; 177]) ctx0 = Undef.
Proof. split; [reflexivity|]. intros f Hf; do 30 (destruct f as [|f]; [lia|]); reflexivity. Qed.

(** ** C31: failed atoms and lookahead consume nothing *)

(** For every pattern text, grammar, context and number of steps. *)
Theorem C31_failed_atom_restores : forall f L P pat ch p s cx q s' cx',
  match_atom f L P pat ch (p, s) cx = Done (false, (q, s'), cx') -> s' = s.
Proof.
  intros f L P pat ch p s cx q s' cx' H. destruct f as [|f]; [discriminate|]. cbn [match_atom] in H.
  destruct (match_switch f L P pat ch p s cx) as [[[[m [q1 s1]] cx1] sp]| |]; cbn [rbind] in H; try discriminate.
  destruct m; [|congruence].
  destruct (label_at f pat q1) as [[[nm|] q2]| |]; cbn [rbind fst snd] in H; discriminate.
Qed.

Theorem C31_lookahead_consumes_nothing : forall f L P pat ch p s cx ok q s' cx',
  rdp pat p = Done 38 \/ rdp pat p = Done 33 ->
  match_atom f L P pat ch (p, s) cx = Done (ok, (q, s'), cx') -> s' = s.
Proof.
  intros f L P pat ch p s cx ok q s' cx' Hp H. destruct f as [|f]; [discriminate|]. cbn [match_atom] in H.
  destruct f as [|f]; [discriminate|].
  assert (Hc : exists c, rdp pat p = Done c /\ (c = 38 \/ c = 33)) by (destruct Hp; eauto).
  destruct Hc as (c & Hc & Hc'). rewrite (sw_ahead L P pat ch p s cx f c Hc Hc') in H.
  destruct (match_atom f L P pat ch (S p, s) (set_dis cx (S (c_dis cx)))) as [[[m st] cx1]| |]; cbn [rbind] in H;
    try discriminate.
  cbv zeta in H. destruct (if c =? 33 then negb m else m).
  - destruct (skip_atom f L pat p) as [q1| |]; cbn [rbind] in H; try discriminate.
    destruct (label_at (S f) pat q1) as [[[nm|] q2]| |]; cbn [rbind fst snd] in H; congruence.
  - cbn [rbind] in H. congruence.
Qed.

(** A failed match leaves the source where it was ([same] compares positions). *)
Theorem C31_failed_match_restores : forall f L P pat ch s cx s' cx',
  match_here f L P pat ch s cx = Done (true, s', cx') -> same s' s = true.
Proof.
  intros f L P pat ch s cx s' cx' H. unfold match_here in H.
  destruct (match_sequence f L P pat ch (0%nat, s) cx) as [[[ok [q s1]] cx1]| |]; cbn [rbind] in H; try discriminate.
  destruct (rdp pat q) as [c| |]; cbn [rbind] in H; try discriminate.
  destruct (ok && (c =? 0)).
  - destruct (is_failure pat (0%nat, s) (q, s1)) as [fl| |] eqn:E; cbn [rbind] in H; try discriminate.
    assert (s1 = s') by congruence. assert (fl = true) by congruence. subst s1 fl.
    unfold is_failure in E. cbn [fst snd] in E. destruct (rdp pat 0) as [c0| |]; cbn [rbind] in E; try discriminate.
    destruct (c0 =? 0); [discriminate|]. destruct ((0 =? q)%nat); [|discriminate]. cbn [andb] in E.
    unfold same in *. rewrite Nat.eqb_sym. congruence.
  - destruct (is_failure pat (q, s1) (q, s1)) as [fl| |] eqn:E; cbn [rbind] in H; try discriminate.
    assert (s' = s) by congruence. subst. unfold same. apply Nat.eqb_refl.
Qed.

Example C31_ex : exists cx' cx'',
  match_atom 30 Plain null_policy (codes "(abc)") [] (0%nat, src_start (codes "abd")) ctx0
    = Done (false, (0%nat, src_start (codes "abd")), cx') /\
  match_atom 30 Plain null_policy (codes "&(ab)c") [] (0%nat, src_start (codes "abd")) ctx0
    = Done (true, (5%nat, src_start (codes "abd")), cx'').
Proof. eexists. eexists. split; reflexivity. Qed.

(** ** C32: termination, and reading the pattern *)

(** Every pattern text and every grammar, meaningful or not: when all patterns
    are at most [M] bytes long, the given number of nested steps is enough,
    for a text of [length (s_rest s)] bytes. *)
Definition enough (L : lang) (M : nat) (s : src) : nat :=
  let n := match L with Plain => 0 | Gram rules => length rules end%nat in
  (8 * ((length (s_rest s) * (n + 1) + n) * (M + 3) + M + 2) + 2 * M + 24)%nat.

Theorem C32_terminates : forall L P pat ch s cx M,
  (length pat <= M)%nat ->
  match L with Plain => True | Gram rules => Forall (fun r => (length (r_pat r) <= M)%nat) rules end ->
  exists r, r <> NoFuel /\ forall f, (enough L M s <= f)%nat -> match_here f L P pat ch s cx = r.
Proof.
  intros L P pat ch s cx M Hp HM.
  pose proof (all_settled L P M HM (idx L M pat ch 0 s) pat ch 0 s Hp (le_n _)) as (_ & _ & _ & _ & _ & _ & HS).
  specialize (HS cx).
  assert (X : settled (enough L M s) (fun f => match_here f L P pat ch s cx)).
  { unfold match_here. eapply set_bind.
    - eapply set_le; [exact HS|]. unfold bound, H0, idx, enough, nrules, len.
      pose proof (unused_le L ch s) as U. pose proof (kk_max M pat 0 Hp) as K. unfold nrules in U.
      set (n := match L with Plain => 0%nat | Gram rules => length rules end) in *.
      assert ((length (s_rest s) * (n + 1) + unused L ch s) * (M + 3) <= (length (s_rest s) * (n + 1) + n) * (M + 3))%nat
        by (apply Nat.mul_le_mono_r; lia). lia.
    - intros [[ok [q s1]] cx1] f _. cbv beta iota.
      eapply set_pure; [apply rdp_nofuel|]. intros c _. destruct (ok && (c =? 0));
        (eapply set_pure; [apply is_failure_nofuel|]; intros; apply set_done). }
  destruct X as (r & Hr & X). exists r. split; [exact Hr|]. intros f Hf. apply X. exact Hf.
Qed.

(** Searching terminates, too. *)
Theorem C32_search_terminates : forall L P pat ch initial s cx M,
  (length pat <= M)%nat ->
  match L with Plain => True | Gram rules => Forall (fun r => (length (r_pat r) <= M)%nat) rules end ->
  textb (s_rest s) ->
  exists r, r <> NoFuel /\ forall f, (enough L M s + length (s_rest s) + 1 <= f)%nat ->
    search f L P pat ch initial s cx = r.
Proof.
  intros L P pat ch initial s cx M Hp HM.
  assert (G : forall d s cx B, (length (s_rest s) <= d)%nat -> (enough L M s <= B)%nat -> textb (s_rest s) ->
     settled (S (B + d)) (fun f => search f L P pat ch initial s cx)).
  { clear s cx. induction d as [|d IH]; intros s cx B Hd HB Ht; apply set_S; cbn [search].
    all: destruct (C32_terminates L P pat ch s (roll P cx initial) M Hp HM) as (r & Nr & Hr).
    all: eapply set_bind; [exists r; split; [exact Nr|]; intros f Hf; apply Hr; lia|].
    all: intros [[fl s1] cx1] f _; cbv beta iota; destruct fl; cbn [negb]; [|apply set_done].
    - unfold at_eof. destruct (s_rest s); [apply set_done|cbn in Hd; lia].
    - destruct (at_eof s) eqn:Ef; [apply set_done|].
      eapply set_pure; [apply get_nofuel|]. intros [c s2] E. cbn [snd].
      assert (Hne : s_rest s <> []) by (intros X; unfold at_eof in Ef; rewrite X in Ef; discriminate).
      unfold get_char in E. rewrite Ef in E.
      destruct (UTF8Get (s_rest s ++ [0])) as [[c' k]| |] eqn:Gt; cbn [lift rbind] in E; try discriminate.
      assert (W := get_within (s_rest s) [] c' k (textb_bytes _ Ht) ltac:(constructor) Hne Gt).
      assert (Es : s_rest s2 = skipn k (s_rest s)) by (injection E as _ E; subst s2; reflexivity).
      assert (L2 : (length (s_rest s2) <= d)%nat) by (rewrite Es, skipn_length; lia).
      eapply set_le; [apply (IH s2 cx1 B L2); [|rewrite Es; apply textb_skipn, Ht]|lia].
      unfold enough in *. rewrite Es, skipn_length.
      set (n := match L with Plain => 0%nat | Gram rules => length rules end) in *.
      assert ((length (s_rest s) - k) * (n + 1) <= length (s_rest s) * (n + 1))%nat by (apply Nat.mul_le_mono_r; lia).
      assert (((length (s_rest s) - k) * (n + 1) + n) * (M + 3) <= (length (s_rest s) * (n + 1) + n) * (M + 3))%nat
        by (apply Nat.mul_le_mono_r; lia). lia. }
  intros Ht. destruct (G (length (s_rest s)) s cx (enough L M s) (le_n _) (le_n _) Ht) as (r & N & H).
  exists r. split; [exact N|]. intros f Hf. apply H. lia.
Qed.

(** The whole notation stays inside the pattern: the outcome is defined. *)
Theorem C32_stays_inside_partial : forall labels kinds P pat e tx cs cx,
  spells (plain_dialect labels kinds) e pat ->
  textb tx -> decode_all tx = Ok cs -> (kinds = true -> Forall (fun c => 0 <= c <= 255) cs) ->
  forall f, (enough Plain (length pat) (src_start tx) <= f)%nat ->
  exists x, match_here f Plain P pat [] (src_start tx) cx = Done x.
Proof.
  intros labels kinds P pat e tx cs cx Hs Htx Hcs Hk f Hf.
  destruct (C32_terminates Plain P pat [] (src_start tx) cx (length pat) (le_n _) I) as (r & _ & Hr).
  destruct (C30_match_partial labels kinds P pat e tx cs 0 cx Hs Htx Hcs (Nat.le_0_l _) Hk) as (r' & _ & cx' & b & K).
  specialize (K (max b (enough Plain (length pat) (src_start tx))) ltac:(lia)). cbn [snth] in K.
  rewrite Hr in K by lia. rewrite (Hr f Hf), K. eexists. reflexivity.
Qed.

(** But other pattern texts make the matcher read beyond the end of the
    pattern: a lookahead operator, or a backslash, at the end. *)
Theorem C32_reads_beyond_pattern_refuted :
  (forall f, (30 <= f)%nat -> match_here f Plain null_policy (codes "&") [] (src_start (codes "a")) ctx0 = Undef) /\
  (forall f, (30 <= f)%nat -> match_here f Plain null_policy (codes "?\") [] (src_start (codes "a")) ctx0 = Undef) /\
  (forall f, (30 <= f)%nat -> match_here f Plain null_policy (codes "[\") [] (src_start (codes "a")) ctx0 = Undef) /\
  (forall f, (30 <= f)%nat -> match_here f Plain null_policy (codes "\x{") [] (src_start (codes "a")) ctx0 = Undef).
Proof.
  split; [|split; [|split]]; intros f Hf; do 30 (destruct f as [|f]; [lia|]); reflexivity.
Qed.

(** A repetition of something that matches the empty string. *)
Example C32_ex_empty_repetition : exists cx',
  match_here 3000 Plain null_policy (codes "*(?a)b") [] (src_start (codes "aab")) ctx0
    = Done (false, snth (codes "aab") 3, cx').
Proof. eexists. vm_compute. reflexivity. Qed.
Example C32_ex_enough : enough Plain 6 (src_start (codes "aab")) = 316%nat.
Proof. reflexivity. Qed.

(** ** C33: the source counts bytes, lines and columns *)

(** Newlines in a text, and its length after the last of them. *)
Fixpoint newlines (cs : list Z) : Z :=
  match cs with [] => 0 | c :: r => (if c =? 10 then 1 else 0) + newlines r end.
Fixpoint last_line (cs : list Z) : list Z :=
  match cs with
  | [] => []
  | c :: r => if existsb (Z.eqb 10) (c :: r) then last_line r else c :: r
  end.

Lemma newlines_count cs : nl_count cs = newlines cs.
Proof.
  induction cs as [|c cs IH]; [reflexivity|]. unfold nl_count in *. cbn [filter newlines].
  destruct (c =? 10); cbn [length]; lia.
Qed.

Lemma fold_no_newline cs : existsb (Z.eqb 10) cs = false -> forall a,
  fold_left (fun a c => if c =? 10 then 0 else a + 1) cs a = a + Z.of_nat (length cs).
Proof.
  induction cs as [|c cs IH]; intros H a; cbn [fold_left length]; [lia|]. cbn [existsb] in H.
  apply orb_false_iff in H. destruct H as [H1 H2]. rewrite Z.eqb_sym in H1. rewrite H1, IH by exact H2. lia.
Qed.

Lemma fold_newline cs : existsb (Z.eqb 10) cs = true -> forall a b,
  fold_left (fun a c => if c =? 10 then 0 else a + 1) cs a = fold_left (fun a c => if c =? 10 then 0 else a + 1) cs b.
Proof.
  induction cs as [|c cs IH]; intros H a b; [discriminate|]. cbn [fold_left existsb] in *.
  rewrite Z.eqb_sym in H. destruct (c =? 10); [reflexivity|]. apply IH. exact H.
Qed.

Lemma last_line_count cs : since_nl cs = Z.of_nat (length (last_line cs)).
Proof.
  unfold since_nl. induction cs as [|c cs IH]; [reflexivity|]. cbn [last_line].
  destruct (existsb (Z.eqb 10) (c :: cs)) eqn:E.
  - rewrite <- IH. cbn [fold_left]. destruct (existsb (Z.eqb 10) cs) eqn:E'.
    + apply fold_newline, E'.
    + cbn [existsb] in E. rewrite E', orb_false_r, Z.eqb_sym in E. rewrite E. reflexivity.
  - rewrite fold_no_newline by exact E. lia.
Qed.

(** After reading any number of characters of any text. *)
Theorem C33_positions : forall tx cs n, textb tx -> decode_all tx = Ok cs -> (n <= length cs)%nat ->
  let s := snth tx n in
  (exists before_, tx = before_ ++ s_rest s /\ s_bytes s = Z.of_nat (length before_)) /\
  decode_all (s_rest s) = Ok (skipn n cs) /\
  s_line s = 1 + newlines (firstn n cs) /\
  s_col s = 1 + Z.of_nat (length (last_line (firstn n cs))).
Proof.
  intros tx cs n Htx Hcs Hn s. destruct (snth_stands tx cs Htx Hcs n Hn) as (pre & A & B & D & E & F).
  rewrite newlines_count in E. rewrite last_line_count in F.
  split; [exists pre; auto|]. auto.
Qed.

(** Each reading step is one get_char; the text is read completely. *)
Theorem C33_steps : forall tx cs n, textb tx -> decode_all tx = Ok cs ->
  snth tx 0 = src_start tx /\
  (forall c, nth_error cs n = Some c -> get_char (snth tx n) = Done (c, snth tx (S n))) /\
  at_eof (snth tx (length cs)) = true.
Proof.
  intros tx cs n Htx Hcs. split; [reflexivity|]. split; [intros c; apply (snth_get tx cs Htx Hcs)|].
  rewrite (snth_eof tx cs Htx Hcs) by lia. rewrite (proj2 (nth_error_None cs (length cs)) (le_n _)). reflexivity.
Qed.

Example C33_ex : let tx := [97; 10; 195; 169; 98; 10; 99; 100] in
  decode_all tx = Ok [97; 10; 233; 98; 10; 99; 100] /\
  snth tx 6 = mksrc [100] 7 3 2.
Proof. split; reflexivity. Qed.

(** ** C34: finding rules *)

(** The search ends, whatever the table and the name. *)
Theorem C34_settles : forall rs key, search_rules rs key <> None.
Proof. intros. apply bsearch_settles; lia. Qed.

(** Whatever the table, a call only ever finds a rule of the called name. *)
Theorem C34_only_the_called_rule : forall rs name t i,
  Forall (fun r => Forall namech (r_name r)) rs -> Forall namech name ->
  lookup rs (name ++ 62 :: t) = Some i -> exists r, nth_error rs i = Some r /\ r_name r = name.
Proof. intros. eapply lookup_sound; eauto. Qed.

(** Each rule is found by its name followed by '>' (and TOP, for one, by its
    name alone), in whatever order the rules were given, if no rule's name is
    this name followed by a digit. *)
Theorem C34_found_partial : forall rules rs r t,
  Forall (fun r => Forall namech (r_name r)) rules -> NoDup (map r_name rules) ->
  Permutation rs rules -> StronglySorted (fun a b => strcmp (r_name a) (r_name b) <= 0) rs ->
  In r rules ->
  (exists i, lookup rs (r_name r) = Some i /\ nth_error rs i = Some r) /\
  ((forall x d u, In x rules -> r_name x = r_name r ++ d :: u -> ~ (48 <= d <= 57)) ->
   exists i, lookup rs (r_name r ++ 62 :: t) = Some i /\ nth_error rs i = Some r).
Proof.
  intros rules rs r t Hn Hd Hp Hs Hr.
  assert (Hn' : Forall named rs).
  { apply Forall_forall. intros x Hx. rewrite Forall_forall in Hn. apply Hn. eapply Permutation_in; eauto. }
  assert (Hd' : NoDup (map r_name rs)).
  { eapply Permutation_NoDup; [|exact Hd]. apply Permutation_map. symmetry. exact Hp. }
  assert (Hr' : In r rs) by (eapply Permutation_in; [symmetry; exact Hp|exact Hr]).
  destruct (In_nth_error _ _ Hr') as [i Hi]. split.
  - exists i. split; [apply lookup_bare; auto|exact Hi].
  - intros Hdig. exists i. split; [|exact Hi]. apply lookup_call; auto.
    intros x Hx d u E. apply (Hdig x d u); auto. eapply Permutation_in; eauto.
Qed.

Lemma is_name l : forallb (fun c => c_alnum c || (c =? 95)) l = true -> Forall namech l.
Proof. rewrite forallb_forall, Forall_forall. intros H c Hc. apply namech_spec, H, Hc. Qed.

(** A name that is followed by a digit in another name is not found. *)
Theorem C34_found_refuted :
  let rules := [mkrule (codes "a") [] []; mkrule (codes "a1") [] []] in
  sorted rules /\ lookup rules (codes "a>") = None.
Proof.
  split; [|reflexivity]. repeat constructor. vm_compute. discriminate.
Qed.

Example C34_ex : let rules := map (fun n => mkrule n [] []) [codes "TOP"; codes "sum"; codes "term"; codes "summand"] in
  let rs := sort_rules rules in
  Permutation rs rules /\ sorted rs /\
  exists i, lookup rs (codes "sum>*(+<term>)") = Some i /\ option_map r_name (nth_error rs i) = Some (codes "sum").
Proof.
  split; [apply sort_perm|]. split.
  - apply sort_sorted. repeat (apply Forall_cons; [apply is_name; reflexivity|]). apply Forall_nil.
  - eexists. split; reflexivity.
Qed.

(** ** C35: left recursion *)

(** Whatever the rules and whoever they call: a parse needs no more nested
    steps than stated. *)
Theorem C35_parse_terminates : forall P rs tx M,
  Forall (fun r => (length (r_pat r) <= M)%nat) rs ->
  exists r, r <> Ok NoFuel /\
    forall f, (enough (Gram rs) M (src_start tx) <= f)%nat -> parse f P rs tx = r.
Proof.
  intros P rs tx M HM. unfold parse. destruct (lookup rs [84; 79; 80]) as [i|]; [|exists Abort; split; [discriminate|reflexivity]].
  destruct (nth_error rs i) as [r0|] eqn:E; [|exists UB; split; [discriminate|reflexivity]].
  assert (H0 : (length (r_pat r0) <= M)%nat).
  { rewrite Forall_forall in HM. apply HM. eapply nth_error_In; eauto. }
  destruct (C32_terminates (Gram rs) P (r_pat r0) [(i, src_start tx)] (src_start tx) ctx0 M H0 HM) as (r & N & H).
  exists (Ok r). split; [congruence|]. intros f Hf. cbv zeta. rewrite H by exact Hf. reflexivity.
Qed.

(** What it computes: every grammar has a meaning in which a call of a rule
    that is already being matched from the same position fails, and that is
    the outcome, with these many steps. *)
Theorem C35_left_recursive_call_fails : forall labels kinds P G rules rs tx cs e w M,
  grammar_text (peg_dialect labels kinds) G rules -> Permutation rs rules -> sorted rs ->
  textb tx -> decode_all tx = Ok cs ->
  (kinds = true -> Forall (fun c => 0 <= c <= 255) cs) ->
  assoc G TOP = Some (e, w) ->
  Forall (fun r => (length (r_pat r) <= M)%nat) rs ->
  exists r, eval G (fun _ => true) cs (mkenv w (Some [(TOP, 0%nat)])) false e 0 r /\
  exists cx', forall f, (enough (Gram rs) M (src_start tx) <= f)%nat ->
    parse f P rs tx =
    Ok (Done (match r with
              | Some (m, _) => (false, snth tx m, cx')
              | None => (true, snth tx 0, cx')
              end)).
Proof.
  intros labels kinds P G rules rs tx cs e w M Ht Hp Hs Htx Hcs Hk A HM.
  assert (NC : forall X : Prop, False -> X) by contradiction.
  destruct (meaning_total G (fun _ => true) cs [(TOP, 0%nat)] 0 e w false (Nat.le_0_l _)) as [r E].
  exists r. split; [exact E|].
  pose proof (parse_run (peg_dialect labels kinds) P G (fun _ => true) rules rs tx cs False eq_refl Hk Htx Hcs Ht Hp Hs
     (NC _) (NC _) (NC _) (NC _) (NC _) (NC _) e w r A E) as H.
  destruct (C35_parse_terminates P rs tx M HM) as (R & _ & K).
  destruct r as [[m l]|]; destruct H as (cx' & _ & b & K'); exists cx'; intros f Hf;
    rewrite (K f Hf); rewrite <- (K (max b f)) by lia; apply K'; lia.
Qed.

(** When the grammar is not left-recursive this is the standard meaning. *)
Theorem C35_standard_meaning : forall G keep cs w e n r name,
  (n <= length cs)%nat -> assoc G name = Some (e, w) ->
  eval G keep cs (mkenv w None) false e n r ->
  eval G keep cs (mkenv w (Some [(name, n)])) false e n r.
Proof. intros. apply eval_active_rule; auto. Qed.

(** A left-recursive grammar: TOP = <a>, a = |<a>x|y. *)
Definition lr_rules : list rule := [mkrule (codes "TOP") (codes "<a>") []; mkrule (codes "a") (codes "|<a>x|y") []].
Definition lr_grammar : grammar :=
  [(codes "TOP", (Seq (Call (codes "a") None) Eps, []));
   (codes "a", (Or (Seq (Call (codes "a") None) (lit 120)) (lit 121), []))].

Example C35_ex_text : grammar_text (peg_dialect false false) lr_grammar lr_rules /\ sorted lr_rules.
Proof.
  split; [|repeat constructor; vm_compute; discriminate].
  split; [|split; [|split]].
  - unfold lr_grammar, lr_rules. apply Forall2_cons; [|apply Forall2_cons; [|apply Forall2_nil]].
    + split; [reflexivity|]. split; [reflexivity|]. unfold spells. cbn [fst snd r_pat].
      change (codes "<a>") with (60 :: [97] ++ 62 :: []). change (codes "a") with [97].
      eapply x_atom; [|apply x_end; left; reflexivity].
      apply a_prim, p_call; [reflexivity|apply is_name; reflexivity|discriminate|exact I].
    + split; [reflexivity|]. split; [reflexivity|]. unfold spells. cbn [fst snd r_pat].
      change (codes "|<a>x|y") with (124 :: 60 :: [97] ++ 62 :: [120; 124; 121]). change (codes "a") with [97].
      apply x_alts. eapply al_more.
      * eapply br_more.
        -- apply a_prim, p_call; [reflexivity|apply is_name; reflexivity|discriminate|cbn; lia].
        -- apply br_one, a_prim, p_bare; [apply b_plain; [lia|cbv; intuition discriminate|discriminate]|cbn; lia].
      * apply al_last; [|left; reflexivity].
        apply br_one, a_prim, p_bare; [apply b_plain; [lia|cbv; intuition discriminate|discriminate]|exact I].
  - repeat constructor; cbn; intuition discriminate.
  - cbn [map fst lr_grammar]. repeat (apply Forall_cons; [apply is_name; reflexivity|]). apply Forall_nil.
  - cbn [map fst lr_grammar In]. intros a b [<-|[<-|[]]] [<-|[<-|[]]] d t E; cbn in E; inversion E.
Qed.

Example C35_ex_run : parse 400 null_policy lr_rules (codes "yx") = Ok (Done (false, snth (codes "yx") 1, ctx0)).
Proof. vm_compute. reflexivity. Qed.
Example C35_ex_no_standard_meaning : forall r,
  ~ eval lr_grammar (fun _ => true) (codes "y") (mkenv [] None) false (Call (codes "a") None) 0 r.
Proof.
  assert (E2 : assoc lr_grammar (codes "a") = Some (Or (Seq (Call (codes "a") None) (lit 120)) (lit 121), [])) by reflexivity.
  assert (H : forall w rp e n r, eval lr_grammar (fun _ => true) (codes "y") w rp e n r ->
     active w = None -> n = 0%nat ->
     e <> Call (codes "a") None /\ e <> Or (Seq (Call (codes "a") None) (lit 120)) (lit 121) /\
     e <> Seq (Call (codes "a") None) (lit 120)).
  { intros w rp e n r E. induction E; intros Ha Hn; repeat split; try discriminate; intros X;
      try (inversion X; subst; try discriminate; match goal with H : _ = None -> _ = _ -> _ |- _ =>
        destruct (H Ha eq_refl) as (? & ? & ?); congruence end).
    all: inversion X; subst; try discriminate.
    - unfold busy in H0. rewrite Ha in H0. exact H0.
    - assert (e = Or (Seq (Call (codes "a") None) (lit 120)) (lit 121)) by congruence. subst e.
      destruct IHE as (? & ? & ?); [unfold enter; rewrite Ha; reflexivity|reflexivity|congruence].
    - assert (e = Or (Seq (Call (codes "a") None) (lit 120)) (lit 121)) by congruence. subst e.
      destruct IHE as (? & ? & ?); [unfold enter; rewrite Ha; reflexivity|reflexivity|congruence]. }
  intros r E. destruct (H _ _ _ _ _ E eq_refl eq_refl) as (X & _). apply X. reflexivity.
Qed.

(** ** C36: captures *)

(** What a capture of the characters from [i] to [j] holds: their bytes and
    the offset of the first of them. *)
Theorem C36_captured_text : forall tx cs i j, textb tx -> decode_all tx = Ok cs ->
  (i <= j)%nat -> (j <= length cs)%nat ->
  exists pre t post, tx = pre ++ t ++ post /\
    decode_all (t ++ post) = Ok (skipn i cs) /\ decode_all post = Ok (skipn j cs) /\
    vof tx (SText i j) = VText (Z.of_nat (length pre)) t.
Proof.
  intros tx cs i j Htx Hcs Hi Hj. destruct (snth_string tx cs Htx Hcs i j Hi Hj) as (pre & t & post & A & B & D & E).
  exists pre, t, post. split; [exact A|].
  destruct (snth_stands tx cs Htx Hcs i ltac:(lia)) as (_ & _ & _ & X & _).
  destruct (snth_stands tx cs Htx Hcs j Hj) as (_ & _ & _ & Y & _).
  rewrite B in X. rewrite D in Y. auto.
Qed.

(** A plain Pegexp with labels and a context that keeps all captures and rolls
    back as asked: what remains is what the meaning captures, on failure
    nothing. *)
Theorem C36_plain_captures : forall kinds pat e tx cs n cx,
  spells (plain_dialect true kinds) e pat ->
  textb tx -> decode_all tx = Ok cs -> (n <= length cs)%nat ->
  (kinds = true -> Forall (fun c => 0 <= c <= 255) cs) ->
  c_dis cx = 0%nat ->
  exists r, eval [] (fun _ => true) cs (mkenv [] None) (0 <? c_rep cx)%nat e n r /\
    exists cx' b, (forall f, (b <= f)%nat ->
      match_here f Plain list_policy pat [] (snth tx n) cx =
      Done (match r with
            | Some (m, _) => (false, snth tx m, cx')
            | None => (true, snth tx n, cx')
            end)) /\
    c_caps cx' = c_caps cx ++ match r with Some (_, l) => vcaps tx l | None => [] end.
Proof.
  intros kinds pat e tx cs n cx Hs Htx Hcs Hn Hk Hd.
  assert (HQ : quiet list_policy) by (intros l k; reflexivity).
  destruct (plain_run (plain_dialect true kinds) list_policy (fun _ => true) tx cs True eq_refl Hk Htx Hcs)
    with (e := e) (pat := pat) (ch := @nil (nat * src)) (n := n) (cx := cx) as (r & E & H); auto.
  { intros _ a b. left. cbn. rewrite firstn_app, Nat.sub_diag, firstn_all, app_nil_r. reflexivity. }
  exists r. split; [exact E|]. destruct r as [[m l]|]; destruct H as (cx' & Hcx & b & K); exists cx', b; (split; [exact K|]).
  all: pose proof (quiet_here Plain list_policy HQ b _ _ _ _ _ _ _ (K b (le_n b))) as Q.
  all: destruct Hcx as (_ & _ & _ & F); specialize (F I Q); rewrite Hd in F; exact F.
Qed.

Example C36_ex_plain :
  let tx := codes "ab1y" in
  eval [] (fun _ => true) tx (mkenv [] None) false ex_e 0
    (Some (4%nat, [(codes "w", SText 0 1, true); (codes "w", SText 1 2, true); (codes "w", SText 2 3, true)])) /\
  match_here 100 Plain list_policy ex_pat [] (src_start tx) ctx0 =
    Done (false, snth tx 4, mkctx [(codes "w", VText 0 (codes "a"), true); (codes "w", VText 1 (codes "b"), true);
                                  (codes "w", VText 2 (codes "1"), true)] 0 0 0).
Proof. cbv zeta. split; [apply (peval_eval _ _ _ 20)|]; vm_compute; reflexivity. Qed.

(** A Pegexp with the default context (PegexpDefaultContext) matches and fails
    on the same texts, and captures nothing whatever its labels. *)
Lemma eval_keeps_nothing G cs w rp e n r : eval G (fun _ => false) cs w rp e n r ->
  match r with Some (_, l) => l = [] | None => True end.
Proof.
  induction 1; try exact I; try reflexivity; try assumption; subst; cbn in *; try reflexivity.
  - destruct (line_start cs n); [reflexivity|exact I].
  - destruct (line_end cs n); [reflexivity|exact I].
  - destruct (nth_error cs n); [|exact I]. destruct (in_set x z); [reflexivity|exact I].
  - destruct (mem _ _); reflexivity.
Qed.
Theorem C36_default_captures_nothing : forall kinds pat e tx cs n cx,
  spells (plain_dialect true kinds) e pat ->
  textb tx -> decode_all tx = Ok cs -> (n <= length cs)%nat ->
  (kinds = true -> Forall (fun c => 0 <= c <= 255) cs) ->
  c_dis cx = 0%nat ->
  exists r, eval [] (fun _ => false) cs (mkenv [] None) (0 <? c_rep cx)%nat e n (option_map (fun m => (m, [])) r) /\
  exists cx' b, (forall f, (b <= f)%nat ->
      match_here f Plain null_policy pat [] (snth tx n) cx =
      Done (match r with
            | Some m => (false, snth tx m, cx')
            | None => (true, snth tx n, cx')
            end)) /\
    c_caps cx' = c_caps cx.
Proof.
  intros kinds pat e tx cs n cx Hs Htx Hcs Hn Hk Hd.
  assert (HQ : quiet null_policy) by (intros l k; reflexivity).
  destruct (plain_run (plain_dialect true kinds) null_policy (fun _ => false) tx cs True eq_refl Hk Htx Hcs)
    with (e := e) (pat := pat) (ch := @nil (nat * src)) (n := n) (cx := cx) as (r & E & H); auto.
  { intros _ a b. left. cbn. rewrite firstn_app, Nat.sub_diag, firstn_all, app_nil_r. reflexivity. }
  assert (E0 := eval_keeps_nothing _ _ _ _ _ _ _ E).
  destruct r as [[m l]|]; destruct H as (cx' & Hcx & b & K).
  1: subst l; exists (Some m). 2: exists None.
  all: split; [exact E|]; exists cx', b; split; [exact K|].
  all: pose proof (quiet_here Plain null_policy HQ b _ _ _ _ _ _ _ (K b (le_n b))) as Q.
  all: destruct Hcx as (_ & _ & _ & F); specialize (F I Q); rewrite Hd in F; cbn in F; rewrite app_nil_r in F; exact F.
Qed.
Example C36_ex_default :
  match_here 100 Plain null_policy ex_pat [] (src_start (codes "ab1y")) ctx0 = Done (false, snth (codes "ab1y") 4, ctx0).
Proof. vm_compute. reflexivity. Qed.

(** The capture context of Peg: an empty text is not captured. *)
Definition ast_keep (v : sval) : bool := match v with SText i j => negb (i =? j)%nat | SNode _ => true end.

(** A grammar without labels on atoms, in which no captured name is a proper
    prefix of a used label.  If the context printed no complaint, the captures
    are those of the meaning. *)
Theorem C36_parse_captures_partial : forall kinds G rules rs tx cs e w M,
  grammar_text (peg_dialect false kinds) G rules -> Permutation rs rules -> sorted rs ->
  (forall name e w, assoc G name = Some (e, w) -> calls_ok w e) ->
  textb tx -> decode_all tx = Ok cs ->
  (kinds = true -> Forall (fun c => 0 <= c <= 255) cs) ->
  assoc G TOP = Some (e, w) ->
  Forall (fun r => (length (r_pat r) <= M)%nat) rs ->
  exists r, eval G ast_keep cs (mkenv w (Some [(TOP, 0%nat)])) false e 0 r /\
  exists cx', (forall f, (enough (Gram rs) M (src_start tx) <= f)%nat ->
    parse f ast_policy rs tx =
    Ok (Done (match r with
              | Some (m, _) => (false, snth tx m, cx')
              | None => (true, snth tx 0, cx')
              end))) /\
    (c_msgs cx' = 0%nat -> c_caps cx' = match r with Some (_, l) => vcaps tx l | None => [] end).
Proof.
  intros kinds G rules rs tx cs e w M Ht Hp Hs Hcalls Htx Hcs Hk A HM.
  destruct (meaning_total G ast_keep cs [(TOP, 0%nat)] 0 e w false (Nat.le_0_l _)) as [r E].
  exists r. split; [exact E|].
  assert (H : match r with
  | Some (m, l) => exists cx', cxok tx True ctx0 cx' l /\
      exists b, forall f, (b <= f)%nat -> parse f ast_policy rs tx = Ok (Done (false, snth tx m, cx'))
  | None => exists cx', cxok tx True ctx0 cx' [] /\
      exists b, forall f, (b <= f)%nat -> parse f ast_policy rs tx = Ok (Done (true, snth tx 0, cx'))
  end).
  { apply (parse_run (peg_dialect false kinds) ast_policy G ast_keep rules rs tx cs True eq_refl Hk Htx Hcs Ht Hp Hs)
      with (e := e) (w := w); auto.
    - intros _ a b. cbn [pol_roll ast_policy]. rewrite app_length.
      destruct (Nat.leb_spec (length a + length b) (length a)) as [X|X].
      + left. destruct b; [rewrite app_nil_r; reflexivity|cbn in X; lia].
      + destruct (Nat.eqb_spec (length a) 0) as [Y|Y]; [left; destruct a; [reflexivity|discriminate]|right; reflexivity].
    - intros _ i j Hi Hj. unfold text_value, string_to. cbn [pol_keep ast_policy ast_keep].
      destruct (Nat.eqb_spec i j) as [->|N]; cbn [negb].
      + rewrite Nat.sub_diag. reflexivity.
      + pose proof (snth_len tx cs Htx Hcs i j ltac:(lia) Hj) as X.
        destruct (s_rest (snth tx i)) as [|b r0]; [cbn in X; lia|].
        destruct (length (b :: r0) - length (s_rest (snth tx j)))%nat eqn:Y; [lia|]. reflexivity.
    - intros _ Hf. discriminate. }
  destruct (C35_parse_terminates ast_policy rs tx M HM) as (R & _ & K).
  destruct r as [[m l]|]; destruct H as (cx' & (_ & _ & _ & F) & b & K'); exists cx'; split.
  1,3: intros f Hf; rewrite (K f Hf); rewrite <- (K (max b f)) by lia; apply K'; lia.
  all: intros Hm; apply F; auto.
Qed.

(** Running once with enough steps tells what happens with more. *)
Lemma parse_at P rs tx M r : Forall (fun r => (length (r_pat r) <= M)%nat) rs ->
  parse (enough (Gram rs) M (src_start tx)) P rs tx = r ->
  forall f, (enough (Gram rs) M (src_start tx) <= f)%nat -> parse f P rs tx = r.
Proof.
  intros HM H f Hf. destruct (C35_parse_terminates P rs tx M HM) as (R & _ & K).
  rewrite (K f Hf). rewrite <- H. symmetry. apply K. lia.
Qed.

(** The complaint is a real loss: captures of a failed alternate remain. *)
Theorem C36_parse_captures_refuted :
  let rules := [mkrule (codes "TOP") (codes "<a>(|<a>x|ab)") [codes "a"]; mkrule (codes "a") (codes "a") []] in
  let tx := codes "aab" in
  let e := Seq (Call (codes "a") None)
             (Seq (Group (Or (Seq (Call (codes "a") None) (lit 120)) (Seq (lit 97) (lit 98)))) Eps) in
  let G := [(codes "TOP", (e, [codes "a"])); (codes "a", (Seq (lit 97) Eps, []))] in
  sorted rules /\
  eval G ast_keep tx (mkenv [codes "a"] (Some [(TOP, 0%nat)])) false e 0 (Some (3%nat, [(codes "a", SText 0 1, false)])) /\
  exists b, forall f, (b <= f)%nat -> parse f ast_policy rules tx =
    Ok (Done (false, snth tx 3, mkctx [(codes "a", VText 0 (codes "a"), false); (codes "a", VText 1 (codes "a"), false)] 0 0 1)).
Proof.
  cbv zeta. split; [repeat constructor; vm_compute; discriminate|].
  split; [apply (peval_eval _ _ _ 20); vm_compute; reflexivity|].
  eexists. apply (parse_at _ _ _ 13); [repeat constructor|vm_compute; reflexivity].
Qed.

(** A captured name that is a proper prefix of another label captures that, too. *)
Theorem C36_captured_prefix_refuted :
  let rules := [mkrule (codes "TOP") (codes "<ab>") [codes "a"]; mkrule (codes "ab") (codes "x") []] in
  let tx := codes "x" in
  let e := Seq (Call (codes "ab") None) Eps in
  let G := [(codes "TOP", (e, [codes "a"])); (codes "ab", (Seq (lit 120) Eps, []))] in
  sorted rules /\
  eval G ast_keep tx (mkenv [codes "a"] (Some [(TOP, 0%nat)])) false e 0 (Some (1%nat, [])) /\
  exists b, forall f, (b <= f)%nat -> parse f ast_policy rules tx =
    Ok (Done (false, snth tx 1, mkctx [(codes "ab", VText 0 (codes "x"), false)] 0 0 0)).
Proof.
  cbv zeta. split; [repeat constructor; vm_compute; discriminate|].
  split; [apply (peval_eval _ _ _ 20); vm_compute; reflexivity|].
  eexists. apply (parse_at _ _ _ 4); [repeat constructor|vm_compute; reflexivity].
Qed.

(** A label on an atom of TOP captures what the rule has captured so far, not
    the text of the atom. *)
Theorem C36_atom_label_refuted :
  let rules := [mkrule (codes "TOP") (codes "a:l") [codes "l"]] in
  let tx := codes "a" in
  let e := Seq (Label (lit 97) (codes "l")) Eps in
  let G := [(codes "TOP", (e, [codes "l"]))] in
  sorted rules /\
  eval G ast_keep tx (mkenv [codes "l"] (Some [(TOP, 0%nat)])) false e 0 (Some (1%nat, [(codes "l", SText 0 1, false)])) /\
  exists b, forall f, (b <= f)%nat -> parse f ast_policy rules tx =
    Ok (Done (false, snth tx 1, mkctx [(codes "l", VNode [], false)] 0 0 0)).
Proof.
  cbv zeta. split; [repeat constructor; vm_compute; discriminate|].
  split; [apply (peval_eval _ _ _ 20); vm_compute; reflexivity|].
  eexists. apply (parse_at _ _ _ 3); [repeat constructor|vm_compute; reflexivity].
Qed.

(** Non-vacuity of the theorem about parses: a grammar and text for which the
    context does not complain. *)
Definition sum_rules : list rule :=
  [mkrule (codes "TOP") (codes "<n>*(,<n>)$") [codes "n"]; mkrule (codes "n") (codes "+[0-9]") []].
Definition sum_grammar : grammar :=
  [(codes "TOP", (Seq (Call (codes "n") None) (Seq (Star (Group (Seq (lit 44) (Seq (Call (codes "n") None) Eps))))
                    (Seq Eol Eps)), [codes "n"]));
   (codes "n", (Seq (Plus (Char (Class false [Range 48 57]))) Eps, []))].

Example C36_ex_parse :
  (forall name e w, assoc sum_grammar name = Some (e, w) -> calls_ok w e) /\
  sorted sum_rules /\
  parse (enough (Gram sum_rules) 11 (src_start (codes "12,3"))) ast_policy sum_rules (codes "12,3") =
    Ok (Done (false, snth (codes "12,3") 4,
          mkctx [(codes "n", VText 0 (codes "12"), false); (codes "n", VText 3 (codes "3"), true)] 0 0 0)).
Proof.
  split; [|split; [repeat constructor; vm_compute; discriminate|vm_compute; reflexivity]].
  intros name e w H. unfold sum_grammar in H. cbn [assoc] in H.
  destruct (list_eq_dec Z.eq_dec (codes "TOP") name);
    [|destruct (list_eq_dec Z.eq_dec (codes "n") name); [|discriminate]]; injection H as <- <-.
  - split; [apply Forall_cons; [apply is_name; reflexivity|apply Forall_nil]|].
    cbn. intros c lb [<-|[]] [<-|[<-|[]]] _; reflexivity.
  - split; [apply Forall_nil|]. intros c lb [].
Qed.

Example C36_ex_text : grammar_text (peg_dialect false false) sum_grammar sum_rules.
Proof.
  assert (PL : forall c, 1 <= c <= 127 -> ~ In c operators -> c <> 60 -> forall r, not_first (eq 58) r ->
     atom (peg_dialect false false) (lit c) (c :: r) r).
  { intros c H1 H2 H3 r Hr. apply a_prim, p_bare; [apply b_plain; auto|exact Hr]. }
  split; [|split; [|split]].
  - unfold sum_grammar, sum_rules. apply Forall2_cons; [|apply Forall2_cons; [|apply Forall2_nil]].
    + split; [reflexivity|]. split; [reflexivity|]. unfold spells. cbn [fst snd r_pat].
      change (codes "<n>*(,<n>)$") with (60 :: [110] ++ 62 :: [42; 40; 44] ++ 60 :: [110] ++ 62 :: [41; 36]).
      change (codes "n") with [110].
      eapply x_atom; [apply a_prim, p_call; [reflexivity|apply is_name; reflexivity|discriminate|cbn; lia]|].
      eapply x_atom.
      * apply a_star, p_bare; [apply b_group|].
        -- eapply x_atom; [apply PL; [lia|cbv; intuition discriminate|lia|cbn; lia]|].
           eapply x_atom; [apply a_prim, p_call; [reflexivity|apply is_name; reflexivity|discriminate|cbn; lia]|].
           apply x_end. right. eauto.
        -- cbn. lia.
      * eapply x_atom; [apply a_prim, p_bare; [apply b_eol|exact I]|]. apply x_end. left. reflexivity.
    + split; [reflexivity|]. split; [reflexivity|]. unfold spells. cbn [fst snd r_pat].
      let x := eval vm_compute in (codes "+[0-9]") in change (codes "+[0-9]") with x.
      eapply x_atom; [|apply x_end; left; reflexivity].
      apply a_plus, p_bare; [apply b_class; [|cbn; lia]|exact I].
      eapply it_range; [apply cc_plain; lia|apply cc_plain; lia|apply it_end].
  - repeat constructor; cbn; intuition discriminate.
  - cbn [map fst sum_grammar]. repeat (apply Forall_cons; [apply is_name; reflexivity|]). apply Forall_nil.
  - cbn [map fst sum_grammar In]. intros a b [<-|[<-|[]]] [<-|[<-|[]]] d t E; cbn in E; inversion E.
Qed.

Print Assumptions C30_match_partial.
Print Assumptions C30_meaning_unique.
Print Assumptions C30_search_partial.
Print Assumptions C30_parse_partial.
Print Assumptions C30_optional_alternation_refuted.
Print Assumptions C30_lookahead_alternation_refuted.
Print Assumptions C30_nested_operator_refuted.
Print Assumptions C30_empty_alternate_refuted.
Print Assumptions C30_escaped_range_refuted.
Print Assumptions C30_non_ascii_refuted.
Print Assumptions C30_kind_of_wide_character_refuted.
Print Assumptions C31_failed_atom_restores.
Print Assumptions C31_lookahead_consumes_nothing.
Print Assumptions C31_failed_match_restores.
Print Assumptions C32_terminates.
Print Assumptions C32_search_terminates.
Print Assumptions C32_stays_inside_partial.
Print Assumptions C32_reads_beyond_pattern_refuted.
Print Assumptions C33_positions.
Print Assumptions C33_steps.
Print Assumptions C34_settles.
Print Assumptions C34_only_the_called_rule.
Print Assumptions C34_found_partial.
Print Assumptions C34_found_refuted.
Print Assumptions C35_parse_terminates.
Print Assumptions C35_left_recursive_call_fails.
Print Assumptions C35_standard_meaning.
Print Assumptions C36_captured_text.
Print Assumptions C36_plain_captures.
Print Assumptions C36_default_captures_nothing.
Print Assumptions C36_parse_captures_partial.
Print Assumptions C36_parse_captures_refuted.
Print Assumptions C36_captured_prefix_refuted.
Print Assumptions C36_atom_label_refuted.
