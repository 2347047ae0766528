(** Property C27: JSON escaping. *)
From Verif Require Import Base RefModel RefProofs UTF8Model UTF8Spec UTF8Proofs ArrayModel ArraySpec ArrayProofs StrModel StrSpec StrHeap StrState StrText StrOps StrEdit StrMore StrJson StrInv StrProps StrIsoProps.
From Verif Require Import StrFindSpec StrFindProofs StrFindProps JsonSpec.
Ltac Zify.zify_post_hook ::= Z.div_mod_to_equations.

(** *** JSON contents stand for one text *)
Lemma hex_fun c d d' : hex_value c d -> hex_value c d' -> d = d'.
Proof. unfold hex_value. lia. Qed.
Lemma unit_fun e e' t t' u u' : unit_escape e u -> unit_escape e' u' -> e ++ t = e' ++ t' -> e = e' /\ t = t' /\ u = u'.
Proof.
  intros (a & b & c & d & w & x & y & z & -> & A & B & C & D & ->) (a' & b' & c' & d' & w' & x' & y' & z' & -> & A' & B' & C' & D' & ->) E.
  cbn [app] in E. injection E as -> -> -> -> ->. rewrite (hex_fun _ _ _ A A'), (hex_fun _ _ _ B B'), (hex_fun _ _ _ C C'), (hex_fun _ _ _ D D'). auto.
Qed.
Lemma unit_head e u t : unit_escape e u -> exists r, e ++ t = 92 :: 117 :: r.
Proof. intros (a & b & c & d & w & x & y & z & -> & _). eexists. reflexivity. Qed.
Theorem C27_contents_stand_for_one_text : forall t u u', json_contents t u -> json_contents t u' -> u = u'.
Proof.
  intros t u u' H. revert u'. induction H as [|c t u R N1 N2 S H IH|e c t u I H IH|e c t u E S H IH|e1 e2 hi lo t u E1 E2 S1 S2 H IH]; intros u' H'.
  - inversion H' as [| | |e c t u E S' H1 Q1|e1 e2 hi lo t u E E2 S1 S2 H1 Q1]; try reflexivity; exfalso.
    + destruct (unit_head _ _ t E) as (r & X). rewrite X in Q1. discriminate.
    + destruct (unit_head _ _ (e2 ++ t) E) as (r & X). rewrite X in Q1. discriminate.
  - inversion H' as [|? ? ? ? ? ? ? H1|e c1 t1 u1 ? ? |e c1 t1 u1 E|e1 e2 hi lo t1 u1 E]; subst; try congruence.
    + f_equal. apply IH. exact H1.
    + destruct (unit_head _ _ t1 E) as (r & X). rewrite X in *. congruence.
    + destruct (unit_head _ _ (e2 ++ t1) E) as (r & X). rewrite X in *. congruence.
  - assert (NE : e <> 117) by (cbn [In] in I; intuition congruence).
    inversion H' as [|? ? ? ? ? ? ? H1|e' c1 t1 u1 I1 H1|e' c1 t1 u1 E|e1 e2 hi lo t1 u1 E]; subst; try congruence.
    + f_equal; [|apply IH; exact H1]. cbn [In] in *. intuition congruence.
    + destruct (unit_head _ _ t1 E) as (r & X). rewrite X in *. congruence.
    + destruct (unit_head _ _ (e2 ++ t1) E) as (r & X). rewrite X in *. congruence.
  - destruct (unit_head _ _ t E) as (r & X). inversion H' as [Q1|? ? ? ? ? ? ? ? Q1|e' c1 t1 u1 I1 H1 Q1|e' c1 t1 u1 E' S' H1 Q1|e1 e2 hi lo t1 u1 E1 E2 S1 S2 H1 Q1]; subst.
    + rewrite X in Q1. discriminate.
    + rewrite X in Q1. congruence.
    + rewrite X in Q1. cbn [In] in I1. intuition congruence.
    + destruct (unit_fun _ _ _ _ _ _ E' E Q1) as (_ & <- & <-). f_equal. apply IH. exact H1.
    + destruct (unit_fun _ _ _ _ _ _ E1 E Q1) as (_ & _ & ->). lia.
  - destruct (unit_head _ _ (e2 ++ t) E1) as (r & X). inversion H' as [Q1|? ? ? ? ? ? ? ? Q1|e' c1 t1 u1 I1 H1 Q1|e' c1 t1 u1 E' S' H1 Q1|e1' e2' hi' lo' t1 u1 E1' E2' S1' S2' H1 Q1]; subst.
    + rewrite X in Q1. discriminate.
    + rewrite X in Q1. congruence.
    + rewrite X in Q1. cbn [In] in I1. intuition congruence.
    + destruct (unit_fun _ _ _ _ _ _ E' E1 Q1) as (_ & _ & ->). lia.
    + destruct (unit_fun _ _ _ _ _ _ E1' E1 Q1) as (_ & Q2 & ->). destruct (unit_fun _ _ _ _ _ _ E2' E2 Q2) as (_ & -> & ->). f_equal. apply IH. exact H1.
Qed.

(** *** What toJSON writes *)
Lemma hex_char_value d : 0 <= d < 16 -> hex_value (hex_char d) d.
Proof. intros H. unfold hex_value, hex_char. destruct (Z.ltb_spec d 10); lia. Qed.
Lemma hex4_unit u : 0 <= u < 65536 -> unit_escape (hex4 u) u.
Proof.
  intros H. exists (hex_char (u / 4096 mod 16)), (hex_char (u / 256 mod 16)), (hex_char (u / 16 mod 16)), (hex_char (u mod 16)), (u / 4096 mod 16), (u / 256 mod 16), (u / 16 mod 16), (u mod 16).
  split; [reflexivity|]. repeat (split; [apply hex_char_value; lia|]). lia.
Qed.
Definition bmp (c : Z) : Prop := 0 < c <= 0xFFFF /\ ~ (0xD800 <= c <= 0xDFFF).
Lemma json_step c t u : bmp c -> json_contents t u -> json_contents (json_of c ++ t) (c :: u).
Proof.
  intros [B S] H. unfold json_of. destruct (List.find (fun e => fst e =? c) short_escapes) as [[k e]|] eqn:F.
  - apply find_some in F. destruct F as [I E]. cbn [fst snd] in *. apply Z.eqb_eq in E. subst k. cbn [app]. apply JShort; [|exact H]. unfold short_escapes in I. cbn [In] in *. destruct I as [I|I]; [exfalso; injection I as <- _; lia|]. repeat (destruct I as [I|I]; [injection I as <- <-; auto 12|]). destruct I.
  - assert (N : c <> 34 /\ c <> 92). { split; intros ->; discriminate F. } destruct (Z.ltb_spec 0xFFFF c); [lia|]. destruct ((c <? 32) || (0xD800 <=? c) && (c <=? 0xDFFF)) eqn:X.
    + apply JUnit; [apply hex4_unit; lia|exact S|exact H].
    + cbn [app]. apply JPlain; try exact H; lia.
Qed.
Lemma json_bmp l : Forall bmp l -> json_contents (flat_map json_of l) l.
Proof. induction 1 as [|c l B _ IH]; [constructor|]. cbn [flat_map]. apply json_step; assumption. Qed.

Lemma json_op n st o : reached n st -> Forall (fun v => (v < n)%nat) (operands o) -> step_ok st o ->
  exists st', sstep st o = Ok st' /\ T st' (starget o) = expected (T st) o /\ forall w, w <> starget o -> T st' w = T st w.
Proof.
  intros (os & OK & E) F SO. destruct (C22_each_operation_computes_its_text_partial n os st o OK E F SO) as (st' & S & TX). exists st'. split; [exact S|]. split; [unfold T at 1; rewrite TX; reflexivity|].
  intros w Hw. unfold T. rewrite (proj1 (C20_editing_one_string_never_changes_another n os st o st' E S w Hw)). reflexivity.
Qed.

(** Characters from 1 to 0xFFFF that are not surrogates: asJSON's result is JSON
    string contents standing for exactly the string; nothing else changes. *)
Theorem C27_bmp_text_survives_partial :
  forall n st d v, reached n st -> (d < n)%nat -> (v < n)%nat -> 24 * nbytes (body_text st v) < 2^30 ->
  Forall bmp (T st v) ->
  exists st', sstep st (SAsJson d v) = Ok st' /\ json_contents (T st' d) (T st v) /\ forall w, w <> d -> T st' w = T st w.
Proof.
  intros n st d v R HD HV LB B. destruct (json_op n st (SAsJson d v) R) as (st' & E & TX & K); [repeat constructor; assumption| |].
  - split; [|exact LB]. eapply Forall_impl; [|exact B]. intros c [H _]. lia.
  - exists st'. split; [exact E|]. split; [|exact K]. cbn [starget expected] in TX. rewrite TX. apply json_bmp. exact B.
Qed.
(** toJSON does the same to the string itself, when it covers its body (or shares it). *)
Theorem C27_in_place_partial :
  forall n st v, reached n st -> (v < n)%nat -> 24 * nbytes (body_text st v) < 2^30 ->
  Forall bmp (T st v) -> covers st v -> unmarked st v \/ is_ascii (body_text st v) ->
  exists st', sstep st (SToJson v) = Ok st' /\ json_contents (T st' v) (T st v) /\ forall w, w <> v -> T st' w = T st w.
Proof.
  intros n st v R HV LB B CV MK. destruct (json_op n st (SToJson v) R) as (st' & E & TX & K); [repeat constructor; assumption| |].
  - split; [|auto]. eapply Forall_impl; [|exact B]. intros c [H _]. lia.
  - exists st'. split; [exact E|]. split; [|exact K]. cbn [starget expected] in TX. rewrite TX. apply json_bmp. exact B.
Qed.
(** Two such strings with the same JSON form are equal. *)
Theorem C27_injective_partial :
  forall a b, Forall bmp a -> Forall bmp b -> flat_map json_of a = flat_map json_of b -> a = b.
Proof. intros a b A B E. apply json_bmp in A. apply json_bmp in B. rewrite E in A. eapply C27_contents_stand_for_one_text; eassumption. Qed.

(** False in general: every character above 0xFFFF comes out as another one
    (0x10000 is not subtracted before it is split into surrogates). *)
Theorem C27_supplementary_refuted :
  forall n st d v ch, reached n st -> (d < n)%nat -> (v < n)%nat -> 24 * nbytes (body_text st v) < 2^30 ->
  T st v = [ch] -> 0x10000 <= ch <= 0xFFFFF ->
  exists st', sstep st (SAsJson d v) = Ok st' /\ json_contents (T st' d) [ch + 0x10000].
Proof.
  intros n st d v ch R HD HV LB TV B. destruct (json_op n st (SAsJson d v) R) as (st' & E & TX & K); [repeat constructor; assumption| |].
  - split; [|exact LB]. rewrite TV. constructor; [lia|constructor].
  - exists st'. split; [exact E|]. cbn [starget expected] in TX. rewrite TX, TV. cbn [flat_map]. unfold json_of.
    assert (F : List.find (fun e => fst e =? ch) short_escapes = None) by (unfold short_escapes; cbn [List.find fst]; repeat match goal with |- context [?k =? ch] => destruct (Z.eqb_spec k ch); [lia|] end; reflexivity).
    rewrite F. destruct (Z.ltb_spec 0xFFFF ch); [|lia]. rewrite <- app_assoc.
    assert (P := JPair (hex4 (0xD800 + ch / 1024 mod 1024)) (hex4 (0xDC00 + ch mod 1024)) (0xD800 + ch / 1024 mod 1024) (0xDC00 + ch mod 1024) [] [] (hex4_unit (0xD800 + ch / 1024 mod 1024) ltac:(lia)) (hex4_unit (0xDC00 + ch mod 1024) ltac:(lia)) ltac:(lia) ltac:(lia) JEnd).
    replace (65536 + (0xD800 + ch / 1024 mod 1024 - 0xD800) * 1024 + (0xDC00 + ch mod 1024 - 0xDC00)) with (ch + 65536) in P by lia. exact P.
Qed.
(** Above 0xFFFFF it aborts, although code points go up to 0x10FFFF. *)
Theorem C27_abort_refuted : srun (sinit 1) [SChar 0 0x10FFFD; SAsJson 0 0] = Abort.
Proof. vm_compute. reflexivity. Qed.
(** NUL becomes \0, which is not JSON; a lone surrogate a lone surrogate escape. *)
Lemma not_json t : (exists r, t = 92 :: 48 :: r) -> forall u, ~ json_contents t u.
Proof.
  intros (r & ->) u H. inversion H as [|? ? ? ? ? ? ? ? |e c1 t1 u1 I1 H1 Q1|e' c1 t1 u1 E' S' H1 Q1|e1 e2 hi lo t1 u1 E1 E2 S1 S2 H1 Q1]; subst; try congruence.
  - cbn [In] in I1. intuition congruence.
  - destruct (unit_head _ _ t1 E') as (q & X). rewrite X in Q1. congruence.
  - destruct (unit_head _ _ (e2 ++ t1) E1) as (q & X). rewrite X in Q1. congruence.
Qed.
Theorem C27_nul_refuted :
  exists st, srun (sinit 1) [SChar 0 0; SAsJson 0 0] = Ok st /\ forall u, ~ json_contents (T st 0) u.
Proof. eexists. split; [vm_compute; reflexivity|]. apply not_json. vm_compute. eauto. Qed.

(** A concrete case: a slice with a quotation mark, a newline, a euro sign and a control character. *)
Definition progj : list sop := [SLit 0 [195; 169; 34; 10; 226; 130; 172; 1] false; SSubstr 1 0 1 4].
Lemma progj_ok : run_ok (sinit 2) progj.
Proof.
  assert (P : forall c, 0 <= c < 2^31 -> plain c) by (intros c Hc; unfold plain; lia). unfold progj.
  next. { split; [exists [233; 34; 10; 8364; 1]; split; [reflexivity|repeat constructor; apply P; lia]|]. split; [cbn; intuition lia|cbn; lia]. }
  next. { cbn. lia. }
  exact Logic.I.
Qed.
Example C27_example : exists st st', reached 2 st /\ T st 1 = [34; 10; 8364; 1] /\ Forall bmp (T st 1) /\ 24 * nbytes (body_text st 1) < 2^30 /\
  sstep st (SAsJson 0 1) = Ok st' /\ T st' 0 = [92; 34; 92; 110; 8364; 92; 117; 48; 48; 48; 49].
Proof.
  do 2 eexists. split; [exists progj; split; [exact progj_ok|vm_compute; reflexivity]|]. split; [vm_compute; reflexivity|].
  split; [change (Forall bmp [34; 10; 8364; 1]); repeat (apply Forall_cons; [unfold bmp; lia|]); apply Forall_nil|]. split; [vm_compute; reflexivity|]. split; [vm_compute; reflexivity|]. vm_compute. reflexivity.
Qed.

Print Assumptions C27_contents_stand_for_one_text.
Print Assumptions C27_bmp_text_survives_partial.
Print Assumptions C27_in_place_partial.
Print Assumptions C27_injective_partial.
Print Assumptions C27_supplementary_refuted.
Print Assumptions C27_abort_refuted.
Print Assumptions C27_nul_refuted.
