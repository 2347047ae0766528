(** From the pieces to whole patterns and whole grammars. *)
From Coq Require Import Sorting.Permutation Sorting.Sorted.
From Verif Require Import Base UTF8Model UTF8Spec UTF8Proofs PegModel PegSpec PegText PegSrc PegEval PegSkip PegMatch
  PegTotal PegLookup PegAscii.

(** Without calls in the notation there are none in the expression. *)
Lemma spelling_callfree D : d_calls D = false ->
  (forall e s r, bare D e s r -> callfree e) /\
  (forall e s r, prim D e s r -> callfree e) /\
  (forall e s r, atom D e s r -> callfree e) /\
  (forall e s r, branch D e s r -> callfree e) /\
  (forall e s r, alts D e s r -> callfree e) /\
  (forall e s r, expr D e s r -> callfree e).
Proof. intros Hd. apply spelling_ind; intros; cbn; auto; congruence. Qed.

Lemma spells_callfree D e pat : d_calls D = false -> spells D e pat -> callfree e.
Proof. intros Hd H. eapply spelling_callfree; eauto. Qed.

Lemma callfree_used e : callfree e -> used e = [].
Proof.
  induction e; cbn; auto; try contradiction; intros [A B]; rewrite IHe1, IHe2 by assumption; reflexivity.
Qed.

(** ** Plain patterns *)
Section Plain.
Variables (D : dialect) (P : policy) (keep : sval -> bool) (tx cs : list Z) (C : Prop).
Hypothesis HD0 : d_calls D = false.
Hypothesis HD : d_kinds D = true -> Forall (fun c => 0 <= c <= 255) cs.
Hypothesis Htx : textb tx.
Hypothesis Hcs : decode_all tx = Ok cs.
Hypothesis Hroll : C -> forall a b, pol_roll P (a ++ b) (length a) = (a, false) \/
                                    snd (pol_roll P (a ++ b) (length a)) = true.
Hypothesis Hkeep_text : C -> forall i j, (i <= j)%nat -> (j <= length cs)%nat ->
  pol_keep P (text_value (snth tx i) (snth tx j)) = keep (SText i j).
Hypothesis Hkeep_node : C -> forall l, l <> [] -> pol_keep P (VNode (vcaps tx l)) = keep (SNode l).
Hypothesis Hlabel : C -> d_labels D = true -> forall b l x y, pol_text P b l x y = text_value x y.

Lemma plain_run e pat ch n cx : spells D e pat -> (n <= length cs)%nat ->
  exists r, eval [] keep cs (mkenv [] None) (0 <? c_rep cx)%nat e n r /\
  match r with
  | Some (m, l) => exists cx', cxok tx C cx cx' l /\
      evt (fun f => match_here f Plain P pat ch (snth tx n) cx) (false, snth tx m, cx')
  | None => exists cx', cxok tx C cx cx' [] /\
      evt (fun f => match_here f Plain P pat ch (snth tx n) cx) (true, snth tx n, cx')
  end.
Proof.
  intros Hs Hn.
  destruct (callfree_total [] keep cs e (spells_callfree _ _ _ HD0 Hs) (mkenv [] None) (0 <? c_rep cx)%nat n Hn) as [r E].
  exists r. split; [exact E|]. apply eval_peval in E. destruct E as [h E].
  refine (here_run D Plain P [] keep tx cs C HD0 HD Htx Hcs I Hroll Hkeep_text Hkeep_node Hlabel _
            e pat ch (mkenv [] None) n cx r h Hs (spells_ascii _ _ _ Hs) Hn I (fun _ => I) _ E).
  - congruence.
  - intros _. split; [constructor|]. intros c lb [].
Qed.

End Plain.

(** ** Grammars *)

(** [x] is a rule of the grammar and [r] its entry in the table. *)
Definition rule_spells (D : dialect) (x : list Z * (pe * list (list Z))) (r : rule) : Prop :=
  r_name r = fst x /\ r_captures r = snd (snd x) /\ spells D (fst (snd x)) (r_pat r).

(** [rules] is the text of the grammar [G]: distinct names, of letters, digits
    and underscores, no one of them another one followed by a digit. *)
Definition grammar_text (D : dialect) (G : grammar) (rules : list rule) : Prop :=
  Forall2 (rule_spells D) G rules /\ NoDup (map fst G) /\ Forall (Forall namech) (map fst G) /\
  forall a b, In a (map fst G) -> In b (map fst G) -> no_digit_after a b.

Lemma text_names D G rules : Forall2 (rule_spells D) G rules -> map r_name rules = map fst G.
Proof. induction 1 as [|x r G rules (A & _) _ IH]; cbn; congruence. Qed.

Lemma text_assoc D G rules : Forall2 (rule_spells D) G rules -> forall name e w, assoc G name = Some (e, w) ->
  exists r, In r rules /\ r_name r = name /\ r_captures r = w /\ spells D e (r_pat r).
Proof.
  induction 1 as [|[n a] r G rules (A & B & S) _ IH]; intros name e w H; cbn in H; [discriminate|]. cbn [fst snd] in *.
  destruct (list_eq_dec Z.eq_dec n name) as [<-|N].
  - injection H as ->. exists r. cbn in *. auto.
  - destruct (IH _ _ _ H) as (r' & I & X). exists r'. split; [right; exact I|exact X].
Qed.

Lemma assoc_none (G : grammar) name : assoc G name = None -> ~ In name (map fst G).
Proof.
  induction G as [|[n a] G IH]; cbn; [auto|]. destruct (list_eq_dec Z.eq_dec n name); [discriminate|].
  intros H [X|X]; [contradiction|]. exact (IH H X).
Qed.

Lemma table_ok D G rules rs (C : Prop) : grammar_text D G rules -> Permutation rs rules -> sorted rs ->
  (C -> forall name e w, assoc G name = Some (e, w) -> calls_ok w e) ->
  grammar_ok D G C rs /\ NoDup (map r_name rs).
Proof.
  intros (Ht & Hd & Hn & Hdig) Hp Hs HC.
  pose proof (text_names _ _ _ Ht) as En.
  assert (Pn : Permutation (map r_name rs) (map fst G)).
  { rewrite <- En. apply Permutation_map, Hp. }
  assert (Nd : NoDup (map r_name rs)).
  { eapply Permutation_NoDup; [|exact Hd]. symmetry. exact Pn. }
  assert (Nm : Forall named rs).
  { apply Forall_forall. intros r Hr. unfold named. rewrite Forall_forall in Hn. apply Hn.
    eapply Permutation_in; [exact Pn|]. apply in_map, Hr. }
  split; [|exact Nd]. intros name t Hname. destruct (assoc G name) as [[e w]|] eqn:A.
  - destruct (text_assoc _ _ _ Ht _ _ _ A) as (r & Ir & Er & Ec & Sp).
    assert (Ir' : In r rs) by (eapply Permutation_in; [symmetry; exact Hp|exact Ir]).
    destruct (In_nth_error _ _ Ir') as [i Hi]. exists i, r.
    split.
    { rewrite <- Er. apply lookup_call; auto. intros x Hx. apply Hdig.
      - eapply Permutation_in; [exact Pn|]. apply in_map, Ir'.
      - eapply Permutation_in; [exact Pn|]. apply in_map, Hx. }
    split; [exact Hi|]. split; [exact Er|]. split; [exact Ec|].
    split; [eapply spells_ascii; exact Sp|]. split; [exact Sp|]. eauto.
  - destruct (lookup rs (name ++ 62 :: t)) as [i|] eqn:E; [|reflexivity].
    destruct (lookup_sound _ _ _ _ Nm Hname E) as (r & Hr & Er).
    exfalso. apply (assoc_none _ _ A). eapply Permutation_in; [exact Pn|]. rewrite <- Er.
    apply in_map. eapply nth_error_In; eauto.
Qed.

Definition TOP : list Z := [84; 79; 80].

Section Gram.
Variables (D : dialect) (P : policy) (G : grammar) (keep : sval -> bool) (rules rs : list rule) (tx cs : list Z) (C : Prop).
Hypothesis HD1 : d_calls D = true.
Hypothesis HD : d_kinds D = true -> Forall (fun c => 0 <= c <= 255) cs.
Hypothesis Htx : textb tx.
Hypothesis Hcs : decode_all tx = Ok cs.
Hypothesis Htext : grammar_text D G rules.
Hypothesis Hperm : Permutation rs rules.
Hypothesis Hsorted : sorted rs.
Hypothesis HC : C -> forall name e w, assoc G name = Some (e, w) -> calls_ok w e.
Hypothesis Hroll : C -> forall a b, pol_roll P (a ++ b) (length a) = (a, false) \/
                                    snd (pol_roll P (a ++ b) (length a)) = true.
Hypothesis Hkeep_text : C -> forall i j, (i <= j)%nat -> (j <= length cs)%nat ->
  pol_keep P (text_value (snth tx i) (snth tx j)) = keep (SText i j).
Hypothesis Hkeep_node : C -> forall l, l <> [] -> pol_keep P (VNode (vcaps tx l)) = keep (SNode l).
Hypothesis Hlabel : C -> d_labels D = true -> forall b l x y, pol_text P b l x y = text_value x y.
Hypothesis Hcall : C -> d_calls D = true -> forall l x y,
  pol_text P false l x y = match l with [] => text_value x y | _ => VNode l end.

Lemma parse_run e w r : assoc G TOP = Some (e, w) ->
  eval G keep cs (mkenv w (Some [(TOP, 0%nat)])) false e 0 r ->
  match r with
  | Some (m, l) => exists cx', cxok tx C ctx0 cx' l /\
      exists b, forall f, (b <= f)%nat -> parse f P rs tx = Ok (Done (false, snth tx m, cx'))
  | None => exists cx', cxok tx C ctx0 cx' [] /\
      exists b, forall f, (b <= f)%nat -> parse f P rs tx = Ok (Done (true, snth tx 0, cx'))
  end.
Proof.
  intros A E. destruct (table_ok D G rules rs C Htext Hperm Hsorted HC) as [Hok Hnd].
  pose proof (text_names _ _ _ (proj1 Htext)) as En.
  assert (Nm : Forall named rs).
  { apply Forall_forall. intros r0 Hr. unfold named. destruct Htext as (_ & _ & Hn & _).
    rewrite Forall_forall in Hn. apply Hn. rewrite <- En.
    eapply Permutation_in; [apply Permutation_map; exact Hperm|]. apply in_map, Hr. }
  assert (HT : Forall namech TOP) by (repeat constructor; unfold letter; lia).
  assert (X : exists i r0, lookup rs TOP = Some i /\ nth_error rs i = Some r0 /\ r_name r0 = TOP /\
             r_captures r0 = w /\ spells D e (r_pat r0)).
  { destruct (text_assoc _ _ _ (proj1 Htext) _ _ _ A) as (r0 & Ir & Er & Ec & Sp).
    assert (Ir' : In r0 rs) by (eapply Permutation_in; [symmetry; exact Hperm|exact Ir]).
    destruct (In_nth_error _ _ Ir') as [i Hi]. exists i, r0. split; [|auto].
    rewrite <- Er. apply lookup_bare; auto. }
  destruct X as (i & r0 & Hlk & Hi & Hnm & Hcap & Hsp).
  apply eval_peval in E. destruct E as [h E].
  assert (Hch : chain_ok (Gram rs) tx 0 (mkenv w (Some [(TOP, 0%nat)])) [(i, snth tx 0)]).
  { exists [(TOP, 0%nat)]. split; [reflexivity|]. split; [exists i, (snth tx 0), [], r0; auto|]. split.
    - constructor; [|constructor]. split; [reflexivity|]. exists r0. auto.
    - cbn [map snd]. repeat (constructor; auto). }
  assert (HF : used e <> [] -> chain_full (Gram rs) [(i, snth tx 0)]).
  { intros U. cbn [chain_full]. constructor; [|constructor]. intros r1 Hr1 X. cbn [fst] in Hr1.
    assert (r1 = r0) by congruence. subst r1. rewrite X in Hsp. apply U, (spells_empty D (Gram rs) HD1 e Hsp). }
  pose proof (here_run D (Gram rs) P G keep tx cs C HD1 HD Htx Hcs (conj Hok Hnd) Hroll Hkeep_text Hkeep_node Hlabel Hcall
     e (r_pat r0) [(i, snth tx 0)] (mkenv w (Some [(TOP, 0%nat)])) 0 ctx0 r h Hsp (spells_ascii _ _ _ Hsp)
     (Nat.le_0_l _) Hch HF (fun c => HC c TOP e w A) E) as H.
  assert (Ep : forall f, parse f P rs tx = Ok (match_here f (Gram rs) P (r_pat r0) [(i, snth tx 0)] (snth tx 0) ctx0)).
  { intros f. unfold parse. fold TOP. rewrite Hlk, Hi. reflexivity. }
  destruct r as [[m l]|].
  - destruct H as (cx' & Hcx & b & K). exists cx'. split; [exact Hcx|]. exists b. intros f Hf. rewrite Ep, K by exact Hf. reflexivity.
  - destruct H as (cx' & Hcx & b & K). exists cx'. split; [exact Hcx|]. exists b. intros f Hf. rewrite Ep, K by exact Hf. reflexivity.
Qed.

End Gram.
