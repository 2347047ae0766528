(** A JSON text stands for one value. *)
From Verif Require Import Base JsonSpec JsonProps VarModel VarSpec VarJsonSpec.

Scheme json_ind' := Minimality for json Sort Prop
with elements_ind' := Minimality for elements Sort Prop
with members_ind' := Minimality for members Sort Prop
with member_ind' := Minimality for member Sort Prop.
Combined Scheme json_mut from json_ind', elements_ind', members_ind', member_ind'.

Definition normp (p : list Z * tree) : list Z * tree := (fst p, norm (snd p)).

(** ** White space *)
Definition iswhite (c : Z) : Prop := In c [32; 9; 10; 13].
Definition solid (a : list Z) : Prop := match a with [] => False | c :: _ => ~ iswhite c end.

Lemma strip w : forall w' a b, white w -> white w' -> solid a -> solid b -> w ++ a = w' ++ b -> w = w' /\ a = b.
Proof.
  induction w as [|c w IH]; intros w' a b W W' A B E.
  - destruct w' as [|c' w']; [auto|]. cbn in E. subst a. inversion W'; subst. contradiction.
  - destruct w' as [|c' w'].
    + cbn in E. subst b. inversion W; subst. contradiction.
    + cbn in E. injection E as <- E. inversion W; inversion W'; subst. destruct (IH w' a b) as [-> ->]; auto.
Qed.

Lemma strip' w w' a b : w ++ a = w' ++ b -> white w -> white w' -> solid a -> solid b -> w = w' /\ a = b.
Proof. intros. eapply strip; eassumption. Qed.

(** ** Numbers *)
(** What may follow a value. *)
Definition stop (r : list Z) : Prop := match r with [] => True | c :: _ => In c [32; 9; 10; 13; 44; 93; 125] end.
Definition nodigit (r : list Z) : Prop := match r with [] => True | c :: _ => ~ (48 <= c <= 57) end.
Lemma stop_nodigit r : stop r -> nodigit r.
Proof. destruct r as [|c r]; [auto|]. cbn. intuition lia. Qed.

Lemma digits_det ds : forall ds' r r', Forall (fun d => 0 <= d <= 9) ds -> Forall (fun d => 0 <= d <= 9) ds' ->
  nodigit r -> nodigit r' -> map (fun d => 48 + d) ds ++ r = map (fun d => 48 + d) ds' ++ r' -> ds = ds'.
Proof.
  induction ds as [|d ds IH]; intros [|d' ds'] r r' F F' N N' E; cbn [map app] in E; auto.
  - subst r. inversion F'; subst. red in N. lia.
  - subst r'. inversion F; subst. red in N'. lia.
  - assert (E1 : 48 + d = 48 + d') by congruence. assert (E2 : map (fun d => 48 + d) ds ++ r = map (fun d => 48 + d) ds' ++ r') by congruence.
    assert (d = d') by lia. inversion F; inversion F'; subst.
    assert (ds = ds') by (apply (IH ds' r r'); assumption). congruence.
Qed.

Lemma decimal_det z z' l l' r r' : decimal_text z l -> decimal_text z' l' -> stop r -> stop r' -> l ++ r = l' ++ r' -> z = z' /\ l = l'.
Proof.
  intros (ds & -> & F & N & _ & V) (ds' & -> & F' & N' & _ & V') S S' E.
  assert (HD : forall ds : list Z, ds <> [] -> Forall (fun d => 0 <= d <= 9) ds -> exists c q, map (fun d => 48 + d) ds = c :: q /\ 48 <= c).
  { intros [|d q] NE FF; [congruence|]. inversion FF; subst. exists (48 + d), (map (fun d => 48 + d) q). split; [reflexivity|lia]. }
  destruct (HD ds N F) as (c & q & EQ & C). destruct (HD ds' N' F') as (c' & q' & EQ' & C').
  apply stop_nodigit in S. apply stop_nodigit in S'.
  destruct (Z.ltb_spec z 0) as [L|L], (Z.ltb_spec z' 0) as [L'|L']; cbn [app] in E.
  - assert (E2 : map (fun d => 48 + d) ds ++ r = map (fun d => 48 + d) ds' ++ r') by congruence. assert (ds = ds') by (apply (digits_det ds ds' r r'); assumption). subst ds'. split; [lia|reflexivity].
  - rewrite EQ' in E. cbn [app] in E. injection E as E1 _. lia.
  - rewrite EQ in E. cbn [app] in E. injection E as E1 _. lia.
  - assert (ds = ds') by (apply (digits_det ds ds' r r'); assumption). subst ds'. split; [lia|reflexivity].
Qed.

(** ** Strings *)
Inductive skel : list Z -> Prop :=
| KEnd : skel []
| KPlain c t : c <> 34 -> c <> 92 -> skel t -> skel (c :: t)
| KEsc e t : skel t -> skel (92 :: e :: t).

Lemma unit_skel e u t : unit_escape e u -> skel t -> skel (e ++ t).
Proof.
  intros (a & b & c & d & w & x & y & z & -> & A & B & C & D & _) K. cbn [app]. unfold hex_value in *.
  apply KEsc. apply KPlain; [lia|lia|]. apply KPlain; [lia|lia|]. apply KPlain; [lia|lia|]. apply KPlain; [lia|lia|]. exact K.
Qed.
Lemma contents_skel c s : json_contents c s -> skel c.
Proof.
  induction 1.
  - constructor.
  - apply KPlain; auto.
  - apply KEsc. assumption.
  - eapply unit_skel; eauto.
  - eapply unit_skel; eauto. eapply unit_skel; eauto.
Qed.
Lemma skel_det c : skel c -> forall c' r r', skel c' -> c ++ 34 :: r = c' ++ 34 :: r' -> c = c' /\ r = r'.
Proof.
  induction 1 as [|a t N1 N2 K IH|e t K IH]; intros c' r r' K' E.
  - inversion K'; subst; cbn [app] in E; [injection E as E; auto|injection E as E1 E2; congruence|discriminate].
  - inversion K' as [|a' t' N1' N2' K1|e' t' K1]; subst; cbn [app] in E; [injection E as E1 E2; congruence| |injection E as E1 E2; congruence].
    injection E as <- E. destruct (IH _ _ _ K1 E) as [-> ->]. auto.
  - inversion K' as [|a' t' N1' N2' K1|e' t' K1]; subst; cbn [app] in E; [discriminate|injection E as E1 E2; congruence|].
    injection E as <- E. destruct (IH _ _ _ K1 E) as [-> ->]. auto.
Qed.
Lemma quoted_det c s c' s' r r' : json_contents c s -> json_contents c' s' ->
  ([34] ++ c ++ [34]) ++ r = ([34] ++ c' ++ [34]) ++ r' -> c = c' /\ s = s' /\ r = r'.
Proof.
  intros H H' E. rewrite <- !app_assoc in E. cbn [app] in E. injection E as E.
  destruct (skel_det c (contents_skel _ _ H) c' r r' (contents_skel _ _ H') E) as [-> ->]. split; [reflexivity|].
  split; [eapply C27_contents_stand_for_one_text; eauto|reflexivity].
Qed.

(** ** Values *)
Lemma json_shape t x : json t x ->
  (norm t = Null /\ x = [110; 117; 108; 108]) \/
  (exists z, norm t = Int z /\ decimal_text z x) \/
  (exists s c, norm t = Str s /\ json_contents c s /\ x = [34] ++ c ++ [34]) \/
  (exists w, norm t = Vars [] /\ white w /\ x = [91] ++ w ++ [93]) \/
  (exists ts y, norm t = Vars (map norm ts) /\ elements ts y /\ x = [91] ++ y ++ [93]) \/
  (exists w, norm t = Map [] /\ white w /\ x = [123] ++ w ++ [125]) \/
  (exists ps y, norm t = Map (map normp ps) /\ members ps y /\ x = [123] ++ y ++ [125]).
Proof.
  induction 1 as [|t z l N D|s c C|l x J IH|w W|ts x E|w W|ps x M].
  - left. auto.
  - right. left. exists z. split; [|exact D]. destruct t; try discriminate N; cbn in N |- *; congruence.
  - right. right. left. exists s, c. auto.
  - assert (Q : norm (Strs l) = norm (Vars (map Str l))).
    { cbn [norm]. f_equal. rewrite map_map. reflexivity. }
    rewrite Q. exact IH.
  - do 3 right. left. exists w. auto.
  - do 4 right. left. exists ts, x. auto.
  - do 5 right. left. exists w. auto.
  - do 6 right. exists ps, x. auto.
Qed.

(** The first character of a value. *)
Lemma decimal_head z l : decimal_text z l -> exists c q, l = c :: q /\ (c = 45 \/ 48 <= c <= 57).
Proof.
  intros (ds & -> & F & N & _). destruct (z <? 0); [eexists; eexists; split; [reflexivity|auto]|].
  destruct ds as [|d ds]; [congruence|]. inversion F; subst. exists (48 + d), (map (fun d => 48 + d) ds). split; [reflexivity|lia].
Qed.
Lemma json_head t x : json t x -> exists c q, x = c :: q /\ ~ iswhite c /\ c <> 44 /\ c <> 93 /\ c <> 125.
Proof.
  intros J. destruct (json_shape t x J) as [(_ & ->)|[(z & _ & D)|[(s & c & _ & _ & ->)|[(w & _ & _ & ->)|[(ts & y & _ & _ & ->)|[(w & _ & _ & ->)|(ps & y & _ & _ & ->)]]]]]].
  2: { destruct (decimal_head z x D) as (c & q & -> & H). exists c, q. split; [reflexivity|]. unfold iswhite. cbn. lia. }
  all: eexists; eexists; split; [reflexivity|]; unfold iswhite; cbn; lia.
Qed.
Lemma json_solid t x r : json t x -> solid (x ++ r).
Proof. intros J. destruct (json_head t x J) as (c & q & -> & H & _). exact H. Qed.

Lemma white_stop w r : white w -> stop r -> stop (w ++ r).
Proof. intros W S. destruct w as [|c w]; [exact S|]. inversion W as [|? ? H _]; subst. cbn in *. intuition auto. Qed.

Lemma elements_head ts y r : elements ts y -> exists w c q, y ++ r = w ++ c :: q /\ white w /\ ~ iswhite c /\ c <> 93.
Proof.
  intros H. destruct H as [w t x w' W J W'|w t x w' ts y W J W' E]; destruct (json_head t x J) as (c & q & -> & N & _ & N93 & _).
  - exists w, c, (q ++ w' ++ r). split; [rewrite <- !app_assoc; cbn [app]; rewrite <- ?app_assoc; reflexivity|auto].
  - exists w, c, (q ++ w' ++ [44] ++ y ++ r). split; [rewrite <- !app_assoc; cbn [app]; rewrite <- ?app_assoc; reflexivity|auto].
Qed.
Lemma members_head ps y r : members ps y -> exists w q, y ++ r = w ++ 34 :: q /\ white w.
Proof.
  intros H. assert (G : forall p x r, member p x -> exists w q, x ++ r = w ++ 34 :: q /\ white w).
  { intros p x r0 M. destruct M as [s c t x w1 w2 w3 w4 W1 W2 W3 W4 C J]. exists w1. eexists. split; [rewrite <- !app_assoc; cbn [app]; reflexivity|exact W1]. }
  destruct H as [p x M|p x ps y M _]; [apply (G p x r M)|]. rewrite <- !app_assoc. apply (G p x _ M).
Qed.

Lemma not_white : ~ iswhite 34 /\ ~ iswhite 44 /\ ~ iswhite 58 /\ ~ iswhite 93 /\ ~ iswhite 125.
Proof. unfold iswhite. cbn. lia. Qed.

Lemma unique :
  (forall t x, json t x -> forall t' x' r r', json t' x' -> stop r -> stop r' -> x ++ r = x' ++ r' -> norm t = norm t' /\ x = x') /\
  (forall ts y, elements ts y -> forall ts' y' r r', elements ts' y' -> y ++ 93 :: r = y' ++ 93 :: r' -> map norm ts = map norm ts' /\ y = y') /\
  (forall ps y, members ps y -> forall ps' y' r r', members ps' y' -> y ++ 125 :: r = y' ++ 125 :: r' -> map normp ps = map normp ps' /\ y = y') /\
  (forall p x, member p x -> forall p' x' d d' r r', member p' x' -> In d [44; 125] -> In d' [44; 125] ->
     x ++ d :: r = x' ++ d' :: r' -> normp p = normp p' /\ x = x').
Proof.
  destruct not_white as (W34 & W44 & W58 & W93 & W125).
  apply json_mut.
  - (* null *)
    intros t' x' r r' J' S S' E.
    destruct (json_shape t' x' J') as [(N & ->)|[(z & N & D)|[(s & c & N & C & ->)|[(w & N & W & ->)|[(ts & y & N & Y & ->)|[(w & N & W & ->)|(ps & y & N & Y & ->)]]]]]]; cbn [app] in E; try discriminate E.
    + rewrite N. auto.
    + destruct (decimal_head z x' D) as (c & q & -> & H). cbn [app] in E. injection E as E1 _. lia.
  - (* number *)
    intros t z l N D t' x' r r' J' S S' E.
    assert (NT : norm t = Int z) by (destruct t; try discriminate N; cbn in N |- *; congruence).
    destruct (decimal_head z l D) as (c0 & q0 & EL & H0).
    destruct (json_shape t' x' J') as [(N' & ->)|[(z' & N' & D')|[(s & c & N' & C & ->)|[(w & N' & W & ->)|[(ts & y & N' & Y & ->)|[(w & N' & W & ->)|(ps & y & N' & Y & ->)]]]]]];
      try (rewrite EL in E; cbn [app] in E; injection E as E1 _; lia).
    destruct (decimal_det z z' l x' r r' D D' S S' E) as [-> ->]. rewrite NT, N'. auto.
  - (* string *)
    intros s c C t' x' r r' J' S S' E.
    destruct (json_shape t' x' J') as [(N' & ->)|[(z' & N' & D')|[(s' & c' & N' & C' & ->)|[(w & N' & W & ->)|[(ts & y & N' & Y & ->)|[(w & N' & W & ->)|(ps & y & N' & Y & ->)]]]]]]; try (cbn [app] in E; discriminate E).
    + destruct (decimal_head z' x' D') as (c' & q & -> & H). cbn [app] in E. injection E as E1 _. lia.
    + destruct (quoted_det c s c' s' r r' C C' E) as (-> & -> & _). rewrite N'. auto.
  - (* strings *)
    intros l x J IH t' x' r r' J' S S' E.
    assert (Q : norm (Strs l) = norm (Vars (map Str l))). { cbn [norm]. f_equal. rewrite map_map. reflexivity. }
    rewrite Q. apply (IH t' x' r r'); assumption.
  - (* empty array *)
    intros w W t' x' r r' J' S S' E.
    destruct (json_shape t' x' J') as [(N' & ->)|[(z' & N' & D')|[(s' & c' & N' & C' & ->)|[(w' & N' & W' & ->)|[(ts & y & N' & Y & ->)|[(w' & N' & W' & ->)|(ps & y & N' & Y & ->)]]]]]]; try (cbn [app] in E; discriminate E).
    + destruct (decimal_head z' x' D') as (c' & q & -> & H). cbn [app] in E. injection E as E1 _. lia.
    + rewrite <- !app_assoc in E. cbn [app] in E. injection E as E.
      destruct (strip w w' (93 :: r) (93 :: r') W W' W93 W93 E) as [-> _]. rewrite N'. auto.
    + exfalso. rewrite <- !app_assoc in E. cbn [app] in E. injection E as E.
      destruct (elements_head ts y (93 :: r') Y) as (w' & c & q & EQ & W' & NC & N93). rewrite EQ in E.
      destruct (strip w w' (93 :: r) (c :: q) W W' W93 NC E) as [_ X]. congruence.
  - (* array *)
    intros ts y Y IH t' x' r r' J' S S' E.
    destruct (json_shape t' x' J') as [(N' & ->)|[(z' & N' & D')|[(s' & c' & N' & C' & ->)|[(w' & N' & W' & ->)|[(ts' & y' & N' & Y' & ->)|[(w' & N' & W' & ->)|(ps & y' & N' & Y' & ->)]]]]]]; try (cbn [app] in E; discriminate E).
    + destruct (decimal_head z' x' D') as (c' & q & -> & H). cbn [app] in E. injection E as E1 _. lia.
    + exfalso. rewrite <- !app_assoc in E. cbn [app] in E. injection E as E.
      destruct (elements_head ts y (93 :: r) Y) as (w & c & q & EQ & W & NC & N93). rewrite EQ in E.
      destruct (strip w w' (c :: q) (93 :: r') W W' NC W93 E) as [_ X]. congruence.
    + rewrite <- !app_assoc in E. cbn [app] in E. injection E as E. destruct (IH ts' y' r r' Y' E) as [A ->]. rewrite N', <- A. auto.
  - (* empty object *)
    intros w W t' x' r r' J' S S' E.
    destruct (json_shape t' x' J') as [(N' & ->)|[(z' & N' & D')|[(s' & c' & N' & C' & ->)|[(w' & N' & W' & ->)|[(ts & y & N' & Y & ->)|[(w' & N' & W' & ->)|(ps & y & N' & Y & ->)]]]]]]; try (cbn [app] in E; discriminate E).
    + destruct (decimal_head z' x' D') as (c' & q & -> & H). cbn [app] in E. injection E as E1 _. lia.
    + rewrite <- !app_assoc in E. cbn [app] in E. injection E as E.
      destruct (strip w w' (125 :: r) (125 :: r') W W' W125 W125 E) as [-> _]. rewrite N'. auto.
    + exfalso. rewrite <- !app_assoc in E. cbn [app] in E. injection E as E.
      destruct (members_head ps y (125 :: r') Y) as (w' & q & EQ & W'). rewrite EQ in E.
      destruct (strip w w' (125 :: r) (34 :: q) W W' W125 W34 E) as [_ X]. congruence.
  - (* object *)
    intros ps y Y IH t' x' r r' J' S S' E.
    destruct (json_shape t' x' J') as [(N' & ->)|[(z' & N' & D')|[(s' & c' & N' & C' & ->)|[(w' & N' & W' & ->)|[(ts' & y' & N' & Y' & ->)|[(w' & N' & W' & ->)|(ps' & y' & N' & Y' & ->)]]]]]]; try (cbn [app] in E; discriminate E).
    + destruct (decimal_head z' x' D') as (c' & q & -> & H). cbn [app] in E. injection E as E1 _. lia.
    + exfalso. rewrite <- !app_assoc in E. cbn [app] in E. injection E as E.
      destruct (members_head ps y (125 :: r) Y) as (w & q & EQ & W). rewrite EQ in E.
      destruct (strip w w' (34 :: q) (125 :: r') W W' W34 W125 E) as [_ X]. congruence.
    + rewrite <- !app_assoc in E. cbn [app] in E. injection E as E. destruct (IH ps' y' r r' Y' E) as [A ->]. rewrite N', <- A. auto.
  - (* last element *)
    intros w t x w' W J IH W' ts' y' r r' Y' E. rewrite <- !app_assoc in E.
    destruct Y' as [v t' x' v' V J' V'|v t' x' v' ts' y' V J' V' Y']; rewrite <- !app_assoc in E;
      (destruct (strip w v _ _ W V (json_solid _ _ _ J) (json_solid _ _ _ J') E) as [-> E1]).
    + destruct (IH t' x' (w' ++ 93 :: r) (v' ++ 93 :: r') J') as [A ->]; [apply white_stop; [exact W'|cbn; auto 10]|apply white_stop; [exact V'|cbn; auto 10]|exact E1|].
      apply app_inv_head in E1. destruct (strip w' v' (93 :: r) (93 :: r') W' V' W93 W93 E1) as [-> _]. cbn [map]. rewrite A. auto.
    + exfalso. destruct (IH t' x' (w' ++ 93 :: r) (v' ++ 44 :: y' ++ 93 :: r') J') as [A ->]; [apply white_stop; [exact W'|cbn; auto 10]|apply white_stop; [exact V'|cbn; auto 10]|exact E1|].
      apply app_inv_head in E1. destruct (strip w' v' (93 :: r) (44 :: y' ++ 93 :: r') W' V' W93 W44 E1) as [_ X]. discriminate.
  - (* more elements *)
    intros w t x w' ts y W J IH W' Y IH2 ts' y' r r' Y' E. rewrite <- !app_assoc in E.
    destruct Y' as [v t' x' v' V J' V'|v t' x' v' ts' y' V J' V' Y']; rewrite <- !app_assoc in E;
      (destruct (strip w v _ _ W V (json_solid _ _ _ J) (json_solid _ _ _ J') E) as [-> E1]).
    + exfalso. destruct (IH t' x' (w' ++ 44 :: y ++ 93 :: r) (v' ++ 93 :: r') J') as [A ->]; [apply white_stop; [exact W'|cbn; auto 10]|apply white_stop; [exact V'|cbn; auto 10]|exact E1|].
      apply app_inv_head in E1. destruct (strip w' v' (44 :: y ++ 93 :: r) (93 :: r') W' V' W44 W93 E1) as [_ X]. discriminate.
    + destruct (IH t' x' (w' ++ 44 :: y ++ 93 :: r) (v' ++ 44 :: y' ++ 93 :: r') J') as [A ->]; [apply white_stop; [exact W'|cbn; auto 10]|apply white_stop; [exact V'|cbn; auto 10]|exact E1|].
      apply app_inv_head in E1. destruct (strip w' v' (44 :: y ++ 93 :: r) (44 :: y' ++ 93 :: r') W' V' W44 W44 E1) as [-> X]. injection X as X.
      destruct (IH2 ts' y' r r' Y' X) as [B ->]. cbn [map]. rewrite A, B. auto.
  - (* last member *)
    intros p x M IH ps' y' r r' Y' E. destruct Y' as [p' x' M'|p' x' ps' y' M' Y'].
    + destruct (IH p' x' 125 125 r r' M') as [A ->]; [cbn; auto|cbn; auto|exact E|]. cbn [map]. rewrite A. auto.
    + exfalso. rewrite <- !app_assoc in E. cbn [app] in E. destruct (IH p' x' 125 44 r (y' ++ 125 :: r') M') as [A ->]; [cbn; auto|cbn; auto|exact E|].
      apply app_inv_head in E. discriminate.
  - (* more members *)
    intros p x ps y M IH Y IH2 ps' y' r r' Y' E. rewrite <- !app_assoc in E. cbn [app] in E. destruct Y' as [p' x' M'|p' x' ps' y' M' Y'].
    + exfalso. destruct (IH p' x' 44 125 (y ++ 125 :: r) r' M') as [A ->]; [cbn; auto|cbn; auto|exact E|]. apply app_inv_head in E. discriminate.
    + rewrite <- !app_assoc in E. cbn [app] in E. destruct (IH p' x' 44 44 (y ++ 125 :: r) (y' ++ 125 :: r') M') as [A ->]; [cbn; auto|cbn; auto|exact E|].
      apply app_inv_head in E. injection E as E. destruct (IH2 ps' y' r r' Y' E) as [B ->]. cbn [map]. rewrite A, B. auto.
  - (* member *)
    intros s c t x w1 w2 w3 w4 W1 W2 W3 W4 C J IH p' x' d d' r r' M' D D' E.
    destruct M' as [s' c' t' x' v1 v2 v3 v4 V1 V2 V3 V4 C' J'].
    assert (ND : forall d, In d [44; 125] -> ~ iswhite d) by (intros q Hq; cbn in Hq; intuition (subst; auto)).
    assert (SD : forall d q, In d [44; 125] -> stop (d :: q)) by (intros q q0 Hq; cbn in Hq |- *; intuition (subst; auto 10)).
    assert (N := ND d D). assert (N' := ND d' D'). assert (SS := SD d r D). assert (SS' := SD d' r' D').
    repeat rewrite <- app_assoc in E. cbn [app] in E. repeat rewrite <- app_assoc in E.
    destruct (strip' _ _ _ _ E W1 V1 W34 W34) as [-> E1].
    destruct (quoted_det c s c' s' (w2 ++ 58 :: w3 ++ x ++ w4 ++ d :: r) (v2 ++ 58 :: v3 ++ x' ++ v4 ++ d' :: r') C C') as (-> & -> & E2).
    { rewrite <- !app_assoc. cbn [app] in *. exact E1. }
    destruct (strip' _ _ _ _ E2 W2 V2 W58 W58) as [-> E3]. injection E3 as E3.
    destruct (strip w3 v3 _ _ W3 V3 (json_solid _ _ _ J) (json_solid _ _ _ J') E3) as [-> E4].
    destruct (IH t' x' (w4 ++ d :: r) (v4 ++ d' :: r') J') as [A ->]; [apply white_stop; assumption|apply white_stop; assumption|exact E4|].
    apply app_inv_head in E4. destruct (strip' _ _ _ _ E4 W4 V4 N N') as [-> _].
    split; [unfold normp; cbn [fst snd]; rewrite A; reflexivity|reflexivity].
Qed.

Lemma json_unique t t' x : json t x -> json t' x -> norm t = norm t'.
Proof. intros J J'. apply (proj1 unique t x J t' x [] []); [exact J'|exact I|exact I|reflexivity]. Qed.
