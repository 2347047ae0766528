(** Theorems about the listing of a compiled program: C52. *)
From Coq Require Import String Ascii.
From Verif Require Import Base UTF8Model CharModel RxCompModel RxModel RxVm RxProg RxTame RxShort RxSafeProps RxDumpModel RxDumpSpec RxDumpProofs.
Local Open Scope list_scope.
Local Open Scope Z_scope.
Local Notation AllF := AllFeatures.
Local Definition chars (x : string) : list Z := map (fun a => Z.of_N (N_of_ascii a)) (list_ascii_of_string x).

(** Dumping the program of an ordinary pattern (RxTame.v) that is short
    (RxProg.v) reads only the program and fails no assertion; its lines are
    the header as the matcher reads it, one line for every instruction that the
    matcher can come to, at its position, saying what the matcher decodes there,
    with the right names for the groups, and the final NUL (RxDumpSpec.v). *)
Theorem C52_listing_partial : forall features reject re prog m,
  ordinary re -> short_program features reject re -> compile features reject re = Ok (Some prog, m) ->
  exists h lines, program prog = Ok h /\ dump prog = Ok lines /\ listing prog h lines.
Proof. exact compiled_listing. Qed.

(** In particular no line says that something is illegal or should not have
    been emitted. *)
Theorem C52_no_errors_partial : forall features reject re prog m lines,
  ordinary re -> short_program features reject re -> compile features reject re = Ok (Some prog, m) -> dump prog = Ok lines ->
  forall p l, In (p, l) lines -> 0 <= p < Z.of_nat (List.length prog) /\ match l with DError _ | DIllegal _ | DCapStart None _ | DCapEnd None _ => False | _ => True end.
Proof.
  intros features reject re prog m lines O S H D p l Hin.
  destruct (compiled_listing _ _ _ _ _ O S H) as (h & lines' & _ & D' & body & nesting & E & SS & _ & _ & B).
  assert (EL : lines = lines') by congruence. rewrite EL in Hin. clear EL D.
  assert (N : 0 < Z.of_nat (List.length prog)) by (destruct prog; [rewrite E in D'; discriminate D'|cbn [List.length]; lia]).
  split.
  - rewrite E in SS, Hin. cbn [map fst] in SS. rewrite map_app in SS. cbn [map fst] in SS. apply Sorted.StronglySorted_inv in SS. destruct SS as [S1 S2].
    destruct Hin as [Hin|Hin]; [assert (p = 0) by congruence; subst; lia|]. apply in_app_or in Hin. destruct Hin as [Hin|[Hin|[]]]; [|assert (p = Z.of_nat (List.length prog) - 1) by congruence; subst; lia].
    assert (I : In p (map fst body)) by (apply (in_map fst) in Hin; exact Hin).
    rewrite Forall_forall in S2. specialize (S2 p ltac:(apply in_or_app; auto)). split; [lia|].
    clear - S1 I. induction (map fst body) as [|x b IH]; [contradiction|]. cbn [app] in S1. apply Sorted.StronglySorted_inv in S1. destruct S1 as [S1 S2]. destruct I as [->|I]; [|auto].
    rewrite Forall_forall in S2. specialize (S2 (Z.of_nat (List.length prog) - 1) ltac:(apply in_or_app; right; left; reflexivity)). lia.
  - rewrite E in Hin. destruct Hin as [Hin|Hin]; [assert (l = DStart (h_search h) (h_start h) (h_stations h) nesting (h_captures h) (map utf8 (h_names h))) by congruence; subst; exact I|].
    apply in_app_or in Hin. destruct Hin as [Hin|[Hin|[]]]; [|assert (l = DNull) by congruence; subst; exact I].
    destruct (B p l Hin) as (i & _ & Sh & _). destruct i as [| | |[|]| | | | | | | | | | |], l as [| | | | | | | | | |[|]|[|]| | | | | | |]; cbn [shows] in Sh; try contradiction; exact I.
Qed.

(** A pattern that meets the hypotheses, and what its listing says *)
Definition shown_re : list Z := chars "(?<n>[a-c]|\d{2,3})+(?!x)".
Example C52_example_hypotheses : ordinary shown_re /\ short_program AllF 0 shown_re /\ exists prog, compile AllF 0 shown_re = Ok (Some prog, None).
Proof.
  split; [apply ordinary_check; vm_compute; reflexivity|]. split; [apply short_83; vm_compute; lia|].
  pose (p := compile AllF 0 shown_re). vm_compute in p. match (eval unfold p in p) with Ok (Some ?q, None) => exists q end. vm_compute. reflexivity.
Qed.
Example C52_example_lines : (do p <- compile AllF 0 shown_re; match p with (Some p, _) => dump p | _ => Abort end) =
  Ok [(0, DStart 39 9 16 2 2 [chars "n"]); (9, DCapStart (Some []) 0); (11, DCapStart (Some (chars "n")) 1);
      (13, DSplit 7 21); (15, DClass (chars "ac")); (19, DJump 9 29); (21, DZero); (22, DProp (chars "d")); (25, DCount 2 3 (-6) 22);
      (29, DCapEnd (Some (chars "n")) 1); (31, DSplit (-21) 11); (33, DNeg 4 38); (35, DChar 120 (chars "x")); (37, DAccept);
      (38, DAccept); (39, DSplit (-31) 9); (41, DAny); (42, DJump (-4) 39); (44, DNull)].
Proof. vm_compute. reflexivity. Qed.

Definition wild_lines : list (Z * line) := Eval vm_compute in match dump wild_prog with Ok l => l | _ => [] end.
(** Not for longer programs: the offset of exactly 64 that is written one too
    high (C51_no_ub_refuted) leads the matcher to a byte that no line begins
    with, so what the matcher runs there is not in the listing. *)
Theorem C52_listing_refuted : ordinary wild_re /\ exists prog h lines, compile AllF 0 wild_re = Ok (Some prog, None) /\ program prog = Ok h /\ dump prog = Ok lines /\
  (exists s a b, In (s, DSplit (a - (s + 1)) a) lines /\ decode prog s = Ok (ISplit a b) /\ ~ In a (map fst lines)) /\ ~ listing prog h lines.
Proof.
  assert (D : decode wild_prog wild_start = Ok (ISplit wild_alt wild_next)) by (vm_compute; reflexivity).
  assert (N : ~ In wild_alt (map fst wild_lines)).
  { assert (X : existsb (fun x => x =? wild_alt) (map fst wild_lines) = false) by (vm_compute; reflexivity). intros I.
    rewrite <- not_true_iff_false in X. apply X. apply existsb_exists. exists wild_alt. split; [exact I|apply Z.eqb_refl]. }
  assert (S : In (wild_start, DSplit (wild_alt - (wild_start + 1)) wild_alt) wild_lines) by (vm_compute; right; right; left; reflexivity).
  split; [apply ordinary_check; vm_compute; reflexivity|]. exists wild_prog, wild_header, wild_lines.
  split; [vm_compute; reflexivity|]. split; [vm_compute; reflexivity|]. split; [vm_compute; reflexivity|]. split; [exists wild_start, wild_alt, wild_next; auto|].
  assert (W0 : wild_start = 12) by (vm_compute; reflexivity).
  revert D N S W0. generalize wild_lines wild_start wild_alt wild_next. intros lines s a b D N S W0 (body & nesting & E & _ & _ & _ & B).
  rewrite E in S. destruct S as [S|S]; [discriminate S|]. apply in_app_or in S. destruct S as [S|[S|[]]]; [|discriminate S].
  destruct (B _ _ S) as (i & D' & _ & T). assert (i = ISplit a b) by congruence. subst i. apply N. rewrite E. right. rewrite map_app. apply in_or_app. left. apply T. left. reflexivity.
Qed.

Print Assumptions C52_listing_partial.
Print Assumptions C52_no_errors_partial.
Print Assumptions C52_listing_refuted.
