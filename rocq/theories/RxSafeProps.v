(** Theorems about matching with any pattern: C51. *)
From Coq Require Import String Ascii.
From Verif Require Import Base UTF8Model UTF8Spec CharModel StrNumSpec StrNumProofs RxCompModel RxModel RxVm RxProg RxTame RxSafe RxShort.
From Verif Require RxRun.
Local Open Scope list_scope.
Local Open Scope Z_scope.
Local Notation AllF := AllFeatures.
Local Definition chars (x : string) : list Z := map (fun a => Z.of_N (N_of_ascii a)) (list_ascii_of_string x).

(** Which programs are short (RxProg.v: below 1024 bytes, counting three for
    each offset): those of all patterns of at most 83 characters, whatever
    the features. *)
Theorem C51_short_83 : forall features reject re, (List.length re <= 83)%nat -> short_program features reject re.
Proof. exact short_83. Qed.

(** Matching with the program of an ordinary pattern (RxTame.v) that is short
    reads only the program and the text, at any offset of any text, and ends:
    it returns, or an assertion fails.  A recursion
    linear in the length of the program is enough. *)
Theorem C51_no_ub_partial : forall features reject re prog m f g t off,
  ordinary re -> short_program features reject re -> compile features reject re = Ok (Some prog, m) ->
  (13 * (List.length prog + 4) <= f)%nat -> 0 <= off ->
  match_at f g prog t off <> UB /\ match_after f g prog t off <> UB.
Proof. exact compiled_safe. Qed.

(** And what it returns lies in the text: a match at an offset begins there, a
    match after an offset begins there or later, and each ends neither before
    its beginning nor after the end of the text. *)
Theorem C51_inside_partial : forall features reject re prog m f g t off,
  ordinary re -> short_program features reject re -> compile features reject re = Ok (Some prog, m) -> 0 <= off ->
  (forall res e, match_at f g prog t off = Ok res -> r_cap1 res = Some e -> r_cap0 res = off /\ off <= e <= Z.of_nat (List.length t)) /\
  (forall res e, match_after f g prog t off = Ok res -> r_cap1 res = Some e -> off <= r_cap0 res /\ r_cap0 res <= e <= Z.of_nat (List.length t)).
Proof. exact compiled_inside. Qed.

(** Patterns that meet the hypotheses, with a check for [ordinary]. *)
Definition fineb (c : Z) : bool := (0 <=? c) && (c <? 2^32) && negb ((2^31 <=? c) && (c <? 2^31 + 256)) && negb (c =? 2^32 - 1).
Definition plain_code (r : list Z) : bool :=
  match skip_white r with
  | x :: r => if x =? 45 then match skip_white r with d :: _ => (dv 16 d <? 0) || (1 <? dv 16 d) | [] => true end else true
  | [] => true
  end.
Fixpoint plain_escapes (re : list Z) : bool :=
  match re with
  | [] => true
  | b :: re' =>
    match re' with
    | k :: r => negb ((b =? 92) && ((k =? 120) || (k =? 117))) || plain_code r
    | _ => true
    end && plain_escapes re'
  end.
Lemma skip_blanks w x r : Forall blank w -> UCS4IsWhite x = false -> skip_white (w ++ x :: r) = x :: r.
Proof. intros H N. induction H as [|c w C _ IH]; cbn [app skip_white]; [rewrite N; reflexivity|]. apply white_blank in C. rewrite C. exact IH. Qed.
Lemma plain_code_ok n b : plain_code (n ++ b) = true -> ~ numeral 16 n (-1).
Proof.
  intros H (w1 & sg & w2 & ds & w3 & v & EN & W1 & W2 & _ & U & K). unfold unsigned in U. cbn in U. apply digits_isdig in U; [|lia]. destruct U as (ND & F & EV).
  assert (NN : forall l, Forall (fun c => isdig 16 c = true) l -> Forall (fun d => 0 <= d) (map (dv 16) l)).
  { intros l. induction 1 as [|x l Hx _ IH]; cbn [map]; constructor; [unfold isdig in Hx; lia|exact IH]. }
  assert (V0 : 0 <= v) by (rewrite EV; apply acc_ge; [lia|apply NN, F|lia]).
  assert (SG : sg = [45]) by (destruct K as [(_ & _ & K)|[(_ & K)|(K & _)]]; [lia|lia|exact K]).
  assert (V1 : v = 1) by (destruct K as [(_ & _ & K)|[(_ & K)|(_ & K)]]; lia). subst sg.
  destruct ds as [|d ds]; [congruence|]. apply Forall_cons_iff in F. destruct F as [FD F].
  assert (WD : UCS4IsWhite d = false). { apply isdig_spec in FD; [|lia]. eapply digit_noblank, FD. }
  unfold plain_code in H. rewrite EN in H. replace ((w1 ++ [45] ++ w2 ++ (d :: ds) ++ w3) ++ b) with (w1 ++ 45 :: (w2 ++ d :: (ds ++ w3 ++ b))) in H by (repeat (rewrite <- app_assoc; cbn [app]); reflexivity).
  rewrite skip_blanks in H by (exact W1 || reflexivity). cbn [Z.eqb Pos.eqb] in H. rewrite skip_blanks in H by assumption.
  cbn [map acc fold_left] in EV. unfold isdig in FD. assert (A := acc_ge 16 (map (dv 16) ds) ltac:(lia) (NN ds F) (0 * 16 + dv 16 d) ltac:(lia)). unfold acc in A. lia.
Qed.
Lemma ordinary_check re : forallb fineb re = true -> plain_escapes re = true -> ordinary re.
Proof.
  intros H1 H2. split.
  - apply Forall_forall. intros c Hc. rewrite forallb_forall in H1. specialize (H1 c Hc). unfold fineb in H1. unfold RxCode.fine, ucs4, replacement. lia.
  - intros a. revert re H1 H2. induction a as [|x a IH]; intros re H1 H2 k n b E Hk; subst re.
    + cbn [app plain_escapes] in H2. apply andb_prop in H2. destruct H2 as [H2 _].
      assert (K : (k =? 120) || (k =? 117) = true) by (destruct Hk as [-> | ->]; reflexivity). rewrite K in H2. cbn [Z.eqb Pos.eqb andb negb orb] in H2. eapply plain_code_ok, H2.
    + change ((x :: a) ++ 92 :: k :: n ++ b) with (x :: (a ++ 92 :: k :: n ++ b)) in H1, H2. cbn [forallb] in H1. apply andb_prop in H1. cbn [plain_escapes] in H2.
      apply (IH (a ++ 92 :: k :: n ++ b)) with (k := k) (b := b); try tauto. apply andb_prop in H2. tauto.
Qed.
Definition ex_re : list Z := chars "^(?!x)(?:(?<name>[a-z_]+)|\u20AC{2,3})*\x41?\x 4\u-2f$".
Example C51_example_hypotheses : ordinary ex_re /\ short_program AllF 0 ex_re /\ exists prog, compile AllF 0 ex_re = Ok (Some prog, None).
Proof.
  split; [apply ordinary_check; vm_compute; reflexivity|]. split; [apply short_83; vm_compute; lia|].
  pose (p := compile AllF 0 ex_re). vm_compute in p. match (eval unfold p in p) with Ok (Some ?q, None) => exists q end. vm_compute. reflexivity.
Qed.
Definition tried (re x : list Z) (off : Z) : outcome (Z * option Z) :=
  do p <- compile AllF 0 re;
  match p with
  | (Some p, _) => do r <- match_after (13 * (List.length p + 4)) 0 p x off; Ok (r_cap0 r, r_cap1 r)
  | (None, m) => Abort
  end.
Example C51_example_match :
  tried (chars "(?!x)(?:[a-z_]+|\u20AC{2,3})+\x41?$") (chars "x" ++ [0x20AC; 0x20AC] ++ chars "foA") 0 = Ok (1, Some 6) /\
  tried (chars "(?!x)(?:[a-z_]+|\u20AC{2,3})+\x41?$") (chars "1234") 0 = Ok (0, None).
Proof. vm_compute. auto. Qed.

Definition wild_re : list Z :=
  chars "(?:\d" ++ repeat 97 29 ++ chars ")?[" ++ [0xFFFFE] ++ chars "abcdefghijklmnopqrstuvwxyzABCDEFG]" ++ repeat 98 500.
Definition wild_prog : list Z := Eval vm_compute in match compile AllF 0 wild_re with Ok (Some p, _) => p | _ => [] end.
Definition wild_header : header := Eval vm_compute in match program wild_prog with Ok h => h | _ => mkheader 0 0 0 0 0 [] end.
Definition wild_start : Z := h_start wild_header + 2.
Definition wild_alt : Z := Eval vm_compute in match decode wild_prog wild_start with Ok (ISplit a _) => a | _ => 0 end.
Definition wild_next : Z := Eval vm_compute in match decode wild_prog wild_start with Ok (ISplit _ b) => b | _ => 0 end.
Definition wild_jump : Z := Eval vm_compute in match decode wild_prog wild_alt with Ok (IJump a) => a | _ => 0 end.
(** Not for longer programs: where offsets take three bytes, one of exactly 64
    is written one too high.  Here the match goes on one byte too far, in the
    middle of a class, whose characters are then read as a jump out of the
    program, with any text at any offset. *)
Theorem C51_no_ub_refuted : ordinary wild_re /\ exists prog s a b x,
  compile AllF 0 wild_re = Ok (Some prog, None) /\
  decode prog s = Ok (ISplit a b) /\ decode prog a = Ok (IJump x) /\ x > Z.of_nat (List.length prog) /\
  forall f g t off, match_at f g prog t off = UB.
Proof.
  split; [apply ordinary_check; vm_compute; reflexivity|].
  set (s := wild_start). set (a := wild_alt). set (b := wild_next). set (x := wild_jump).
  assert (D : decode wild_prog s = Ok (ISplit a b)) by (vm_compute; reflexivity).
  assert (E : decode wild_prog a = Ok (IJump x)) by (vm_compute; reflexivity).
  exists wild_prog, s, a, b, x. split; [vm_compute; reflexivity|]. split; [exact D|]. split; [exact E|]. split; [vm_compute; reflexivity|].
  assert (H : program wild_prog = Ok wild_header) by (vm_compute; reflexivity).
  assert (D0 : decode wild_prog (h_start wild_header) = Ok (ICapStart 0 s)) by (vm_compute; reflexivity).
  assert (U : decode wild_prog x = UB) by (vm_compute; reflexivity).
  assert (N : (a =? h_start wild_header) = false) by (vm_compute; reflexivity).
  clearbody s a b x. intros f g t off. unfold match_at, match_from. rewrite H. cbn [obind]. clear H.
  generalize (look wild_prog wild_header t g f f). intros lk. generalize (mkresult 0 None (repeat 0 (Z.to_nat (h_captures wild_header * 2 - 2))) []). intros r0.
  assert (G : addthread wild_prog wild_header t g lk f (mkthread (h_start wild_header) r0) off [] 0 [] = UB); [|rewrite G; reflexivity].
  destruct f as [|f]; [reflexivity|]. rewrite RxRun.addS. cbn [t_station existsb length Nat.ltb Nat.leb RxMaxNesting cassert duplicate].
  destruct f as [|f]; [reflexivity|]. rewrite RxRun.goS. cbn [t_station t_result]. rewrite D0. cbn [obind]. cbv zeta. cbn [capture_set Z.mul Z.eqb obind].
  destruct f as [|f]; [reflexivity|]. rewrite RxRun.goS. cbn [t_station t_result]. rewrite D. cbn [obind]. cbv zeta.
  destruct f as [|f]; [reflexivity|]. rewrite RxRun.addS. cbn [t_station existsb length Nat.ltb Nat.leb RxMaxNesting cassert duplicate]. rewrite N. cbn [orb cassert].
  destruct f as [|f]; [reflexivity|]. rewrite RxRun.goS. cbn [t_station t_result]. rewrite E. cbn [obind]. cbv zeta.
  destruct f as [|f]; [reflexivity|]. rewrite RxRun.goS. cbn [t_station t_result]. rewrite U. reflexivity.
Qed.

Print Assumptions C51_short_83.
Print Assumptions C51_no_ub_partial.
Print Assumptions C51_inside_partial.
Print Assumptions C51_no_ub_refuted.
