(** C54: strings used from several threads. *)
From Verif Require Import Base UTF8Model UTF8Spec RefModel ConcModel ConcSpec ConcProofs ConcCount.
From Verif Require StrModel StrText ArrayModel.

(** Any number of threads and variables (fewer than 2^31 together), any requests
    by any threads, any interleaving of their steps: no body is used after it is
    deleted, no assertion fails; what a thread reads from a variable is the value
    the requests so far give that variable as if no storage were shared, and when
    everything has finished every variable holds exactly its value. *)
Theorem C54_values_partial : forall nt owners es,
  Z.of_nat (length owners + nt) < 2^31 -> Forall byte_event es ->
  exists s, crun (cinit nt owners) es = Ok s /\
    (forall l1 t h res l2, log s = l1 ++ LRead t h res :: l2 -> res = value l1 h) /\
    (at_rest s -> forall h, bytes_of s h = value (log s) h).
Proof.
  intros nt owners es B F. assert (G0 := init_G nt owners B). destruct (crun_G es _ G0 F) as (s & E & Gs).
  exists s. split; [exact E|]. split.
  - apply (crun_reads es _ s G0 F); [|exact E]. intros l1 t h res l2 X. destruct l1; discriminate.
  - intros R h. exact (rest_value s h Gs R).
Qed.

(** No data race on characters: whenever a thread is about to change a byte of a
    body, or to delete it, no other thread is about to read, change or delete it. *)
Theorem C54_no_race_on_characters : forall nt owners es s t u a b o,
  Z.of_nat (length owners + nt) < 2^31 -> Forall byte_event es ->
  crun (cinit nt owners) es = Ok s -> t <> u ->
  about_to s t a o -> about_to s u b o -> ~ text_conflict a b.
Proof.
  intros nt owners es s t u a b o B F E N A A'. destruct (crun_G es _ (init_G nt owners B) F) as (s' & E' & Gs).
  assert (s' = s) by congruence. subst s'. exact (no_text_race s t u a b o Gs N A A').
Qed.

(** If every copy is taken of a variable whose characters were counted (or read)
    since it was last edited, then the cached counts are right: every count a
    thread gets for a well-formed text is its number of characters, and no two
    threads race on a cached count. *)
Theorem C54_counts_partial : forall nt owners es s,
  Z.of_nat (length owners + nt) < 2^31 -> Forall byte_event es ->
  crun (cinit nt owners) es = Ok s -> counts_first (log s) ->
  (forall l1 t h n l2 cs, log s = l1 ++ LCount t h n :: l2 -> value l1 h = encode_all cs ->
     Forall (fun c => ucs4 c /\ ~ replacement c) cs -> n = Z.of_nat (length cs)) /\
  (forall t u a b o, t <> u -> about_to s t a o -> about_to s u b o -> ~ count_conflict a b).
Proof.
  intros nt owners es s B F E CF. assert (G0 := init_G nt owners B). destruct (crun_G es _ G0 F) as (s' & E' & Gs).
  assert (s' = s) by congruence. subst s'.
  destruct (crun_C es _ s G0 (init_C nt owners) F ltac:(intros l1 t h n l2 X; destruct l1; discriminate) E CF) as [Cs CO].
  split.
  - intros l1 t h n l2 cs EL EV Gc. rewrite (CO l1 t h n l2 EL), EV. f_equal. exact (ch_text cs Gc [] ltac:(constructor)).
  - intros t u a b o N A A'. exact (no_count_race s t u a b o Gs Cs N A A').
Qed.

(** ** Non-vacuity *)
Definition st (t : nat) (n : nat) : list cevent := repeat (EStep t) n.
Definition tail_b (b : list Z) : list Z := b ++ [98].

(** Thread 0 makes a string, gives a copy to thread 1; both then append to and
    read theirs in turns: thread 0 has the shared body, so one of them copies. *)
Definition ex_es : list cevent :=
  [EMake 0 0 [97; 195; 169]] ++ st 0 2 ++ [ECopy 0 1 0] ++ st 0 2 ++ [EGive 0 1 1] ++
  [EEdit 1 1 [tail_b]; ERead 0 0] ++ concat (repeat [EStep 0; EStep 1] 5) ++
  st 0 1 ++ [EEdit 0 0 [tail_b; tail_b]] ++ concat (repeat [EStep 1; EStep 0] 26) ++
  [ERead 1 1; ERead 0 0] ++ concat (repeat [EStep 0; EStep 1] 22) ++ [ECount 1 1] ++ st 1 3.

Lemma tail_ok : Forall (fun f => forall b, bytes b -> bytes (f b)) [tail_b].
Proof. constructor; [|constructor]. intros b H. apply Forall_app. split; [exact H|]. repeat constructor; unfold is_byte; lia. Qed.

Definition results (l : list entry) : list (nat * nat * list Z) :=
  flat_map (fun e => match e with LRead t h b => [(t, h, b)] | _ => [] end) l.

Lemma ex_bytes : Forall byte_event ex_es.
Proof.
  unfold ex_es, st. cbn [repeat concat app].
  repeat (apply Forall_cons); try apply Forall_nil; cbn [byte_event];
    first [exact I | exact tail_ok | exact (Forall_inv tail_ok) | unfold is_byte; lia].
Qed.

Fixpoint cfb (v : nat -> bool) (l : list entry) : bool :=
  match l with
  | [] => true
  | e :: r => match e with LCopy _ s => v s | _ => true end && cfb (known_after v e) r
  end.
Lemma cfb_ok l : forall v, cfb v l = true -> forall l1 d s l2, l = l1 ++ LCopy d s :: l2 -> fold_left known_after l1 v s = true.
Proof.
  induction l as [|e l IH]; intros v H l1 d s l2 E; [destruct l1; discriminate|].
  cbn [cfb] in H. apply andb_true_iff in H as [H1 H2]. destruct l1 as [|e1 l1].
  - cbn [app] in E. injection E as -> _. exact H1.
  - cbn [app] in E. injection E as -> E. cbn [fold_left]. exact (IH _ H2 l1 d s l2 E).
Qed.

Example C54_example : Forall byte_event ex_es /\ exists s, crun (cinit 2 [0; 0]%nat) ex_es = Ok s /\
  results (log s) = [(0%nat, 0%nat, [97; 195; 169]); (1%nat, 1%nat, [97; 195; 169; 98]); (0%nat, 0%nat, [97; 195; 169; 98; 98])] /\
  map o_dels (objs (rc s)) = [1; 0; 0]%nat /\ at_rest s /\ counts_first (log s) /\
  exists l1, log s = l1 ++ [LCount 1 1 3] /\ value l1 1 = encode_all [97; 233; 98].
Proof.
  split; [exact ex_bytes|]. eexists. split; [vm_compute; reflexivity|]. split; [vm_compute; reflexivity|]. split; [vm_compute; reflexivity|].
  split; [split; repeat constructor|]. split; [unfold counts_first, known; apply cfb_ok; reflexivity|].
  eexists [_; _; _; _; _; _; _]. split; [vm_compute; reflexivity|]. vm_compute. reflexivity.
Qed.

(** Some states of that kind where the premises of the race theorems hold: both
    threads are about to read the characters of one body. *)
Example C54_race_example : exists s, crun (cinit 2 [0; 0]%nat)
    ([EMake 0 0 [97; 195; 169]] ++ st 0 2 ++ [ECopy 0 1 0] ++ st 0 2 ++ [EGive 0 1 1] ++ [EEdit 1 1 [tail_b]; ERead 0 0] ++ st 0 2 ++ st 1 2) = Ok s /\
  about_to s 0 TextRead 0 /\ about_to s 1 TextRead 0.
Proof.
  eexists. split; [vm_compute; reflexivity|]. split.
  - unfold about_to. cbn. exists 0%nat. auto.
  - unfold about_to. cbn. exists 1%nat. auto.
Qed.

(** ** Counting a shared string from two threads *)

Definition race_es : list cevent :=
  [EMake 0 0 [97; 195; 169]] ++ st 0 2 ++ [EEdit 0 0 [tail_b]] ++ st 0 4 ++ [ECopy 0 1 0] ++ st 0 2 ++ [EGive 0 1 1] ++
  [ECount 0 0; ECount 1 1] ++ st 0 1 ++ st 1 1 ++ st 0 3 ++ st 1 2 ++ st 0 8 ++ st 1 9.

Definition race_body (n : Z) : StrModel.sheap :=
  [Some {| StrModel.sb_arr := {| ArrayModel.b_data := map Some [97; 195; 169; 98; 0]; ArrayModel.b_num := 5; ArrayModel.b_alloc := 5; ArrayModel.b_refs := 2; ArrayModel.b_static := false |};
           StrModel.sb_n := n |}].
Definition race_val : StrModel.sval := {| StrModel.v_body := 0%nat; StrModel.v_off := 0; StrModel.v_len := 3; StrModel.v_mk := (0, 0) |}.

(** countChars increments the count in the shared body without synchronisation
    (strval.h 249-265, and insertBytes leaves it at 0 for a recount): two threads
    that count, index or compare copies of an appended-to string race on it.  In
    this schedule both count the three characters a-e'-b; thread 1 gets 4, and 4
    stays cached for good although nothing is in progress any more.  As it equals
    the number of bytes, operator[] then takes the string for pure ASCII and
    returns a value that is none of the characters of the text. *)
Theorem C54_count_race_refuted :
  exists s, crun (cinit 2 [0; 0]%nat) race_es = Ok s /\ at_rest s /\
    bytes_of s 0 = encode_all [97; 233; 98] /\ bytes_of s 1 = encode_all [97; 233; 98] /\
    (exists l1 l2, log s = l1 ++ LCount 1 1 4 :: l2 /\ value l1 1 = encode_all [97; 233; 98]) /\
    cnt s = [4] /\
    (exists s0, crun (cinit 2 [0; 0]%nat) (firstn 18 race_es ++ [EStep 1]) = Ok s0 /\
       about_to s0 0 CountWrite 0 /\ about_to s0 1 CountRead 0) /\
    (exists h, StrModel.sv_index (race_body 3) race_val 2 = Ok (h, 98)) /\
    (exists h c, StrModel.sv_index (race_body 4) race_val 2 = Ok (h, c) /\ ~ In c [97; 233; 98]).
Proof.
  eexists. split; [vm_compute; reflexivity|]. split; [split; repeat constructor|].
  split; [vm_compute; reflexivity|]. split; [vm_compute; reflexivity|]. split.
  { exists [LMake 0 [97; 195; 169]; LEdit 0 [tail_b]; LCopy 1 0; LCount 0 0 3], []. split; vm_compute; reflexivity. }
  split; [vm_compute; reflexivity|]. split.
  { eexists. split; [vm_compute; reflexivity|]. split; unfold about_to; cbn; [exists 0%nat|exists 1%nat]; auto. }
  split; [eexists; vm_compute; reflexivity|].
  eexists. eexists. split; [vm_compute; reflexivity|]. vm_compute. intuition discriminate.
Qed.

Print Assumptions C54_values_partial.
Print Assumptions C54_no_race_on_characters.
Print Assumptions C54_counts_partial.
Print Assumptions C54_count_race_refuted.
