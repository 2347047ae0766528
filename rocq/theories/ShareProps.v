(** C55: arrays and maps used from several threads. *)
From Verif Require Import Base RefModel ShareModel ShareSpec ShareProofs.

(** Any number of threads and variables (fewer than 2^31 together), any element
    type, any requests by any threads, any interleaving of their steps, as long as
    no put replaces a key that is there: no body is used after it is deleted, no
    element outside a body is read, no assertion fails; what a thread reads from a
    variable is the value the requests so far give that variable as if no storage
    were shared, and when everything has finished every variable holds exactly its
    value. *)
Theorem C55_values_partial : forall (A : Type) nt owners (es : list (sevent A)),
  Z.of_nat (length owners + nt) < 2^31 -> puts_are_fresh (sinit nt owners) es ->
  exists s, srun (sinit nt owners) es = Ok s /\
    (forall l1 t h res l2, log s = l1 ++ LRead t h res :: l2 -> res = value l1 h) /\
    (at_rest s -> forall h, elements s h = value (log s) h).
Proof.
  intros A nt owners es B F. destruct (srun_G es _ (init_G nt owners B)) as (s & E & Gs & R); [|exact F|].
  - intros l1 t h res l2 X. destruct l1; discriminate.
  - exists s. split; [exact E|]. split; [exact R|]. intros Q h. exact (rest_value s h Gs Q).
Qed.

(** No data race: whenever a thread is about to change an element of a body, or to
    delete the body, no other thread is about to read, change or delete it. *)
Theorem C55_no_race_partial : forall (A : Type) nt owners (es : list (sevent A)) s t u a b o,
  Z.of_nat (length owners + nt) < 2^31 -> puts_are_fresh (sinit nt owners) es ->
  srun (sinit nt owners) es = Ok s -> t <> u ->
  about_to s t a o -> about_to s u b o -> ~ conflict a b.
Proof.
  intros A nt owners es s t u a b o B F E N H H'.
  destruct (srun_G es _ (init_G nt owners B)) as (s' & E' & Gs & R); [|exact F|].
  - intros l1 t' h res l2 X. destruct l1; discriminate.
  - assert (s' = s) by congruence. subst s'. exact (no_race s t u a b o Gs N H H').
Qed.

(** ** Non-vacuity *)
Definition st {A} (t : nat) (n : nat) : list (sevent A) := repeat (EStep t) n.
Definition both {A} (n : nat) : list (sevent A) := concat (repeat [EStep 0; EStep 1] n).

(** Without puts the premise holds. *)
Definition no_put {A} (e : sevent A) : bool := match e with EPut _ _ _ _ => false | _ => true end.
Lemma no_put_log {A} (es : list (sevent A)) : forallb no_put es = true ->
  forall s s', (forall e, In e (log s) -> match e with LPut _ _ _ => False | _ => True end) -> srun s es = Ok s' ->
  forall e, In e (log s') -> match e with LPut _ _ _ => False | _ => True end.
Proof.
  induction es as [|e es IH]; intros N s s' L H; [injection H as <-; exact L|].
  cbn [forallb] in N. apply andb_true_iff in N as [N1 N2]. cbn [srun] in H. apply obind_ok in H as (s1 & E & H).
  apply (IH N2 s1 s'); [|exact H].
  destruct (sstep_log s e s1 E) as [EL|(en & EL & K)]; rewrite EL; [exact L|].
  intros e0 X. apply in_app_or in X as [X|[<-|[]]]; [exact (L e0 X)|].
  destruct en; auto. destruct K as [t ->]. discriminate.
Qed.

Lemma no_puts_fresh {A} nt owners (es : list (sevent A)) : forallb no_put es = true -> puts_are_fresh (sinit nt owners) es.
Proof.
  intros N es1 es2 s -> H l1 h f fs l2 E. exfalso.
  rewrite forallb_app in N. apply andb_true_iff in N as [N _].
  apply (no_put_log es1 N (sinit nt owners) s ltac:(intros e []) H (LPut h f fs)). rewrite E. apply in_or_app. right. left. reflexivity.
Qed.

Lemma srun_log {A} (es : list (sevent A)) : forall s s', srun s es = Ok s' -> exists l, log s' = log s ++ l.
Proof.
  induction es as [|e es IH]; intros s s' H; [injection H as <-; exists []; rewrite app_nil_r; reflexivity|].
  cbn [srun] in H. apply obind_ok in H as (s1 & E & H). destruct (IH s1 s' H) as (l & L).
  destruct (sstep_log s e s1 E) as [EL|(en & EL & _)]; rewrite EL in L; [eauto|].
  exists ([en] ++ l). rewrite app_assoc. exact L.
Qed.
Lemma srun_app {A} (es1 es2 : list (sevent A)) : forall s, srun s (es1 ++ es2) = do s1 <- srun s es1; srun s1 es2.
Proof.
  induction es1 as [|e es1 IH]; intros s; [reflexivity|]. cbn [app srun]. destruct (sstep s e); cbn [obind]; auto.
Qed.
Lemma fresh_all {A} nt owners (es : list (sevent A)) s : srun (sinit nt owners) es = Ok s -> fresh_puts (log s) -> puts_are_fresh (sinit nt owners) es.
Proof.
  intros H F es1 es2 s1 -> H1 l1 h f fs l2 E. rewrite srun_app, H1 in H. cbn [obind] in H. destruct (srun_log _ _ _ H) as (l & L).
  apply (F l1 h f fs (l2 ++ l)). rewrite L, E, <- app_assoc. reflexivity.
Qed.

(** Thread 0 makes an array, gives a slice of it to thread 1; both then change
    theirs while the body is shared, in turns, and read them. *)
Definition push_9 (l : list Z) : list Z := l ++ [9].
Definition ex_es : list (sevent Z) :=
  [EMake 0 0 [1; 2; 3; 4; 5]] ++ st 0 2 ++ [ESlice 0 1 0 1 3] ++ st 0 2 ++ [EGive 0 1 1] ++
  [EEdit 1 1 [push_9]; ERead 0 0] ++ both 4 ++ [ETrim 1 1 0 1] ++ both 6 ++ [ESet 0 0 [(1%nat, 7); (4%nat, 8)]] ++ both 8 ++
  [ERead 1 1; ERead 0 0] ++ both 7.

Definition results {A} (l : list (entry A)) : list (nat * nat * list A) :=
  flat_map (fun e => match e with LRead t h b => [(t, h, b)] | _ => [] end) l.

Example C55_example : puts_are_fresh (sinit 2 [0; 0]%nat) ex_es /\
  exists s, srun (sinit 2 [0; 0]%nat) ex_es = Ok s /\ at_rest s /\
  results (log s) = [(0%nat, 0%nat, [1; 2; 3; 4; 5]); (1%nat, 1%nat, [2; 3; 4; 9]); (0%nat, 0%nat, [1; 7; 3; 4; 8])] /\
  mem s = [[1; 7; 3; 4; 8]; [2; 3; 4; 9]].
Proof.
  split; [apply no_puts_fresh; reflexivity|]. eexists. split; [vm_compute; reflexivity|].
  split; [split; repeat constructor|]. split; vm_compute; reflexivity.
Qed.

(** A state in which the premises of the race theorem hold: both threads are
    about to read elements of one body, one of them to copy it before its edit. *)
Example C55_race_example : exists s, srun (sinit 2 [0; 0]%nat) (firstn 9 ex_es) = Ok s /\
  about_to s 0 ElemRead 0 /\ about_to s 1 ElemRead 0.
Proof.
  eexists. split; [vm_compute; reflexivity|]. split; unfold about_to; cbn; [exists 0%nat|exists 1%nat]; auto.
Qed.

(** ** Maps: put of a key that is there *)
Definition erase (k : Z) (m : list (Z * Z)) : option (list (Z * Z)) :=
  if existsb (fun p => fst p =? k) m then Some (filter (fun p => negb (fst p =? k)) m) else None.
Fixpoint enter (k v : Z) (m : list (Z * Z)) : list (Z * Z) :=
  match m with
  | [] => [(k, v)]
  | (k', v') :: m' => if k <? k' then (k, v) :: m else if k =? k' then m else (k', v') :: enter k v m'
  end.

Definition shared_map : list (sevent (Z * Z)) :=
  [EMake 0 0 [(1, 10); (2, 20)]] ++ st 0 2 ++ [ECopy 0 1 0] ++ st 0 2 ++ [EGive 0 1 1].

(** A put of a key the map does not have yet meets the premise. *)
Definition put_es : list (sevent (Z * Z)) := shared_map ++ [EPut 1 1 (erase 3) [enter 3 30]; ERead 0 0] ++ both 12.
Example C55_put_example : puts_are_fresh (sinit 2 [0; 0]%nat) put_es /\ exists s, srun (sinit 2 [0; 0]%nat) put_es = Ok s /\
  at_rest s /\ elements s 0 = [(1, 10); (2, 20)] /\ elements s 1 = [(1, 10); (2, 20); (3, 30)].
Proof.
  assert (X : exists s, srun (sinit 2 [0; 0]%nat) put_es = Ok s /\
    at_rest s /\ elements s 0 = [(1, 10); (2, 20)] /\ elements s 1 = [(1, 10); (2, 20); (3, 30)] /\ fresh_puts (log s)).
  { eexists. split; [vm_compute; reflexivity|]. split; [split; repeat constructor|]. split; [vm_compute; reflexivity|]. split; [vm_compute; reflexivity|].
    intros l1 h f fs l2 E. cbn [log] in E. destruct l1 as [|e1 [|e2 [|e3 [|e4 l1]]]]; try discriminate; cbn [app] in E.
    - injection E as <- <- <- <- _ _. reflexivity.
    - injection E as _ _ _ E. destruct l1; discriminate. }
  destruct X as (s & E & R & E0 & E1 & F). split; [exact (fresh_all _ _ _ _ E F)|]. eauto.
Qed.

(** CowMap::put erases the old pair in the body before it makes the body its own
    (cowmap.h 76-83): thread 1 changes the value of a key in its copy of a map, and
    the key is gone from thread 0's map for good; and while it does so, thread 0
    may be reading the same body, a data race. *)
Theorem C55_put_refuted :
  let es := shared_map ++ [EPut 1 1 (erase 2) [enter 2 21]] in
  (exists s, srun (sinit 2 [0; 0]%nat) (es ++ st 1 12) = Ok s /\ at_rest s /\
     elements s 1 = [(1, 10); (2, 21)] /\ value (log s) 0 = [(1, 10); (2, 20)] /\ elements s 0 = [(1, 10)]) /\
  (exists s, srun (sinit 2 [0; 0]%nat) (es ++ [ERead 0 0; EStep 1]) = Ok s /\
     about_to s 0 ElemRead 0 /\ about_to s 1 ElemWrite 0).
Proof.
  cbv zeta. split.
  - eexists. split; [vm_compute; reflexivity|]. split; [split; repeat constructor|]. repeat split; vm_compute; reflexivity.
  - eexists. split; [vm_compute; reflexivity|]. split; unfold about_to; cbn; [exists 0%nat|exists 1%nat]; auto.
Qed.

Print Assumptions C55_values_partial.
Print Assumptions C55_no_race_partial.
Print Assumptions C55_put_refuted.
