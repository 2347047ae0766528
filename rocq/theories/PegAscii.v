(** Everything that the notation can spell is ASCII text. *)
From Verif Require Import Base UTF8Model PegModel PegSpec PegText PegSkip.

Lemma oct_ascii : forall c, oct c -> ascii c. Proof. unfold oct, ascii; lia. Qed.
Lemma hexd_ascii : forall c, hexd c -> ascii c. Proof. unfold hexd, ascii; lia. Qed.
Lemma namech_ascii : forall c, namech c -> ascii c. Proof. unfold namech, letter, ascii; lia. Qed.

Lemma letters_ascii k : ascii (letters_of k).
Proof. destruct k; cbv; split; discriminate. Qed.

Lemma escape_ascii al c s r : escape al c s r -> Forall ascii r -> Forall ascii s.
Proof.
  intros H Hr. assert (A : forall z, (1 <=? z) && (z <=? 127) = true -> ascii z) by (unfold ascii; lia).
  destruct H; repeat (apply Forall_cons; [apply A; reflexivity|]);
    try (apply Forall_app; split; [eapply Forall_impl; [|eassumption]; auto using oct_ascii, hexd_ascii|]); auto.
  - unfold control_escapes in H. cbn in H. apply Forall_cons; [|exact Hr]. apply A.
    destruct H as [H|[H|[H|[H|[H|[H|[]]]]]]]; injection H as <- _; reflexivity.
  - apply Forall_cons; [|exact Hr]. unfold letter in H. unfold ascii. lia.
Qed.

Lemma class_char_ascii al c s r : class_char al c s r -> Forall ascii r -> Forall ascii s.
Proof. destruct 1; intros Hr; [apply Forall_cons; auto|eapply escape_ascii; eauto]. Qed.

Lemma items_ascii D l s r : items D l s r -> Forall ascii r -> Forall ascii s.
Proof.
  assert (A : forall z, (1 <=? z) && (z <=? 127) = true -> ascii z) by (unfold ascii; lia).
  induction 1; intros Hr.
  - apply Forall_cons; [apply A; reflexivity|exact Hr].
  - eapply class_char_ascii; eauto.
  - eapply class_char_ascii; [eassumption|]. apply Forall_cons; [apply A; reflexivity|].
    eapply class_char_ascii; eauto.
  - apply Forall_cons; [apply A; reflexivity|]. apply Forall_cons; [apply letters_ascii|]. auto.
Qed.

Lemma label_end_ascii s r : label_end s r -> Forall ascii r -> Forall ascii s.
Proof. destruct 1; intros Hr; [apply Forall_cons; auto; split; discriminate|exact Hr]. Qed.

Lemma name_ascii name : Forall namech name -> Forall ascii name.
Proof. apply Forall_impl, namech_ascii. Qed.

Lemma spelling_ascii D :
  (forall e s r, bare D e s r -> Forall ascii r -> Forall ascii s) /\
  (forall e s r, prim D e s r -> Forall ascii r -> Forall ascii s) /\
  (forall e s r, atom D e s r -> Forall ascii r -> Forall ascii s) /\
  (forall e s r, branch D e s r -> Forall ascii r -> Forall ascii s) /\
  (forall e s r, alts D e s r -> Forall ascii r -> Forall ascii s) /\
  (forall e s r, expr D e s r -> Forall ascii r -> Forall ascii s).
Proof.
  assert (A : forall z, (1 <=? z) && (z <=? 127) = true -> ascii z) by (unfold ascii; lia).
  assert (A' : forall z l, (1 <=? z) && (z <=? 127) = true -> Forall ascii l -> Forall ascii (z :: l)).
  { intros. apply Forall_cons; auto. }
  apply spelling_ind; intros; auto; try (apply A'; [reflexivity|]); auto;
    try (apply A'; [reflexivity|]); auto; try (now eauto using escape_ascii, items_ascii).
  - apply Forall_cons; auto using letters_ascii.
  - apply H. apply A'; [reflexivity|]. apply Forall_app. eauto using name_ascii, label_end_ascii.
  - apply Forall_app. split; [auto using name_ascii|]. apply A'; auto.
  - apply Forall_app. split; [auto using name_ascii|]. do 2 (apply A'; [reflexivity|]).
    apply Forall_app. eauto using name_ascii, label_end_ascii.
Qed.

Lemma spells_ascii D e pat : spells D e pat -> Forall ascii pat.
Proof. intros H. eapply spelling_ascii; [exact H|constructor]. Qed.
