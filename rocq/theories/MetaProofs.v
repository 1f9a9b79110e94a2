(** MetaProofs.v -- proofs about MetaModel. *)
From Verif Require Import Base MetaModel MetaSpec.

Lemma invoke_result_iff : forall L F A t, invoke_result L F A = Some t <-> invokes L F A t.
Proof.
  intros L F A t. split.
  - destruct F as [|o c r]; [discriminate|]. destruct A as [|oa ca ra]; [destruct o; discriminate|].
    destruct o as [n|m|n]; cbn; intros H.
    + apply inv_call; [discriminate|discriminate| |exact H]. intros (m & c' & r' & E). discriminate.
    + apply inv_member; [discriminate|exact H].
    + apply inv_call; [discriminate|discriminate| |exact H]. intros (m & c' & r' & E). discriminate.
  - intros H. destruct H as [m c r A t HA H|F A t HF HA HM H].
    + destruct A; [congruence|exact H].
    + destruct F as [|o c r]; [congruence|]. destruct A as [|oa ca ra]; [congruence|]. destruct o as [n|m|n]; [exact H| |exact H].
      destruct HM. exists m, c, r. reflexivity.
Qed.
Lemma call_expr_plain : forall L F A, ~ member_pointer F -> call_expr L F A = invoke_result L F A.
Proof.
  intros L F A N. destruct F as [|[n|m|n] c r], A; try reflexivity. destruct N. exists m, c, r. reflexivity.
Qed.
Lemma call_expr_member : forall L F A, member_pointer F -> call_expr L F A = None.
Proof. intros L F A (m & c & r & ->). destruct A; reflexivity. Qed.
Lemma concept_invocable : forall L F A, Invocable L F A = true <-> exists t, invokes L F A t.
Proof.
  intros L F A. unfold Invocable. destruct (invoke_result L F A) as [t|] eqn:E; cbn; split; intros H; try discriminate; auto.
  - exists t. apply invoke_result_iff. exact E.
  - destruct H as (t & H). apply invoke_result_iff in H. congruence.
Qed.
Lemma concept_returning : forall L R F A,
  InvocableReturning L R F A = true <-> exists t, invokes L F A t /\ l_convertible L t R = true.
Proof.
  intros L R F A. unfold InvocableReturning, Invocable. destruct (invoke_result L F A) as [t|] eqn:E; cbn; split; intros H;
    try discriminate; auto.
  - exists t. split; [apply invoke_result_iff; exact E | exact H].
  - destruct H as (t' & H1 & H2). apply invoke_result_iff in H1. congruence.
  - destruct H as (t & H & _). apply invoke_result_iff in H. congruence.
Qed.
Lemma trait_plain : forall L F A, ~ member_pointer F -> (IsInvocable L F A = true <-> exists t, invokes L F A t).
Proof.
  intros L F A N. unfold IsInvocable. rewrite (call_expr_plain L F A N). apply concept_invocable.
Qed.
Lemma trait_member : forall L F A, member_pointer F -> IsInvocable L F A = false.
Proof. intros L F A N. unfold IsInvocable. rewrite (call_expr_member L F A N). reflexivity. Qed.
Lemma returning_scalar : forall L R F A, R = TVoid \/ scalar_value R -> IsInvocableReturning L R F A = false.
Proof.
  intros L R F A H. unfold IsInvocableReturning. destruct (call_expr L F A) as [t|]; [|reflexivity].
  destruct H as [->|(o & c & r & -> & Ho & H)]; [reflexivity|].
  destruct t as [|ot ct rt]; destruct o as [n|m|n]; try reflexivity; try (destruct (Ho n); reflexivity);
    destruct r; try reflexivity; destruct H as [H|H]; try congruence; subst c; reflexivity.
Qed.
Lemma returning_lvalue : forall L o F A t, (forall n, o <> TClass n) -> ~ member_pointer F -> invokes L F A t -> t <> TVoid ->
  IsInvocableReturning L (TObj o false LRef) F A = l_convertible L t (TObj o false NoRef).
Proof.
  intros L o F A t Ho N H V. unfold IsInvocableReturning. rewrite (call_expr_plain L F A N).
  apply invoke_result_iff in H. rewrite H. destruct t as [|ot ct rt]; [congruence|].
  destruct o as [n|m|n]; try reflexivity. destruct (Ho n). reflexivity.
Qed.
Lemma returning_class : forall L n F A, void_apart L -> assigns_what_converts L n -> ~ member_pointer F ->
  (IsInvocableReturning L (TObj (TClass n) false NoRef) F A = true <->
   exists t, invokes L F A t /\ l_convertible L t (TObj (TClass n) false NoRef) = true).
Proof.
  intros L n F A HV HA N. rewrite <- concept_returning. unfold IsInvocableReturning, InvocableReturning, Invocable.
  rewrite (call_expr_plain L F A N). destruct (invoke_result L F A) as [t|]; [|reflexivity]. cbn [is_some andb].
  destruct t as [|o c r].
  - cbn. rewrite HV. reflexivity.
  - cbn. rewrite (HA (TObj o c r)) by discriminate. reflexivity.
Qed.
