(** MetaProps.v -- property C103, the invocability traits.  Statements only; the lemmas are in MetaProofs.v. *)
From Verif Require Import Base MetaModel MetaSpec MetaProofs.

(** ** C103: IsInvocable<F,A> and IsInvocableReturning<R,F,A> are true exactly if an f can be invoked with an a (and the result
    converts to R), as the concepts Invocable and InvocableReturning are.

    Intended, for all programs [L] and types:
      IsInvocable L F A = true <-> exists t, invokes L F A t
      IsInvocableReturning L R F A = true <-> exists t, invokes L F A t /\ l_convertible L t R = true.
    The concepts do say this: *)
Theorem C103_concepts_partial :
  forall (L : lang) (R F A : type),
  (Invocable L F A = true <-> exists t, invokes L F A t) /\
  (InvocableReturning L R F A = true <-> exists t, invokes L F A t /\ l_convertible L t R = true).
Proof. exact (fun L R F A => conj (concept_invocable L F A) (concept_returning L R F A)). Qed.
Print Assumptions C103_concepts_partial.

(** IsInvocable does for everything but pointers to members ... *)
Theorem C103_invocable_partial :
  forall (L : lang) (F A : type), ~ member_pointer F -> (IsInvocable L F A = true <-> exists t, invokes L F A t).
Proof. exact trait_plain. Qed.
Print Assumptions C103_invocable_partial.
(** ... and is false for every pointer to member. *)
Theorem C103_invocable_refuted :
  forall (L : lang) (F A t : type), member_pointer F -> invokes L F A t -> IsInvocable L F A = false.
Proof. exact (fun L F A t N _ => trait_member L F A N). Qed.
Print Assumptions C103_invocable_refuted.

(** IsInvocableReturning is false for void and for every scalar R such as int, const double& or T*, whatever F is ... *)
Theorem C103_scalar_refuted :
  forall (L : lang) (R F A t : type), R = TVoid \/ scalar_value R -> invokes L F A t -> l_convertible L t R = true ->
  IsInvocableReturning L R F A = false.
Proof. exact (fun L R F A t H _ _ => returning_scalar L R F A H). Qed.
Print Assumptions C103_scalar_refuted.
(** ... for R an lvalue reference to a non-const scalar it is true as soon as the result converts to the scalar, which may
    not be bound to R ... *)
Theorem C103_reference_refuted :
  forall (L : lang) (o : object_type) (F A t : type), (forall n, o <> TClass n) -> ~ member_pointer F -> invokes L F A t ->
  t <> TVoid -> l_convertible L t (TObj o false NoRef) = true -> l_convertible L t (TObj o false LRef) = false ->
  IsInvocableReturning L (TObj o false LRef) F A = true.
Proof. exact (fun L o F A t Ho N H V C _ => eq_trans (returning_lvalue L o F A t Ho N H V) C). Qed.
Print Assumptions C103_reference_refuted.
(** ... and it is right for the classes that can be assigned exactly what converts to them. *)
Theorem C103_class_partial :
  forall (L : lang) (n : nat) (F A : type), void_apart L -> assigns_what_converts L n -> ~ member_pointer F ->
  (IsInvocableReturning L (TObj (TClass n) false NoRef) F A = true <->
   exists t, invokes L F A t /\ l_convertible L t (TObj (TClass n) false NoRef) = true).
Proof. exact returning_class. Qed.
Print Assumptions C103_class_partial.

(** a program with int (scalar 0) and double (scalar 1), a class 0 that ints convert to, and callables: class 1 maps an int to an
    int, class 2 an int to an object of class 0; the pointer to member 0 gives an int& for an lvalue of class 0 *)
Definition t_int := TObj (TScalar 0) false NoRef.
Definition t_cls n := TObj (TClass n) false NoRef.
Definition plain_obj (t : type) : option object_type := match t with TObj o _ _ => Some o | TVoid => None end.
Definition an_lang : lang := mkLang
  (fun F A => match plain_obj F, plain_obj A with
              | Some (TClass 1), Some (TScalar _) => Some t_int
              | Some (TClass 2), Some (TScalar _) => Some (t_cls 0)
              | _, _ => None end)
  (fun m A => match m, A with 0, TObj (TClass 0) false LRef => Some (TObj (TScalar 0) false LRef) | _, _ => None end)
  (fun x y => match x, y with
              | TVoid, TVoid => true
              | TObj (TScalar _) _ _, TObj (TScalar _) _ NoRef => true
              | TObj (TScalar a) _ LRef, TObj (TScalar b) _ LRef => Nat.eqb a b
              | TObj (TScalar _) _ _, TObj (TScalar _) true LRef => true
              | TObj (TScalar _) _ _, TObj (TClass 0) _ NoRef => true
              | TObj (TClass a) _ _, TObj (TClass b) _ NoRef => Nat.eqb a b
              | _, _ => false end)
  (fun n c lv x => negb c && match x, n with
                             | TObj (TScalar _) _ _, 0 => true
                             | TObj (TClass a) _ _, _ => Nat.eqb a n
                             | _, _ => false end).
Example C103_concepts_example :
  Invocable an_lang (t_cls 1) t_int = true /\ InvocableReturning an_lang t_int (t_cls 1) t_int = true /\
  InvocableReturning an_lang t_int (t_cls 2) t_int = false.
Proof. repeat split; reflexivity. Qed.
Example C103_member_example :
  member_pointer (TObj (TMember 0) false NoRef) /\
  invokes an_lang (TObj (TMember 0) false NoRef) (TObj (TClass 0) false LRef) (TObj (TScalar 0) false LRef) /\
  IsInvocable an_lang (TObj (TMember 0) false NoRef) (TObj (TClass 0) false LRef) = false.
Proof.
  split; [exists 0, false, NoRef; reflexivity|]. split; [apply inv_member; [discriminate|reflexivity] | reflexivity].
Qed.
(** int f(int) is not invocable with an int returning an int, says the trait *)
Example C103_scalar_example :
  scalar_value t_int /\ invokes an_lang (t_cls 1) t_int t_int /\ l_convertible an_lang t_int t_int = true /\
  IsInvocableReturning an_lang t_int (t_cls 1) t_int = false.
Proof.
  split; [exists (TScalar 0), false, NoRef; repeat split; [discriminate | left; discriminate]|].
  split; [|split; reflexivity].
  apply inv_call; [discriminate|discriminate| |reflexivity]. intros (m & c & r & E). discriminate.
Qed.
(** but it is invocable returning an int& *)
Example C103_reference_example :
  l_convertible an_lang t_int (TObj (TScalar 0) false LRef) = false /\
  IsInvocableReturning an_lang (TObj (TScalar 0) false LRef) (t_cls 1) t_int = true.
Proof. split; reflexivity. Qed.
Example C103_class_example :
  void_apart an_lang /\ assigns_what_converts an_lang 0 /\ ~ member_pointer (t_cls 2) /\
  IsInvocableReturning an_lang (t_cls 0) (t_cls 2) t_int = true /\ IsInvocableReturning an_lang (t_cls 0) (t_cls 1) t_int = true /\
  IsInvocableReturning an_lang (t_cls 0) (t_cls 3) t_int = false.
Proof.
  split; [intros [n|m|n] c [| |]; reflexivity|]. split.
  { intros [|[n|m|n] c r] H; try congruence; try reflexivity; cbn; destruct r; try reflexivity; destruct n; reflexivity. }
  split; [intros (m & c & r & E); discriminate | repeat split; reflexivity].
Qed.
