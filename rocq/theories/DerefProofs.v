(** DerefProofs.v -- lemmas for C164. *)
From Verif Require Import Base DerefModel.

Lemma type_eqb_eq : forall a b : type, type_eqb a b = true <-> a = b.
Proof.
  intros a. induction a as [| | | a IH | n]; intros b; split; intros H; destruct b as [| | | b | m]; try discriminate H; try reflexivity.
  - f_equal. apply IH. exact H.
  - injection H as <-. cbn. apply IH. reflexivity.
  - apply Nat.eqb_eq in H. now subst.
  - injection H as <-. apply Nat.eqb_refl.
Qed.
Fixpoint depth (t : type) : nat := match t with Pointer u => S (depth u) | _ => 0 end.

Section P.
  Context (elem : nat -> option type) (operator : nat -> type -> bool) (derived : nat -> nat -> bool).
  Notation to_pointer := (to_pointer operator derived).
  Notation element := (element elem).

  Lemma to_pointer_iff : forall V I : type,
    to_pointer V I = true <->
    V = Null \/ V = Pointer I \/ (I = Void /\ exists t, V = Pointer t) \/
    (exists m n, V = Pointer (Class m) /\ I = Class n /\ derived m n = true) \/ (exists n, V = Class n /\ operator n (Pointer I) = true).
  Proof.
    intros V I. destruct V as [| | | a | n]; cbn [DerefModel.to_pointer].
    - split; [discriminate |]. intros [H | [H | [(_ & t & H) | [(m & n & H & _) | (n & H & _)]]]]; discriminate H.
    - split; auto.
    - split; [discriminate |]. intros [H | [H | [(_ & t & H) | [(m & n & H & _) | (n & H & _)]]]]; discriminate H.
    - rewrite orb_true_iff, type_eqb_eq. split.
      + intros [-> | H]; [auto |]. destruct I as [| | | | n]; try discriminate H; [right; right; left; split; [reflexivity | exists a; reflexivity] |].
        destruct a as [| | | | m]; try discriminate H. right; right; right; left. exists m, n. auto.
      + intros [H | [H | [(-> & t & H) | [(m & n & H & -> & D) | (n & H & _)]]]]; try discriminate H.
        * injection H as ->. auto.
        * auto.
        * injection H as ->. auto.
    - split.
      + intros H. right; right; right; right. exists n. auto.
      + intros [H | [H | [(_ & t & H) | [(m & k & H & _) | (k & H & D)]]]]; try discriminate H. injection H as ->. exact D.
  Qed.

  Context {X : Type} (become : type -> type -> X -> X).

  Lemma dereference_iff : forall (I1 I2 : type) (x1 x2 : X) (r : X * X),
    dereference elem operator derived become I1 I2 x1 x2 = Some r <->
    exists V1 V2, element I1 = Some V1 /\ element I2 = Some V2 /\ to_pointer V1 I1 = true /\ to_pointer V2 I2 = true /\
                  r = (become V1 (Pointer I1) x1, become V2 (Pointer I2) x2).
  Proof.
    intros I1 I2 x1 x2 r. unfold dereference. destruct (element I1) as [V1 |]; [| split; [discriminate | intros (? & ? & H & _); discriminate H]].
    destruct (element I2) as [V2 |]; [| split; [discriminate | intros (? & ? & _ & H & _); discriminate H]].
    destruct (to_pointer V1 I1 && to_pointer V2 I2) eqn:E.
    - apply andb_true_iff in E. destruct E as [E1 E2]. split.
      + intros H. injection H as <-. exists V1, V2. auto.
      + intros (W1 & W2 & H1 & H2 & _ & _ & ->). injection H1 as <-. injection H2 as <-. reflexivity.
    - split; [discriminate |]. intros (W1 & W2 & H1 & H2 & E1 & E2 & _). injection H1 as <-. injection H2 as <-. rewrite E1, E2 in E. discriminate E.
  Qed.
  (** no pointer type is the type of pointers to pointers to itself *)
  Lemma pointer_never : forall t : type, t <> Null -> (forall n, t <> Class n) -> to_pointer t (Pointer t) = false.
  Proof.
    intros t N C. destruct (to_pointer t (Pointer t)) eqn:E; [| reflexivity]. exfalso. apply to_pointer_iff in E.
    destruct E as [E | [E | [(E & _) | [(m & n & _ & E & _) | (n & E & _)]]]]; try discriminate E.
    - exact (N E).
    - apply (f_equal depth) in E. cbn in E. lia.
    - exact (C n E).
  Qed.
  Lemma dereference_pointers : forall (t I2 : type) (x1 x2 : X), t <> Null -> (forall n, t <> Class n) ->
    dereference elem operator derived become (Pointer t) I2 x1 x2 = None /\ dereference elem operator derived become I2 (Pointer t) x1 x2 = None.
  Proof.
    intros t I2 x1 x2 N C. pose proof (pointer_never t N C) as P. unfold dereference. cbn [DerefModel.element]. rewrite P. cbn [andb].
    split; [destruct (element I2); reflexivity |]. destruct (element I2); [rewrite andb_false_r |]; reflexivity.
  Qed.
  Lemma dereference_numbers : forall (I1 I2 : type) (x1 x2 : X), element I1 = Some Number \/ element I2 = Some Number ->
    dereference elem operator derived become I1 I2 x1 x2 = None.
  Proof.
    intros I1 I2 x1 x2 H. unfold dereference. destruct H as [-> | ->].
    - cbn. destruct (element I2); reflexivity.
    - destruct (element I1); [cbn; rewrite andb_false_r |]; reflexivity.
  Qed.
End P.

Lemma builds_iff : forall calls : list function,
  builds calls <> DoesNotCompile /\ (builds calls = Runs <-> ~ In DistanceTo calls).
Proof.
  intros calls. unfold builds.
  assert (D : forallb (fun f => existsb (function_eqb f) declared) calls = true).
  { apply forallb_forall. intros f _. destruct f; reflexivity. }
  rewrite D. split; [destruct (forallb (fun f => existsb (function_eqb f) defined) calls); intros H; discriminate H |].
  destruct (forallb (fun f => existsb (function_eqb f) defined) calls) eqn:E; split.
  - intros _ I. rewrite forallb_forall in E. specialize (E DistanceTo I). discriminate E.
  - reflexivity.
  - discriminate.
  - intros H. exfalso. assert (F : forallb (fun f => existsb (function_eqb f) defined) calls = true); [| congruence].
    apply forallb_forall. intros f I. destruct f; try reflexivity. contradiction.
Qed.
