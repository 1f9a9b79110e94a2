(** OwnSpec.v -- what releasing an object should do.  Only the class table (bases, declared virtual destructors) and the
    syntax of programs are taken from the model. *)
From Verif Require Import Base RandomModel OwnModel.

(** [c] is derived from [a], in one or more steps *)
Inductive derived : cls -> cls -> Prop :=
| der_base : forall c b, base_of c = Some b -> derived c b
| der_step : forall c b a, base_of c = Some b -> derived b a -> derived c a.

(** the destructors that ran for an object of class [dyn]: its own and those of all its bases, once each, every one
    before those of the bases *)
Definition properly_destroyed (dyn : cls) (l : list cls) : Prop :=
  NoDup l /\ (forall c, In c l <-> c = dyn \/ derived dyn c) /\
  (forall i j c d, nth_error l i = Some c -> nth_error l j = Some d -> derived c d -> i < j).

(** the destructor of [c] was declared virtual, in [c] or in a base *)
Definition made_virtual (c : cls) : Prop := exists a, (a = c \/ derived c a) /\ declares_virtual a = true.
(** a pointer to [stat] may delete an object of class [dyn] *)
Definition may_delete (stat dyn : cls) : Prop := stat = dyn \/ (derived dyn stat /\ made_virtual stat).
Definition sound_owner (dyn : cls) (o : owner) : Prop :=
  match o with OwnAuto => True | OwnUnique s => may_delete s dyn | OwnShared m => may_delete m dyn end.

Section Programs.
  Context {T : Type}.
  (** the class of the object [k] after a program, if it is there *)
  Fixpoint held (k : nat) (p : list (oop T)) (now : option cls) : option cls :=
    match p with
    | [] => now
    | ONew j dyn _ _ _ :: p' => held k p' (if Nat.eqb j k then Some dyn else now)
    | ORelease j :: p' => held k p' (if Nat.eqb j k then None else now)
    | OGet _ :: p' => held k p' now
    end.
  (** objects are drawn from and released while they are there, and created by owners that may delete them *)
  Definition careful (p : list (oop T)) : Prop :=
    (forall i k dyn o a b, nth_error p i = Some (ONew k dyn o a b) -> sound_owner dyn o) /\
    (forall i k, nth_error p i = Some (OGet k) \/ nth_error p i = Some (ORelease k) -> held k (firstn i p) None <> None).
  (** the same program with variables that are never released *)
  Fixpoint as_variables (p : list (oop T)) : list (rop T) :=
    match p with
    | [] => []
    | ONew k _ _ a b :: p' => RNew k a b :: as_variables p'
    | OGet k :: p' => RGet k :: as_variables p'
    | ORelease _ :: p' => as_variables p'
    end.
  (** the values drawn *)
  Fixpoint drawn (l : list (oout T)) : list T :=
    match l with [] => [] | OVal v :: l' => v :: drawn l' | _ :: l' => drawn l' end.
  Fixpoint drawn_by_variables (l : list (option T)) : list T :=
    match l with [] => [] | Some v :: l' => v :: drawn_by_variables l' | None :: l' => drawn_by_variables l' end.
  Definition mentions (k : nat) (o : oop T) : Prop :=
    match o with ONew j _ _ _ _ | ORelease j => j = k | OGet _ => False end.
End Programs.
