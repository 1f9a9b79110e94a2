(** LazySpec.v -- what users expect of Lazy objects: pending until the first successful evaluation, then
    the object for ever; copies copy that state. *)
From Verif Require Import Base HandleModel LazyModel.

Section Spec.
  Context {O F E : Type} (call : F -> E -> outcome O * F * E).

  (** a variable: not in scope, moved from, not evaluated, evaluated to the i-th object ever made *)
  Inductive lslot := LDead | LMoved | LPending (f : F) | LDone (i : nat).
  (** variables, the objects made so far, held references, the outside world *)
  Record spst := mkSp { slots : list lslot; objs : list O; held : nat -> option nat; world : E }.

  Definition live_slot (x : option lslot) : Prop := match x with Some LDead | None => False | _ => True end.

  (** calling variable d: the object it gives, or the exception *)
  Inductive evals : spst -> nat -> nat * O + exn -> spst -> Prop :=
  | EvDone m os hd w d i v : nth_error m d = Some (LDone i) -> nth_error os i = Some v ->
      evals (mkSp m os hd w) d (inl (i, v)) (mkSp m os hd w)
  | EvFirst m os hd w d f v f' w' : nth_error m d = Some (LPending f) -> call f w = (OutObj v, f', w') ->
      evals (mkSp m os hd w) d (inl (length os, v)) (mkSp (upd d (LDone (length os)) m) (os ++ [v]) hd w')
  | EvThrow m os hd w d f e f' w' : nth_error m d = Some (LPending f) -> call f w = (OutThrow e, f', w') ->
      evals (mkSp m os hd w) d (inr e) (mkSp (upd d (LPending f') m) os hd w').

  Inductive lsstep : spst -> lop F -> lout O -> spst -> Prop :=
  | LSNew m os hd w d f : nth_error m d = Some LDead ->
      lsstep (mkSp m os hd w) (LNew d f) LUnit (mkSp (upd d (LPending f) m) os hd w)
  | LSCopy m os hd w d k x : nth_error m d = Some LDead -> nth_error m k = Some x -> live_slot (Some x) ->
      lsstep (mkSp m os hd w) (LCopy d k) LUnit (mkSp (upd d x m) os hd w)
  | LSMove m os hd w d k x : nth_error m d = Some LDead -> nth_error m k = Some x -> live_slot (Some x) ->
      lsstep (mkSp m os hd w) (LMove d k) LUnit (mkSp (upd d x (upd k LMoved m)) os hd w)
  | LSAssign m os hd w d k x : live_slot (nth_error m d) -> nth_error m k = Some x -> live_slot (Some x) ->
      lsstep (mkSp m os hd w) (LAssign d k) LUnit (mkSp (upd d x m) os hd w)
  | LSMoveAssign m os hd w d k x : live_slot (nth_error m d) -> nth_error m k = Some x -> live_slot (Some x) ->
      lsstep (mkSp m os hd w) (LMoveAssign d k) LUnit (mkSp (upd d x (upd k LMoved m)) os hd w)
  | LSDestroy m os hd w d : live_slot (nth_error m d) ->
      lsstep (mkSp m os hd w) (LDestroy d) LUnit (mkSp (upd d LDead m) os hd w)
  | LSCall s d i v s' : evals s d (inl (i, v)) s' -> lsstep s (LCall d) (LObj i v) s'
  | LSCallThrow s d e s' : evals s d (inr e) s' -> lsstep s (LCall d) (LExc e) s'
  | LSHold s r d i v m os hd w : evals s d (inl (i, v)) (mkSp m os hd w) ->
      lsstep s (LHold r d) (LObj i v) (mkSp m os (set_var hd r (Some i)) w)
  | LSHoldThrow s r d e s' : evals s d (inr e) s' -> lsstep s (LHold r d) (LExc e) s'
  (** a held reference may be used while some Lazy still has the object *)
  | LSReadRef m os hd w r i v : hd r = Some i -> nth_error os i = Some v -> In (LDone i) m ->
      lsstep (mkSp m os hd w) (LReadRef r) (LObj i v) (mkSp m os hd w).

  Inductive lsexec : spst -> list (lop F) -> list (lout O) -> spst -> Prop :=
  | LENil m : lsexec m [] [] m
  | LECons m o x m1 p l m2 : lsstep m o x m1 -> lsexec m1 p l m2 -> lsexec m (o :: p) (x :: l) m2.
  Definition lill_formed (m : spst) (p : list (lop F)) (l : list (lout O)) : Prop :=
    exists p1 o p2 m1, p = p1 ++ o :: p2 /\ lsexec m p1 l m1 /\ forall x m2, ~ lsstep m1 o x m2.
  Definition spinit (n : nat) (w : E) : spst := mkSp (repeat LDead n) [] (fun _ => None) w.

  (** ** One Lazy called [n] times: what it gives, and the outside state afterwards *)
  Fixpoint expected (n : nat) (f : F) (w : E) : list (lout O) :=
    match n with
    | 0 => []
    | S n' => match call f w with
              | (OutThrow e, f', w') => LExc e :: expected n' f' w'
              | (OutObj v, _, _) => repeat (LObj 0 v) n
              | (OutNull, _, _) => []
              end
    end.
  Fixpoint world_after (n : nat) (f : F) (w : E) : E :=
    match n with
    | 0 => w
    | S n' => match call f w with
              | (OutThrow _, f', w') => world_after n' f' w'
              | (_, _, w') => w'
              end
    end.
  (** the function never returns a null pointer *)
  Definition never_null : Prop := forall f w f' w', call f w <> (OutNull, f', w').

  (** operations that give variable [d] another state *)
  Definition replaces (d : nat) (o : lop F) : bool :=
    match o with
    | LNew d' _ | LCopy d' _ | LAssign d' _ | LDestroy d' => Nat.eqb d d'
    | LMove d' k | LMoveAssign d' k => Nat.eqb d d' || Nat.eqb d k
    | LCall _ | LHold _ _ | LReadRef _ => false
    end.
End Spec.
Arguments lslot : clear implicits.
Arguments spst : clear implicits.
