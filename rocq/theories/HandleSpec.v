(** HandleSpec.v -- handles as independent variables holding values. *)
From Verif Require Import Base HandleModel.

Section Spec.
  (** which values provide which type to dynamic_handle_cast, respectively to extraction *)
  Context {V Ty : Type} (provides provides_w : V -> Ty -> Prop).

  (** a variable: not in scope, moved-from or null, holding a value *)
  Inductive vslot := VDead | VNull | VVal (v : V).
  (** the variables and the allocations still to fail *)
  Record vst := mkVst { store : list vslot; fails : list bool }.

  Definition in_scope (x : option vslot) : Prop := match x with Some VNull | Some (VVal _) => True | _ => False end.
  Definition free (x : option vslot) : Prop := x = Some VDead.

  (** the effect of a statement that is well formed (its variables are in scope, respectively not yet
      in scope, and no null handle is accessed) *)
  Inductive sstep : vst -> hop V Ty -> out V -> vst -> Prop :=
  | SNew m sc d v : free (nth_error m d) -> hd false sc = false ->
      sstep (mkVst m sc) (OpNew d v) ODone (mkVst (upd d (VVal v) m) (tl sc))
  | SNewFail m sc d v : free (nth_error m d) ->
      sstep (mkVst m (true :: sc)) (OpNew d v) (OExc EBadAlloc) (mkVst m sc)
  | SNull m sc d : free (nth_error m d) -> sstep (mkVst m sc) (OpNull d) ODone (mkVst (upd d VNull m) sc)
  | SCopy m sc d s x : free (nth_error m d) -> nth_error m s = Some x -> in_scope (Some x) ->
      sstep (mkVst m sc) (OpCopy d s) ODone (mkVst (upd d x m) sc)
  | SMove m sc d s x : free (nth_error m d) -> nth_error m s = Some x -> in_scope (Some x) ->
      sstep (mkVst m sc) (OpMove d s) ODone (mkVst (upd d x (upd s VNull m)) sc)
  | SAssign m sc d s x : in_scope (nth_error m d) -> nth_error m s = Some x -> in_scope (Some x) ->
      sstep (mkVst m sc) (OpAssign d s) ODone (mkVst (upd d x m) sc)
  | SMoveAssign m sc d s x : in_scope (nth_error m d) -> nth_error m s = Some x -> in_scope (Some x) ->
      sstep (mkVst m sc) (OpMoveAssign d s) ODone (mkVst (upd d x (upd s VNull m)) sc)
  | SDestroy m sc d : in_scope (nth_error m d) -> sstep (mkVst m sc) (OpDestroy d) ODone (mkVst (upd d VDead m) sc)
  | SRead m sc h v : nth_error m h = Some (VVal v) -> sstep (mkVst m sc) (OpRead h) (OVal v) (mkVst m sc)
  | SWrite m sc h v f : nth_error m h = Some (VVal v) -> hd false sc = false ->
      sstep (mkVst m sc) (OpWrite h f) ODone (mkVst (upd h (VVal (f v)) m) (tl sc))
  | SWriteFail m sc h v f : nth_error m h = Some (VVal v) ->
      sstep (mkVst m (true :: sc)) (OpWrite h f) (OExc EBadAlloc) (mkVst m sc)
  | SManaged m sc d s v : free (nth_error m d) -> nth_error m s = Some (VVal v) -> hd false sc = false ->
      sstep (mkVst m sc) (OpManaged d s) ODone (mkVst (upd d (VVal v) m) (tl sc))
  | SManagedFail m sc d s v : free (nth_error m d) -> nth_error m s = Some (VVal v) ->
      sstep (mkVst m (true :: sc)) (OpManaged d s) (OExc EBadAlloc) (mkVst m sc)
  | SCast m sc d s v t : free (nth_error m d) -> nth_error m s = Some (VVal v) -> provides v t ->
      sstep (mkVst m sc) (OpCast d s t) ODone (mkVst (upd d (VVal v) m) sc)
  | SCastFail m sc d s v t : free (nth_error m d) -> nth_error m s = Some (VVal v) -> ~ provides v t ->
      sstep (mkVst m sc) (OpCast d s t) (OExc EBadCast) (mkVst m sc)
  | SPtr m sc d s v t : free (nth_error m d) -> nth_error m s = Some (VVal v) -> provides_w v t ->
      sstep (mkVst m sc) (OpPtrExtract d s t) ODone (mkVst (upd d (VVal v) m) sc)
  | SPtrNone m sc d s v t : free (nth_error m d) -> nth_error m s = Some (VVal v) -> ~ provides_w v t ->
      sstep (mkVst m sc) (OpPtrExtract d s t) ODone (mkVst (upd d VNull m) sc)
  | SPtrNull m sc d s t : free (nth_error m d) -> nth_error m s = Some VNull ->
      sstep (mkVst m sc) (OpPtrExtract d s t) ODone (mkVst (upd d VNull m) sc).

  Inductive sexec : vst -> list (hop V Ty) -> list (out V) -> vst -> Prop :=
  | ENil m : sexec m [] [] m
  | ECons m o x m1 p l m2 : sstep m o x m1 -> sexec m1 p l m2 -> sexec m (o :: p) (x :: l) m2.

  (** the program executes a statement that is not well formed, after producing outputs [l] *)
  Definition ill_formed (m : vst) (p : list (hop V Ty)) (l : list (out V)) : Prop :=
    exists p1 o p2 m1, p = p1 ++ o :: p2 /\ sexec m p1 l m1 /\ forall x m2, ~ sstep m1 o x m2.
  Definition vinit (n : nat) (sc : list bool) : vst := mkVst (repeat VDead n) sc.
End Spec.
Arguments vslot : clear implicits.
Arguments vst : clear implicits.

(** ** Which types an object provides *)
Section Types.
  Context {V Ty : Type} (dyn : V -> Ty) (subobjs : Ty -> Ty -> list nat) (wrapper : Ty -> Ty).
  (** exactly one base subobject of type T *)
  Definition unique_base (v : V) (t : Ty) : Prop := exists o, subobjs (dyn v) t = [o].
  (** or exactly one Wrapper of T *)
  Definition unique_base_or_wrapper (v : V) (t : Ty) : Prop := unique_base v t \/ unique_base v (wrapper t).
End Types.

(** ** Statements that leave handle [h] and reference [r] alone *)
Section Quiet.
  Context {V Ty : Type} (h r : nat).
  (** [h] is only read or copied from, [r] is not bound again *)
  Definition keeps (o : op V Ty) : Prop :=
    match o with
    | H (OpNew d _) | H (OpNull d) | H (OpCopy d _) | H (OpDestroy d) | H (OpCast d _ _) | H (OpPtrExtract d _ _)
    | H (OpAssign d _) => d <> h
    | H (OpMove d s) | H (OpMoveAssign d s) | H (OpManaged d s) => d <> h /\ s <> h
    | H (OpRead _) => True
    | H (OpWrite k _) => k <> h
    | R (RefGet q k) => q <> r /\ k <> h
    | R (RefConst q _) | R (RefExtract q _ _) => q <> r
    | R (RefRead _) | R (RefWrite _ _) => True
    end.
  (** moreover [h] is not copied from *)
  Definition keeps_alone (o : op V Ty) : Prop :=
    keeps o /\
    match o with
    | H (OpCopy _ s) | H (OpAssign _ s) | H (OpCast _ s _) | H (OpPtrExtract _ s _) => s <> h
    | _ => True
    end.
End Quiet.

(** ** Observations *)
Section Observe.
  Context {V Ty : Type} (clone : V -> V) (dyn : V -> Ty)
          (subobjs : Ty -> Ty -> list nat) (wrapper : Ty -> Ty) (inner : Ty -> nat).
  (** reachable by a program *)
  Definition reachable (s : hst V) : Prop :=
    exists n sc p l, run clone dyn subobjs wrapper inner p (hinit n sc) = (l, inl s).
  (** what a read of handle [k] gives *)
  Definition reads (s : hst V) (k : nat) : option (out V) :=
    match step clone dyn subobjs wrapper inner (H (OpRead k)) s with Ret x _ => Some x | _ => None end.
  (** every object that has not been destroyed is owned by a handle *)
  Definition no_leak (s : hst V) : Prop :=
    forall a c, nth_error (heap s) a = Some c -> c_live c = true -> exists h, nth_error (vars s) h = Some (Ptr a).
End Observe.
