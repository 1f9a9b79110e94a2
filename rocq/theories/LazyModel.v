(** LazyModel.v -- model of include/lazy.hpp:44-52 over the shared_ptr model of HandleModel.v.
    Definitions only.

    A Lazy object is a function object and a shared_ptr ([vars] of the pointer part, [Null] before
    evaluation).  The function object has a state of its own in [F] (copied with it) and acts on an arbitrary outside
    state in [E]; a call returns a pointer to a new object, returns a null pointer, or throws
    (std::shared_ptr::reset throwing bad_alloc counts as throwing).
    Simplified: the function does not call the Lazy object it belongs to. *)
From Verif Require Import Base HandleModel.
Local Open Scope monad_scope.

Inductive outcome (O : Type) := OutObj (v : O) | OutNull | OutThrow (e : exn).
Arguments OutObj {O} v.
Arguments OutNull {O}.
Arguments OutThrow {O} e.

Section Lazy.
  Context {O F E : Type} (call : F -> E -> outcome O * F * E).

  (** [funs d] is [None] if variable d is not in scope or has been moved from (its function object is then in
      an unspecified state) *)
  Record lst := mkLst { ptrs : hst O; funs : list (option F); env : E }.
  Definition linit (n : nat) (e : E) : lst := mkLst (hinit n []) (repeat None n) e.

  Definition lift {A} (m : M (hst O) A) : M lst A := fun s =>
    match m (ptrs s) with
    | Ret a p => Ret a (mkLst p (funs s) (env s))
    | Exc e p => Exc e (mkLst p (funs s) (env s))
    | Ub r => Ub r
    | Abort => Abort
    | Fuel => Fuel
    end.
  Definition get_fun (d : nat) : M lst (option F) := fun s =>
    Ret (match nth_error (funs s) d with Some f => f | None => None end) s.
  Definition put_fun (d : nat) (f : option F) : M lst unit := fun s =>
    Ret tt (mkLst (ptrs s) (upd d f (funs s)) (env s)).

  (** 47: if ( _obj == nullptr ) _obj.reset( _func() ); return *_obj; *)
  Definition call_func (d : nat) : M lst (outcome O) := fun s =>
    match nth_error (funs s) d with
    | Some (Some f) =>
        let '(o, f', e') := call f (env s) in
        Ret o (mkLst (ptrs s) (upd d (Some f') (funs s)) e')
    | _ => Ub UbUninit
    end.
  Definition reset (d : nat) (v : O) : M lst unit :=
    a <- lift (alloc v) ;; old <- lift (get_slot d) ;; lift (put_slot d (Ptr a)) ;;; lift (release old).
  Definition reset_null (d : nat) : M lst unit :=
    old <- lift (get_slot d) ;; lift (put_slot d Null) ;;; lift (release old).
  Definition lazy_call (d : nat) : M lst (nat * O) :=
    sl <- lift (get_slot d) ;;
    (match sl with
     | Null =>
         o <- call_func d ;;
         match o with
         | OutObj v => reset d v
         | OutNull => reset_null d
         | OutThrow e => throw e
         end
     | _ => ret tt
     end) ;;;
    ac <- lift (const_access d) ;; ret (fst ac, c_val (snd ac)).

  (** 48 and the implicit copy, move, assignment and destruction of both members *)
  Definition lazy_new (d : nat) (f : F) : M lst unit := lift (h_null d) ;;; put_fun d (Some f).
  Definition lazy_copy (d k : nat) : M lst unit := lift (h_copy d k) ;;; f <- get_fun k ;; put_fun d f.
  Definition lazy_move (d k : nat) : M lst unit :=
    lift (h_move d k) ;;; f <- get_fun k ;; put_fun k None ;;; put_fun d f.
  Definition lazy_assign (d k : nat) : M lst unit := lift (h_assign d k) ;;; f <- get_fun k ;; put_fun d f.
  Definition lazy_move_assign (d k : nat) : M lst unit :=
    lift (h_move_assign d k) ;;; f <- get_fun k ;; put_fun k None ;;; put_fun d f.
  Definition lazy_destroy (d : nat) : M lst unit := lift (h_destroy d) ;;; put_fun d None.

  Inductive lop :=
  | LNew (d : nat) (f : F) | LCopy (d k : nat) | LMove (d k : nat) | LAssign (d k : nat) | LMoveAssign (d k : nat)
  | LDestroy (d : nat)
  | LCall (d : nat)                  (* call and read the object through the result *)
  | LHold (r d : nat)                (* r = d(), keeping the reference *)
  | LReadRef (r : nat).
  (** the identity and value of the object *)
  Inductive lout := LUnit | LObj (a : nat) (v : O) | LExc (e : exn).

  Definition lstep (o : lop) : M lst lout :=
    match o with
    | LNew d f => lazy_new d f ;;; ret LUnit
    | LCopy d k => lazy_copy d k ;;; ret LUnit
    | LMove d k => lazy_move d k ;;; ret LUnit
    | LAssign d k => lazy_assign d k ;;; ret LUnit
    | LMoveAssign d k => lazy_move_assign d k ;;; ret LUnit
    | LDestroy d => lazy_destroy d ;;; ret LUnit
    | LCall d => ao <- lazy_call d ;; ret (LObj (fst ao) (snd ao))
    | LHold r d => ao <- lazy_call d ;; lift (set_ref r (fst ao)) ;;; ret (LObj (fst ao) (snd ao))
    | LReadRef r => a <- lift (get_ref r) ;; c <- lift (live_cell a) ;; ret (LObj a (c_val c))
    end.
  (** programs, every statement in a try block *)
  Fixpoint lrun (p : list lop) (s : lst) : list lout * (lst + ub_reason) :=
    match p with
    | [] => ([], inl s)
    | o :: p' =>
        match lstep o s with
        | Ret x s' => let (l, f) := lrun p' s' in (x :: l, f)
        | Exc e s' => let (l, f) := lrun p' s' in (LExc e :: l, f)
        | Ub r => ([], inr r)
        | Abort | Fuel => ([], inr UbUninit)
        end
    end.
End Lazy.
Arguments lst : clear implicits.
Arguments lop : clear implicits.
Arguments lout : clear implicits.
