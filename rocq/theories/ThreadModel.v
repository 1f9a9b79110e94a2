(** ThreadModel.v -- Handle (include/handle.hpp:62-180) used by several threads.  Definitions only.

    - Every statement of HandleModel is split into its actions on shared memory; the actions of different
      threads are interleaved in any order.  [C83_actions] proves that the actions of a statement, executed
      without interruption, are that statement of HandleModel.
    - Sequential consistency: the C++ memory model gives it to programs without data races, and data races are made visible
      ([race]).  Use counts are atomic, as std::shared_ptr's are; everything else is not.
    - [fork s0 ts]: the threads are started in state [s0]; each has its own schedule of failing allocations. *)
From Verif Require Import Base HandleModel.

Section Thread.
  Context {V Ty : Type} (clone : V -> V) (dyn : V -> Ty)
          (subobjs : Ty -> Ty -> list nat) (wrapper : Ty -> Ty) (inner : Ty -> nat).
  Notation hst := (hst V).
  Notation hop := (hop V Ty).
  Notation out := (out V).

  (** ** Actions *)
  Inductive act : Type -> Type :=
  | ALoad (h : nat) : act slot                    (* read a handle's pointer *)
  | AFresh (d : nat) : act unit                   (* begin to construct a handle *)
  | AStore (h : nat) (sl : slot) : act unit       (* write a handle's pointer *)
  | AInc (a : nat) : act unit                     (* count the object's owners up, atomically *)
  | ADec (a : nat) : act bool                     (* ... down; was this the last one? *)
  | AKill (a : nat) : act unit                    (* destroy and deallocate the object *)
  | AAlloc (v : V) : act nat                      (* new object, with one owner *)
  | AGet (a : nat) : act V                        (* read the object: its value, its dynamic type *)
  | ASet (a : nat) (f : V -> V) : act unit.       (* modify the object *)

  (** only an object that has an owner can get another one *)
  Definition a_inc (a : nat) : M hst unit := fun s =>
    match nth_error (heap s) a with
    | Some c => if c_live c && (0 <? c_cnt c)%nat
                then Ret tt (mkHst (vars s) (upd a (mkCell (c_val c) (c_cnt c + 1) true) (heap s)) (sched s) (refs s))
                else Ub UbDangling
    | None => Ub UbDangling
    end.
  Definition a_dec (a : nat) : M hst bool := fun s =>
    match nth_error (heap s) a with
    | Some c =>
        if c_live c then
          match c_cnt c with
          | 0 => Ub UbDoubleFree
          | S n => Ret (Nat.eqb n 0) (mkHst (vars s) (upd a (mkCell (c_val c) n true) (heap s)) (sched s) (refs s))
          end
        else Ub UbDangling
    | None => Ub UbDangling
    end.
  Definition a_kill (a : nat) : M hst unit := fun s =>
    match nth_error (heap s) a with
    | Some c => if c_live c then Ret tt (mkHst (vars s) (upd a (mkCell (c_val c) (c_cnt c) false) (heap s)) (sched s) (refs s))
                else Ub UbDoubleFree
    | None => Ub UbDangling
    end.
  Definition a_get (a : nat) : M hst V := fun s =>
    match live_cell a s with Ret c s' => Ret (c_val c) s' | Exc e s' => Exc e s' | Ub r => Ub r | Abort => Abort | Fuel => Fuel end.
  Definition aexec {B} (a : act B) : M hst B :=
    match a with
    | ALoad h => get_slot h
    | AFresh d => fresh_slot d
    | AStore h sl => put_slot h sl
    | AInc a => a_inc a
    | ADec a => a_dec a
    | AKill a => a_kill a
    | AAlloc v => alloc v
    | AGet a => a_get a
    | ASet a f => write a f
    end.

  (** ** Statements as actions.  An exception leaves the statement: no destructor with an effect is pending where one is
      thrown. *)
  Inductive cmd (A : Type) : Type :=
  | CRet (x : A) | CExc (e : exn) | CUb (r : ub_reason)
  | CAct {B : Type} (a : act B) (k : B -> cmd A).
  Arguments CRet {A}. Arguments CExc {A}. Arguments CUb {A}. Arguments CAct {A B}.
  Fixpoint cbind {A B} (c : cmd A) (k : A -> cmd B) : cmd B :=
    match c with
    | CRet x => k x | CExc e => CExc e | CUb r => CUb r
    | CAct a k' => CAct a (fun x => cbind (k' x) k)
    end.
  Definition do {B} (a : act B) : cmd B := CAct a CRet.
  Local Notation "x <~ m ;; k" := (cbind m (fun x => k)) (at level 100, m at next level, right associativity).
  Local Notation "m ~> k" := (cbind m (fun _ => k)) (at level 100, right associativity).

  Definition c_acquire (sl : slot) : cmd unit := match sl with Ptr a => do (AInc a) | _ => CRet tt end.
  Definition c_release (sl : slot) : cmd unit :=
    match sl with Ptr a => last <~ do (ADec a) ;; if last : bool then do (AKill a) else CRet tt | _ => CRet tt end.
  (** the address of the object of a handle *)
  Definition c_const_access (h : nat) : cmd nat :=
    sl <~ do (ALoad h) ;; match sl with Ptr a => CRet a | Null => CUb UbNull | Dead => CUb UbDangling end.
  (** handle.hpp:69-75 *)
  Definition c_new (d : nat) (v : V) : cmd unit := do (AFresh d) ~> b <~ do (AAlloc v) ;; do (AStore d (Ptr b)).
  Definition c_null (d : nat) : cmd unit := do (AFresh d) ~> do (AStore d Null).
  (** 78-82 *)
  Definition c_copy (d s : nat) : cmd unit := do (AFresh d) ~> sl <~ do (ALoad s) ;; c_acquire sl ~> do (AStore d sl).
  Definition c_move (d s : nat) : cmd unit := do (AFresh d) ~> sl <~ do (ALoad s) ;; do (AStore s Null) ~> do (AStore d sl).
  Definition c_assign (d s : nat) : cmd unit :=
    sl <~ do (ALoad s) ;; c_acquire sl ~> old <~ do (ALoad d) ;; do (AStore d sl) ~> c_release old.
  Definition c_move_assign (d s : nat) : cmd unit :=
    sl <~ do (ALoad s) ;; do (AStore s Null) ~> old <~ do (ALoad d) ;; do (AStore d sl) ~> c_release old.
  (** 68 *)
  Definition c_destroy (d : nat) : cmd unit := sl <~ do (ALoad d) ;; do (AStore d Dead) ~> c_release sl.
  (** 108-111 *)
  Definition c_make_unique (h : nat) : cmd unit :=
    a <~ c_const_access h ;; v <~ do (AGet a) ;; b <~ do (AAlloc (clone v)) ;;
    old <~ do (ALoad h) ;; do (AStore h (Ptr b)) ~> c_release old.
  Definition c_access (h : nat) : cmd nat := c_make_unique h ~> c_const_access h.
  (** 106, 70 *)
  Definition c_managed (d s : nat) : cmd unit := do (AFresh d) ~> c_make_unique s ~> c_copy d s.
  (** 129-143 *)
  Definition c_cast (d s : nat) (t : Ty) : cmd unit :=
    do (AFresh d) ~> sl <~ do (ALoad s) ;;
    match sl with
    | Ptr a => v <~ do (AGet a) ;; match dynamic_cast subobjs (dyn v) t with Some _ => c_copy d s | None => CExc EBadCast end
    | _ => CUb UbNull
    end.
  (** 173-180 *)
  Definition c_pointer_extract (d s : nat) (t : Ty) : cmd unit :=
    do (AFresh d) ~> sl <~ do (ALoad s) ;;
    match sl with
    | Ptr a => v <~ do (AGet a) ;;
        match extract_from subobjs wrapper inner (dyn v) t with Some _ => c_copy d s | None => do (AStore d Null) end
    | _ => do (AStore d Null)
    end.
  Definition c_hop (o : hop) : cmd out :=
    match o with
    | OpNew d v => c_new d v ~> CRet ODone
    | OpNull d => c_null d ~> CRet ODone
    | OpCopy d s => c_copy d s ~> CRet ODone
    | OpMove d s => c_move d s ~> CRet ODone
    | OpAssign d s => c_assign d s ~> CRet ODone
    | OpMoveAssign d s => c_move_assign d s ~> CRet ODone
    | OpDestroy d => c_destroy d ~> CRet ODone
    | OpRead h => a <~ c_const_access h ;; v <~ do (AGet a) ;; CRet (OVal v)
    | OpWrite h f => a <~ c_access h ;; do (ASet a f) ~> CRet ODone
    | OpManaged d s => c_managed d s ~> CRet ODone
    | OpCast d s t => c_cast d s t ~> CRet ODone
    | OpPtrExtract d s t => c_pointer_extract d s t ~> CRet ODone
    end.

  (** the actions without interruption *)
  Fixpoint cexec {A} (c : cmd A) : M hst A :=
    match c with
    | CRet x => ret x | CExc e => throw e | CUb r => undefined r
    | CAct a k => bind (aexec a) (fun x => cexec (k x))
    end.

  (** ** Threads *)
  (** the statement being executed, the statements to come, the outputs so far, the schedule of failures *)
  Record thread := mkT { t_now : option (cmd out); t_rest : list hop; t_outs : list out; t_sc : list bool }.
  Definition with_sched (s : hst) (sc : list bool) : hst := mkHst (vars s) (heap s) sc (refs s).
  (** one step of a thread; a finished thread stays as it is *)
  Definition tstep (t : thread) (s : hst) : (thread * hst) + ub_reason :=
    match t_now t with
    | None => match t_rest t with
              | [] => inl (t, s)
              | o :: r => inl (mkT (Some (c_hop o)) r (t_outs t) (t_sc t), s)
              end
    | Some (CRet x) => inl (mkT None (t_rest t) (t_outs t ++ [x]) (t_sc t), s)
    | Some (CExc e) => inl (mkT None (t_rest t) (t_outs t ++ [OExc e]) (t_sc t), s)
    | Some (CUb r) => inr r
    | Some (CAct a k) =>
        match aexec a (with_sched s (t_sc t)) with
        | Ret x s' => inl (mkT (Some (k x)) (t_rest t) (t_outs t) (sched s'), s')
        | Exc e s' => inl (mkT (Some (CExc e)) (t_rest t) (t_outs t) (sched s'), s')
        | Ub r => inr r
        | Abort | Fuel => inr UbUninit
        end
    end.
  Record config := mkCfg { shared : hst; threads : list thread }.
  Definition cstep (i : nat) (c : config) : config + ub_reason :=
    match nth_error (threads c) i with
    | Some t => match tstep t (shared c) with inl (t', s') => inl (mkCfg s' (upd i t' (threads c))) | inr r => inr r end
    | None => inl c
    end.
  (** an execution: the threads take steps in the order given *)
  Fixpoint crun (sch : list nat) (c : config) : config + ub_reason :=
    match sch with
    | [] => inl c
    | i :: sch' => match cstep i c with inl c' => crun sch' c' | inr r => inr r end
    end.
  Definition fork (s0 : hst) (ts : list (list hop * list bool)) : config :=
    mkCfg s0 (map (fun p => mkT None (fst p) [] (snd p)) ts).

  (** ** Data races *)
  Inductive loc := LVar (h : nat) | LObj (a : nat).
  (** the memory an action accesses other than atomically, and whether it writes *)
  Definition footprint {B} (a : act B) : option (loc * bool) :=
    match a with
    | ALoad h => Some (LVar h, false)
    | AFresh h | AStore h _ => Some (LVar h, true)
    | AGet a => Some (LObj a, false)
    | ASet a _ | AKill a => Some (LObj a, true)
    | AInc _ | ADec _ | AAlloc _ => None
    end.
  Definition next_access (t : thread) : option (loc * bool) :=
    match t_now t with Some (CAct a _) => footprint a | _ => None end.
  (** two threads are about to access the same memory, at least one of them writing *)
  Definition race (c : config) : Prop :=
    exists i j t u l wi wj, i <> j /\ nth_error (threads c) i = Some t /\ nth_error (threads c) j = Some u /\
      next_access t = Some (l, wi) /\ next_access u = Some (l, wj) /\ (wi || wj = true).
  Definition finished (t : thread) : Prop := t_now t = None /\ t_rest t = [].
End Thread.
Arguments act : clear implicits.
Arguments cmd : clear implicits.
Arguments thread : clear implicits.
Arguments config : clear implicits.
Arguments CRet {V A}.
Arguments CExc {V A}.
Arguments CUb {V A}.
Arguments CAct {V A B}.
