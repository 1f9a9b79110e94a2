(** LazyThreadModel.v -- Lazy::operator() const (include/lazy.hpp:47) called by several threads.  Definitions only.

    - The call is split into its accesses to shared memory; the accesses of different threads are interleaved in any order.
      [C89_steps] proves that the accesses of a call, executed without interruption, are the call of LazyModel.
    - Sequential consistency: the C++ memory model gives it to programs without data races, and data races are made visible
      ([lrace]).
    - A call of the function is one step: what it does outside is taken to be free of races and atomic.
    - The threads only call Lazy objects and read through the references they got. *)
From Verif Require Import Base HandleModel ThreadModel LazyModel.

(** a statement of a thread: call variable [d], read the object and keep the reference; read again through the reference kept, if there is one *)
Inductive top := TCall (d : nat) | TReread.

Section LazyThread.
  Context {O F E : Type} (call : F -> E -> outcome O * F * E).
  Notation lst := (lst O F E).

  (** where a thread is in lazy.hpp:47, just before the access *)
  Inductive pc :=
  | AtTest (d : nat)                       (* if (_obj == nullptr) *)
  | AtFunc (d : nat)                       (* _func() *)
  | AtMake (d : nat) (v : O)               (* _obj.reset(p): shared_ptr(p) takes the object returned ... *)
  | AtSwap (d : nat) (new : slot)          (* ... is swapped with _obj: read _obj ... *)
  | AtStore (d : nat) (new old : slot)     (* ... write it ... *)
  | AtDrop (d : nat) (old : slot)          (* ... and the former pointer is released *)
  | AtKill (d a : nat)
  | AtDeref (d : nat)                      (* *_obj *)
  | AtRead (d a : nat)                     (* the caller reads the object *)
  | AtReread (a : nat).                    (* ... and once more *)

  Record lthread := mkLT { l_pc : option pc; l_rest : list top; l_outs : list (top * lout O); l_kept : option nat }.
  (** [calls]: the calls of functions so far, by variable *)
  Record lconfig := mkLC { lshared : lst; calls : list (nat * outcome O); lthreads : list lthread }.

  Inductive next := Goto (p : pc) | Done (x : lout O) | Bad (r : ub_reason).
  Definition on_ptrs {A} (m : M (hst O) A) (s : lst) (k : A -> next) : next * lst :=
    match lift m s with
    | Ret x s' => (k x, s')
    | Exc e s' => (Done (LExc e), s')
    | Ub r => (Bad r, s)
    | Abort | Fuel => (Bad UbUninit, s)
    end.
  (** the access, where the thread goes on, and the call of a function if it was one *)
  Definition pstep (p : pc) (s : lst) : next * lst * list (nat * outcome O) :=
    match p with
    | AtTest d => (on_ptrs (get_slot d) s (fun sl => match sl with Null => Goto (AtFunc d) | _ => Goto (AtDeref d) end), [])
    | AtFunc d =>
        match call_func call d s with
        | Ret o s' => (match o with
                       | OutObj v => Goto (AtMake d v)
                       | OutNull => Goto (AtSwap d Null)
                       | OutThrow e => Done (LExc e)
                       end, s', [(d, o)])
        | _ => (Bad UbUninit, s, [])
        end
    | AtMake d v => (on_ptrs (alloc v) s (fun a => Goto (AtSwap d (Ptr a))), [])
    | AtSwap d new => (on_ptrs (get_slot d) s (fun old => Goto (AtStore d new old)), [])
    | AtStore d new old => (on_ptrs (put_slot d new) s (fun _ => Goto (AtDrop d old)), [])
    | AtDrop d old =>
        match old with
        | Ptr a => (on_ptrs (a_dec a) s (fun last : bool => if last then Goto (AtKill d a) else Goto (AtDeref d)), [])
        | _ => (Goto (AtDeref d), s, [])
        end
    | AtKill d a => (on_ptrs (a_kill a) s (fun _ => Goto (AtDeref d)), [])
    | AtDeref d =>
        (on_ptrs (get_slot d) s (fun sl => match sl with
                                           | Ptr a => Goto (AtRead d a) | Null => Bad UbNull | Dead => Bad UbDangling end), [])
    | AtRead d a => (on_ptrs (a_get a) s (fun v => Done (LObj a v)), [])
    | AtReread a => (on_ptrs (a_get a) s (fun v => Done (LObj a v)), [])
    end.
  Definition statement (p : pc) : top :=
    match p with
    | AtTest d | AtFunc d | AtMake d _ | AtSwap d _ | AtStore d _ _ | AtDrop d _ | AtKill d _ | AtDeref d | AtRead d _ => TCall d
    | AtReread _ => TReread
    end.
  (** the reference kept *)
  Definition keep (o : top) (x : lout O) (k : option nat) : option nat :=
    match o, x with TCall _, LObj a _ => Some a | _, _ => k end.

  (** one step of a thread; a finished thread stays as it is *)
  Definition ltstep (t : lthread) (s : lst) : (lthread * lst * list (nat * outcome O)) + ub_reason :=
    match l_pc t with
    | None =>
        match l_rest t with
        | [] => inl (t, s, [])
        | TCall d :: r => inl (mkLT (Some (AtTest d)) r (l_outs t) (l_kept t), s, [])
        | TReread :: r =>
            match l_kept t with
            | Some a => inl (mkLT (Some (AtReread a)) r (l_outs t) (l_kept t), s, [])
            | None => inl (mkLT None r (l_outs t ++ [(TReread, LUnit)]) None, s, [])
            end
        end
    | Some p =>
        match pstep p s with
        | (Goto p', s', l) => inl (mkLT (Some p') (l_rest t) (l_outs t) (l_kept t), s', l)
        | (Done x, s', l) =>
            inl (mkLT None (l_rest t) (l_outs t ++ [(statement p, x)]) (keep (statement p) x (l_kept t)), s', l)
        | (Bad r, _, _) => inr r
        end
    end.
  Definition lcstep (i : nat) (c : lconfig) : lconfig + ub_reason :=
    match nth_error (lthreads c) i with
    | Some t =>
        match ltstep t (lshared c) with
        | inl (t', s', l) => inl (mkLC s' (calls c ++ l) (upd i t' (lthreads c)))
        | inr r => inr r
        end
    | None => inl c
    end.
  (** an execution: the threads take steps in the order given *)
  Fixpoint lcrun (sch : list nat) (c : lconfig) : lconfig + ub_reason :=
    match sch with
    | [] => inl c
    | i :: sch' => match lcstep i c with inl c' => lcrun sch' c' | inr r => inr r end
    end.
  Definition lfork (s0 : lst) (ts : list (list top)) : lconfig := mkLC s0 [] (map (fun p => mkLT None p [] None) ts).

  (** a call without interruption; ten accesses are enough *)
  Fixpoint alone (fuel : nat) (p : pc) (s : lst) : res lst (lout O) :=
    match fuel with
    | 0 => Fuel
    | S fuel' =>
        match pstep p s with
        | (Goto p', s', _) => alone fuel' p' s'
        | (Done (LExc e), s', _) => Exc e s'
        | (Done x, s', _) => Ret x s'
        | (Bad r, _, _) => Ub r
        end
    end.

  (** ** Data races *)
  Inductive lloc := LPtr (d : nat) | LFun (d : nat) | LObject (a : nat).
  (** the memory accessed next other than atomically, and whether it is written; a call may change the function object *)
  Definition laccess (p : pc) : option (lloc * bool) :=
    match p with
    | AtTest d | AtSwap d _ | AtDeref d => Some (LPtr d, false)
    | AtStore d _ _ => Some (LPtr d, true)
    | AtFunc d => Some (LFun d, true)
    | AtRead _ a | AtReread a => Some (LObject a, false)
    | AtKill _ a => Some (LObject a, true)
    | AtMake _ _ | AtDrop _ _ => None
    end.
  Definition lnext (t : lthread) : option (lloc * bool) := match l_pc t with Some p => laccess p | None => None end.
  (** two threads are about to access the same memory, at least one of them writing *)
  Definition race_at (l : lloc) (c : lconfig) : Prop :=
    exists i j t u wi wj, i <> j /\ nth_error (lthreads c) i = Some t /\ nth_error (lthreads c) j = Some u /\
      lnext t = Some (l, wi) /\ lnext u = Some (l, wj) /\ (wi || wj = true).
  Definition lrace (c : lconfig) : Prop := exists l, race_at l c.
  Definition lfinished (t : lthread) : Prop := l_pc t = None /\ l_rest t = [].
End LazyThread.
Arguments pc : clear implicits.
Arguments lthread : clear implicits.
Arguments lconfig : clear implicits.
Arguments next : clear implicits.
