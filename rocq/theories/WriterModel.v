(** WriterModel.v -- model of include/writable.hpp: Writer and WritableTemporary (64-98), and the constraint
    IsWritable of the templated operator<< (56-62).  Definitions only.

    - A Writer<T> is a Handle<WriterInterface<T>>: its variables and objects are those of HandleModel.
      WriterInterface has no clone(), _copy() or _move(): the non-const accesses of Handle and its construction
      from an interface reference do not compile for it and are left out.
    - A writer object has a value in [V]; [wr v x] is the text its _write produces for an object of value x.
      Writing neither fails nor throws.
    - The objects written are named by numbers; [None]: the object does not exist (yet, or any more). *)
From Verif Require Import Base StreamModel HandleModel.
Local Open Scope monad_scope.

Section Writer.
  Context {V T : Type} (wr : V -> T -> text).

  (** the writers and (in [refs]) the members _w of the temporaries; the objects; the members _t of the
      temporaries; the text written *)
  Record wst := mkWst { w_h : hst V; w_objs : nat -> option T; w_args : nat -> option nat; w_out : text }.
  Definition winit (n : nat) (sc : list bool) : wst := mkWst (hinit n sc) (fun _ => None) (fun _ => None) [].

  Definition lift {A} (m : M (hst V) A) : M wst A := fun s =>
    match m (w_h s) with
    | Ret a h => Ret a (mkWst h (w_objs s) (w_args s) (w_out s))
    | Exc e h => Exc e (mkWst h (w_objs s) (w_args s) (w_out s))
    | Ub r => Ub r | Abort => Abort | Fuel => Fuel
    end.
  (** an object that exists *)
  Definition get_obj (t : nat) : M wst T := fun s =>
    match w_objs s t with Some x => Ret x s | None => Ub UbDangling end.
  Definition set_obj (t : nat) (x : option T) : M wst unit := fun s =>
    Ret tt (mkWst (w_h s) (set_var (w_objs s) t x) (w_args s) (w_out s)).
  Definition set_arg (k t : nat) : M wst unit := fun s =>
    Ret tt (mkWst (w_h s) (w_objs s) (set_var (w_args s) k (Some t)) (w_out s)).
  Definition get_arg (k : nat) : M wst nat := fun s =>
    match w_args s k with Some t => Ret t s | None => Ub UbUninit end.
  Definition emit (c : text) : M wst unit := fun s => Ret tt (mkWst (w_h s) (w_objs s) (w_args s) (w_out s ++ c)).

  (** 97-98 Writer::operator(), 89: the temporary refers to the writer object and to the argument *)
  Definition w_call (h t : nat) : M wst nat :=
    get_obj t ;;; ac <- lift (const_access h) ;; ret (fst ac).
  (** 92 operator<< on the temporary with members [a] and [t] *)
  Definition w_write (a t : nat) : M wst unit :=
    c <- lift (live_cell a) ;; x <- get_obj t ;; emit (wr (c_val c) x).

  Inductive wop :=
  | WNew (d : nat) (v : V) | WNull (d : nat)                                 (* Writer d(...), 79-80 *)
  | WCopy (d s : nat) | WMove (d s : nat) | WAssign (d s : nat) | WMoveAssign (d s : nat) | WDestroy (d : nat)
  | WObj (t : nat) (x : option T)                                            (* object t is created, changed, destroyed *)
  | WBind (k h t : nat)                                                      (* auto k = h(t); *)
  | WPrint (k : nat)                                                         (* os << k; *)
  | WNow (h t : nat).                                                        (* os << h(t); *)
  Definition wstep (o : wop) : M wst unit :=
    match o with
    | WNew d v => lift (h_new d v)
    | WNull d => lift (h_null d)
    | WCopy d s => lift (h_copy d s)
    | WMove d s => lift (h_move d s)
    | WAssign d s => lift (h_assign d s)
    | WMoveAssign d s => lift (h_move_assign d s)
    | WDestroy d => lift (h_destroy d)
    | WObj t x => set_obj t x
    | WBind k h t => a <- w_call h t ;; lift (set_ref k a) ;;; set_arg k t
    | WPrint k => a <- lift (get_ref k) ;; t <- get_arg k ;; w_write a t
    | WNow h t => a <- w_call h t ;; w_write a t
    end.
  (** a program: every statement in a try block *)
  Fixpoint wrun (p : list wop) (s : wst) : wst + ub_reason :=
    match p with
    | [] => inl s
    | o :: p' =>
        match wstep o s with
        | Ret _ s' | Exc _ s' => wrun p' s'
        | Ub r => inr r
        | Abort | Fuel => inr UbUninit
        end
    end.
End Writer.
Arguments wop : clear implicits.
Arguments wst : clear implicits.

(** ** The constraint of the templated operator<< *)
(** how a member function takes its stream *)
Inductive param := ByLvalueRef      (* ostream& *)
                 | ByConstRef       (* const ostream& *)
                 | ByRvalueRef      (* ostream&& *)
                 | ByForwarding.    (* template<class OS> OS&& *)
(** the member _write of a class: accessible, a const function, and its parameter *)
Record writer_fn := mkWf { wf_public : bool; wf_const : bool; wf_param : param }.
(** binding the parameter to an argument of type ostream; C++ [dcl.init.ref] *)
Definition binds (p : param) (lvalue : bool) : bool :=
  match p with ByLvalueRef => lvalue | ByConstRef => true | ByRvalueRef => negb lvalue | ByForwarding => true end.
(** the call x._write(os) is well formed, for [x] const or not and [os] an lvalue or not *)
Definition call_ok (f : option writer_fn) (const_object lvalue_stream : bool) : bool :=
  match f with
  | None => false
  | Some f => wf_public f && (wf_const f || negb const_object) && binds (wf_param f) lvalue_stream
  end.
(** 56-58: decltype(declval<T>()._write(declval<ostream>())); declval<T>() is a non-const xvalue, declval<ostream>()
    an xvalue of type ostream *)
Definition has_write (f : option writer_fn) : bool := call_ok f false false.
(** 60-62: what becomes of os << t by the templated operator: it does not take part; it is chosen and compiles; it is
    chosen and its body does not compile *)
Inductive viability := NotViable | Writes | HardError.
Definition template_insert (f : option writer_fn) : viability :=
  if has_write f then if call_ok f true true then Writes else HardError else NotViable.
