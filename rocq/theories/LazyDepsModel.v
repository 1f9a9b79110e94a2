(** LazyDepsModel.v -- Lazy objects (include/lazy.hpp:44-52) whose functions call Lazy objects, over LazyModel.v.  Definitions only.

    - The function of a Lazy is a piece of [code]: it may call Lazy objects (its own included) and look at the value or catch the exception,
      act on the outside state, and ends by returning an object, a null pointer, or throwing.
    - The recursion of operator() through the functions has no bound in C++ but the stack: here it has fuel.
    - The variables are constructed once, from their functions, and are neither assigned nor destroyed. *)
From Verif Require Import Base HandleModel LazyModel.
Local Open Scope monad_scope.

Inductive code (O E : Type) :=
| Return (v : O) | ReturnNull | Throw (e : exn)
| Ask (k : nat) (next : O + exn -> code O E)                       (* try { lazies[k]() } *)
| Outside (g : E -> E) (next : E -> code O E).                     (* act on the outside state, having seen it *)
Arguments Return {O E}.
Arguments ReturnNull {O E}.
Arguments Throw {O E}.
Arguments Ask {O E}.
Arguments Outside {O E}.

Section Deps.
  Context {O E : Type}.
  Notation lst := (lst O (code O E) E).
  (** [r_log]: how the functions called have ended so far, by variable *)
  Record rst := mkR { r_lst : lst; r_log : list (nat * outcome O) }.
  Definition rlift {A} (m : M lst A) : M rst A := fun s =>
    match m (r_lst s) with
    | Ret a l => Ret a (mkR l (r_log s))
    | Exc e l => Exc e (mkR l (r_log s))
    | Ub r => Ub r
    | Abort => Abort
    | Fuel => Fuel
    end.
  Definition act_outside (g : E -> E) : M lst E := fun s => Ret (env s) (mkLst (ptrs s) (funs s) (g (env s))).
  Definition record_end (d : nat) (o : outcome O) : M rst unit := fun s => Ret tt (mkR (r_lst s) (r_log s ++ [(d, o)])).
  Definition the_func (d : nat) : M lst (code O E) := fun s =>
    match nth_error (funs s) d with Some (Some f) => Ret f s | _ => Ub UbUninit end.

  (** a call of a function; [callee k] calls variable k *)
  Fixpoint rcode (callee : nat -> M rst (nat * O)) (c : code O E) : M rst (outcome O) :=
    match c with
    | Return v => ret (OutObj v)
    | ReturnNull => ret OutNull
    | Throw e => ret (OutThrow e)
    | Ask k next => fun s =>
        match callee k s with
        | Ret ao s' => rcode callee (next (inl (snd ao))) s'
        | Exc e s' => rcode callee (next (inr e)) s'
        | Ub r => Ub r
        | Abort => Abort
        | Fuel => Fuel
        end
    | Outside g next => w <- rlift (act_outside g) ;; rcode callee (next w)
    end.
  (** lazy.hpp:47: if ( _obj == nullptr ) _obj.reset( _func() ); return *_obj; *)
  Fixpoint rcall (fuel d : nat) : M rst (nat * O) :=
    match fuel with
    | 0 => fun _ => Fuel
    | S fuel' =>
        sl <- rlift (lift (get_slot d)) ;;
        (match sl with
         | Null =>
             f <- rlift (the_func d) ;; o <- rcode (rcall fuel') f ;; record_end d o ;;;
             match o with
             | OutObj v => rlift (reset d v)
             | OutNull => rlift (reset_null d)
             | OutThrow e => throw e
             end
         | _ => ret tt
         end) ;;;
        ac <- rlift (lift (const_access d)) ;; ret (fst ac, c_val (snd ac))
    end.

  (** lazy.hpp:48: variables 0, ..., n-1, constructed from their functions *)
  Definition rstart (body : nat -> code O E) (n : nat) (w : E) : rst :=
    mkR (mkLst (mkHst (repeat Null n) [] [] (fun _ => None)) (map (fun d => Some (body d)) (seq 0 n)) w) [].
  (** calls from outside, each in a try block; [inr None]: out of fuel *)
  Fixpoint rrun (fuel : nat) (ds : list nat) (s : rst) : list (lout O) * (rst + option ub_reason) :=
    match ds with
    | [] => ([], inl s)
    | d :: ds' =>
        match rcall fuel d s with
        | Ret ao s' => let (l, f) := rrun fuel ds' s' in (LObj (fst ao) (snd ao) :: l, f)
        | Exc e s' => let (l, f) := rrun fuel ds' s' in (LExc e :: l, f)
        | Ub r => ([], inr (Some r))
        | Abort => ([], inr (Some UbUninit))
        | Fuel => ([], inr None)
        end
    end.
End Deps.
Arguments rst : clear implicits.
