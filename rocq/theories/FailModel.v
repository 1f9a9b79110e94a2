(** FailModel.v -- the functions of List, Set and Map (include/container.hpp:72-300) when copies or comparisons of elements, or
    allocations, throw.  Definitions only.

    - Contract of the standard containers: a call that inserts one element, looks one up, erases by key or copies a container either
      succeeds or throws and has no effect; erasing at an iterator, moving and swapping do not throw.
    - [tick]: such a call; the schedule says whether it throws, and what.
    - The state of a loop is the content of the container it works on, and the schedule: when an exception leaves the loop, the
      content is what has been done so far.  A function that returns a new container works on a local one.
    - [d = f(...)] is a move assignment; a copy of a set is written [d = Set(s)].  Assigning a mapped value either succeeds or throws
      and leaves the value. *)
From Verif Require Import Base StdOrd SetModel MapModel.
Local Open Scope monad_scope.

Definition sched := list (option exn).
Section Tick.
  Context {L : Type}.
  Definition tick : M (L * sched) unit := fun s =>
    match snd s with
    | Some e :: sc => Exc e (fst s, sc)
    | None :: sc => Ret tt (fst s, sc)
    | [] => Ret tt s
    end.
  Definition content : M (L * sched) L := fun s => Ret (fst s) s.
  Definition change (f : L -> L) : M (L * sched) unit := fun s => Ret tt (f (fst s), snd s).
  (** a call that may throw, then takes effect *)
  Definition attempt (f : L -> L) : M (L * sched) unit := tick ;;; change f.
  Fixpoint attempts {A} (f : A -> L -> L) (l : list A) : M (L * sched) unit :=
    match l with
    | [] => ret tt
    | x :: l' => attempt (f x) ;;; attempts f l'
    end.
End Tick.

Section Sets.
  Context {T : Type} (ltb : T -> T -> bool).
  Notation cst := (list T * sched)%type.
  (** 187-188 *)
  Fixpoint fadjoin_loop (fuel : nat) (it : option T) (src : list T -> list T) : M cst unit :=
    match fuel with
    | O => fun _ => Fuel
    | S fuel' =>
        match it with
        | None => ret tt
        | Some x => attempt (fun l => sinsert ltb l x) ;;; l <- content ;; fadjoin_loop fuel' (it_next ltb x (src l)) src
        end
    end.
  Definition fadjoin (src : list T -> list T) : M cst unit :=
    l <- content ;; fadjoin_loop (S (length (src l))) (it_begin (src l)) src.
  (** 189-192 *)
  Definition fremove_elem (t : T) : M cst unit := attempt (remove_elem ltb t).
  (** 193-200, 229-236: the look-up may throw, the erasure does not *)
  Fixpoint ferase_loop (erase_if : bool) (fuel : nat) (it : option T) (src : list T -> list T) : M cst unit :=
    match fuel with
    | O => fun _ => Fuel
    | S fuel' =>
        match it with
        | None => ret tt
        | Some x =>
            tick ;;; l <- content ;;
            if Bool.eqb (SetModel.contains ltb (src l) x) erase_if
            then change (fun l => serase ltb l x) ;;; ferase_loop erase_if fuel' (it_next ltb x l) src
            else ferase_loop erase_if fuel' (it_next ltb x l) src
        end
    end.
  Definition ferase (erase_if : bool) (src : list T -> list T) : M cst unit :=
    l <- content ;; ferase_loop erase_if (S (length l)) (it_begin l) src.
  (** 201-204 *)
  Definition fremove_list (rl : list T) : M cst unit := attempts (fun x l => serase ltb l x) rl.
  (** 224-226, on the result *)
  Fixpoint fintersection_list (s1 l2 : list T) : M cst unit :=
    match l2 with
    | [] => ret tt
    | x :: l' =>
        tick ;;; (if SetModel.contains ltb s1 x then attempt (fun r => sinsert ltb r x) else ret tt) ;;; fintersection_list s1 l'
    end.

  Definition fstore := ((nat -> list T) * sched)%type.
  (** a member function working on variable [d] *)
  Definition on_var (d : nat) (m : M cst unit) : M fstore unit := fun s =>
    match m (fst s d, snd s) with
    | Ret _ c => Ret tt (set_var (fst s) d (fst c), snd c)
    | Exc e c => Exc e (set_var (fst s) d (fst c), snd c)
    | Ub r => Ub r
    | Abort => Abort
    | Fuel => Fuel
    end.
  (** [d = ] a new container, computed from [l] by [m] *)
  Definition into_var (d : nat) (l : list T) (m : M cst unit) : M fstore unit := fun s =>
    match m (l, snd s) with
    | Ret _ c => Ret tt (set_var (fst s) d (fst c), snd c)
    | Exc e c => Exc e (fst s, snd c)
    | Ub r => Ub r
    | Abort => Abort
    | Fuel => Fuel
    end.
  Definition fsstep (o : sop T) : M fstore unit := fun s =>
    match o with
    | SNew d => into_var d [] (ret tt) s
    | SFromList d l => into_var d [] (attempts (fun x r => sinsert ltb r x) l) s
    | SCopy d k => into_var d (fst s k) tick s
    | SInsert d t => on_var d (attempt (fun l => sinsert ltb l t)) s
    | SAdjoin d k => on_var d (fadjoin (arg (fst s) d k)) s
    | SRemove d t => on_var d (fremove_elem t) s
    | SRemoveSet d k | SFreeRemove d k | SMemberRestrict d k => on_var d (ferase true (arg (fst s) d k)) s
    | SRemoveList d l => on_var d (fremove_list l) s
    | SFreeRestrict d k => on_var d (ferase false (arg (fst s) d k)) s
    | SJoin d s1 s2 => into_var d (fst s s1) (tick ;;; fadjoin (other_arg (fst s s2))) s
    | SIntersection d s1 s2 => into_var d (fst s s1) (tick ;;; ferase false (other_arg (fst s s2))) s
    | SIntersectionList d s1 l => into_var d [] (fintersection_list (fst s s1) l) s
    | SDifference d s1 s2 => into_var d (fst s s1) (tick ;;; ferase true (other_arg (fst s s2))) s
    end.
  (** a program, every statement in a try block; [inr tt]: it got stuck *)
  Fixpoint fsrun (ops : list (sop T)) (s : fstore) : list (option exn) * (fstore + unit) :=
    match ops with
    | [] => ([], inl s)
    | o :: t =>
        match fsstep o s with
        | Ret _ s' => let (r, f) := fsrun t s' in (None :: r, f)
        | Exc e s' => let (r, f) := fsrun t s' in (Some e :: r, f)
        | _ => ([], inr tt)
        end
    end.
End Sets.

Section Maps.
  Context {K V : Type} (ltb : K -> K -> bool) (dflt : V).
  Notation content_of := (list (K * V)).
  Notation fmstore := (@fstore (K * V)).
  (** a look-up that throws if there is no such key: the outcome is [OutThrow] *)
  Definition flookup (d : nat) (k : K) (f : V -> M fmstore (mout V)) : M fmstore (mout V) := fun s =>
    match tick s with
    | Ret _ s' =>
        match mget ltb k (fst s' d) with
        | Ret v _ => f v s'
        | Exc _ _ => Ret OutThrow s'
        | Ub r => Ub r
        | Abort => Abort
        | Fuel => Fuel
        end
    | Exc e s' => Exc e s'
    | Ub r => Ub r
    | Abort => Abort
    | Fuel => Fuel
    end.
  (** the value of the node just found or inserted *)
  Definition fread (d : nat) (k : K) : M fmstore (mout V) := fun s =>
    match mfind ltb k (fst s d) with Some e => Ret (OutVal (snd e)) s | None => Ub UbDangling end.
  (** 288-291, on the result *)
  Fixpoint frestrict_loop (m : content_of) (ks : list K) : M (content_of * sched) unit :=
    match m with
    | [] => ret tt
    | e :: m' => tick ;;; (if SetModel.contains ltb ks (fst e) then attempt (fun r => minsert ltb r e) else ret tt) ;;; frestrict_loop m' ks
    end.
  Definition fmstep (o : mop K V) : M fmstore (mout V) := fun s =>
    match o with
    | MNew d => (into_var d [] (ret tt) ;;; ret OutUnit) s
    | MCopy d k => (into_var d (fst s k) tick ;;; ret OutUnit) s
    | MIndexRead d k => (on_var d (attempt (mindex ltb dflt k)) ;;; fread d k) s
    | MIndexWrite d k v =>                              (* first operator[], then the assignment *)
        (on_var d (attempt (mindex ltb dflt k)) ;;; on_var d (attempt (mwrite ltb k v)) ;;; ret OutUnit) s
    | MConstIndex d k | MGet d k | MValue d k => flookup d k (fun v => ret (OutVal v)) s
    | MValueWrite d k v => flookup d k (fun _ => on_var d (attempt (mwrite ltb k v)) ;;; ret OutUnit) s
    | MHasKey d k => (tick ;;; fun s' => Ret (OutBool (has_key ltb (fst s' d) k)) s') s
    | MInsert d k v => (on_var d (attempt (fun m => minsert ltb m (k, v))) ;;; ret OutUnit) s
    | MFreeInsert d k v => (on_var d (attempt (fun m => minsert ltb m (k, v))) ;;; fread d k) s
    | MFreeInsertWrite d k v w =>
        (on_var d (attempt (fun m => minsert ltb m (k, v))) ;;; on_var d (attempt (mwrite ltb k w)) ;;; ret OutUnit) s
    | MAdjoin d k => (on_var d (fadjoin (pltb ltb) (marg (fst s) d k)) ;;; ret OutUnit) s
    | MRemoveKeys d ks => (on_var d (attempts (fun k m => merase ltb m k) ks) ;;; ret OutUnit) s
    | MJoin d s1 s2 => (into_var d (fst s s1) (tick ;;; fadjoin (pltb ltb) (other_arg (fst s s2))) ;;; ret OutUnit) s
    | MRestrictKeys d k ks =>
        (into_var d [] (frestrict_loop (fst s k) ks) ;;; ret OutUnit) s
    end.
  (** [inl]: the result; [inr]: an exception from an element *)
  Fixpoint fmrun (ops : list (mop K V)) (s : fmstore) : list (mout V + exn) * (fmstore + unit) :=
    match ops with
    | [] => ([], inl s)
    | o :: t =>
        match fmstep o s with
        | Ret x s' => let (r, f) := fmrun t s' in (inl x :: r, f)
        | Exc e s' => let (r, f) := fmrun t s' in (inr e :: r, f)
        | _ => ([], inr tt)
        end
    end.
End Maps.

Section Lists.
  Context {T : Type}.
  Notation flstore := (@fstore T).
  Inductive lsop :=
  | LsNew (d : nat) (l : list T)           (* d = List(l.begin(),l.end()) *)
  | LsAppend (d : nat) (t : T)             (* d.append(t) *)
  | LsAppendList (d s : nat)               (* d.append(s) *)
  | LsConcatenate (d s : nat)              (* d.concatenate(s) *)
  | LsCatenate (d s1 s2 : nat)             (* d = catenate(s1,s2) *)
  | LsCatenateElem (d s : nat) (t : T).    (* d = catenate(s,t) *)
  Definition push (t : T) (l : list T) : list T := l ++ [t].
  (** 89-92: i is a 32-bit unsigned int *)
  Fixpoint fappend_loop (fuel : nat) (i : Z) (d s : nat) : M flstore unit := fun st =>
    match fuel with
    | O => Fuel
    | S fuel' =>
        if (i =? Z.of_nat (length (fst st s)))%Z then Ret tt st
        else match nth_error (fst st s) (Z.to_nat i) with
             | None => Ub UbOutOfBounds
             | Some x => (on_var d (attempt (push x)) ;;; fappend_loop fuel' (wrap32 (i + 1)) d s) st
             end
    end.
  Definition flstep (fuel : nat) (o : lsop) : M flstore unit := fun st =>
    match o with
    | LsNew d l => into_var d [] (attempts push l) st
    | LsAppend d t => on_var d (attempt (push t)) st
    | LsAppendList d s | LsConcatenate d s => fappend_loop fuel 0 d s st
    | LsCatenate d s1 s2 => into_var d (fst st s1) (tick ;;; attempts push (fst st s2)) st
    | LsCatenateElem d s t => into_var d (fst st s) (tick ;;; attempt (push t)) st
    end.
  Fixpoint flrun (fuel : nat) (ops : list lsop) (s : flstore) : list (option exn) * (flstore + unit) :=
    match ops with
    | [] => ([], inl s)
    | o :: t =>
        match flstep fuel o s with
        | Ret _ s' => let (r, f) := flrun fuel t s' in (None :: r, f)
        | Exc e s' => let (r, f) := flrun fuel t s' in (Some e :: r, f)
        | _ => ([], inr tt)
        end
    end.
End Lists.
Arguments lsop : clear implicits.
