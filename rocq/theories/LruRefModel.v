(** LruRefModel.v -- clients of lru_cache.hpp that pass on the references they get, as in
    cache.put(cache.get(a), cache.get(b)) and cache.get(cache.get(a)).  Here the type of the labels is the type of
    the values, so that the result V const& of get (line 60) binds to L const& label (lines 56, 60, 72, 80) without a copy.
    Definitions only. *)
From Verif Require Import Base StdOrd LruModel.

Section LruRefModel.
  Context {T : Type} (ltb : T -> T -> bool).
  Local Open Scope monad_scope.
  Notation cache := (cache T T).

  (** arguments written by the client: a value of its own, or cache.get(e) *)
  Inductive cexp := CLit (x : T) | CGet (e : cexp).
  (** calls; each is a full expression *)
  Inductive cst := SPut (label val : cexp) | SHas (e : cexp) | SAge (e : cexp) | SGet (e : cexp).

  (** lru_cache.hpp:60-69 get with a reference as label: it is read by find (line 61); afterwards the label is not used,
      except that line 62 prints it before anything is changed *)
  Definition get_ref (r : vref T) : M cache nat := x <- read_vref r ;; get ltb x.

  (** lru_cache.hpp:82-91: the part of put between the precondition and the insertion *)
  Definition put_evict : M cache unit := fun c =>
    (if (Z.of_nat (length (c_elems c)) <? c_max c)%Z
     then put_age_all                                                (* lines 82-83 *)
     else (r <- put_loop (seq 0 (length (c_elems c))) None ;;        (* lines 85-89 *)
           put_erase r)) c.                                          (* line 90 *)

  (** lru_cache.hpp:80-93 put with references: [label] is read by has_label (line 81) and copied in line 92, [val] is
      copied in line 92 *)
  Definition put_refs (label val : vref T) : M cache unit :=
    x <- read_vref label ;;
    b <- has_label ltb x ;;                                          (* line 81 *)
    if b then (fun c => Exc ERuntime c)
    else put_evict ;;;
         y <- read_vref label ;; put_insert ltb y val false.        (* line 92 *)

  (** the argument expressions *)
  Fixpoint eval (e : cexp) : M cache (vref T) :=
    match e with
    | CLit x => ret (VVal x)
    | CGet e' => r <- eval e' ;; a <- get_ref r ;; ret (VNode a)
    end.

  (** the arguments of a call are evaluated in either order ([ltr]: the first one first) *)
  Definition eval_args (ltr : bool) (e1 e2 : cexp) : M cache (vref T * vref T) :=
    if ltr then r1 <- eval e1 ;; r2 <- eval e2 ;; ret (r1, r2)
    else r2 <- eval e2 ;; r1 <- eval e1 ;; ret (r1, r2).

  Definition call (ltr : bool) (s : cst) : M cache (out T) :=
    match s with
    | SPut l v => rs <- eval_args ltr l v ;; put_refs (fst rs) (snd rs) ;;; ret RUnit
    | SHas e => r <- eval e ;; x <- read_vref r ;; b <- has_label ltb x ;; ret (RBool b)
    | SAge e => r <- eval e ;; x <- read_vref r ;; n <- age ltb x ;; ret (RNum n)
    | SGet e => r <- eval (CGet e) ;; x <- read_vref r ;; ret (RVal x)      (* the result is copied at once *)
    end.

  Definition cstep (ltr : bool) (c : cache) (s : cst) : option cache * out T :=
    match call ltr s c with
    | Ret r c' => (Some c', r)
    | Exc e c' => (Some c', RThrow e)
    | _ => (None, RUb)
    end.
  Fixpoint crun (ltr : bool) (c : cache) (p : list cst) : option cache * list (out T) :=
    match p with
    | [] => (Some c, [])
    | s :: t => match cstep ltr c s with
                | (Some c', r) => let (c'', rs) := crun ltr c' t in (c'', r :: rs)
                | (None, r) => (None, [r])
                end
    end.
End LruRefModel.
Arguments cexp : clear implicits. Arguments cst : clear implicits.
