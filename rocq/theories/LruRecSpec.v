(** LruRecSpec.v -- an LRU cache in front of a recursive function, and what the function yields without
    the cache.  Nothing here depends on how lru_cache.hpp keeps its elements. *)
From Verif Require Import Base StdOrd LruModel.

(** what a call of a function gives its caller *)
Inductive outcome (V : Type) := OVal (v : V) | OExc (e : exn).
Arguments OVal {V} v.
Arguments OExc {V} e.

(** the body of a recursive function, for one argument: it returns, throws, or calls the function with
    another label and goes on with what this call gave (an exception may be handled, or passed on) *)
Inductive body (L V : Type) :=
| Finish (o : outcome V)
| Call (l : L) (k : outcome V -> body L V).
Arguments Finish {L V} o.
Arguments Call {L V} l k.

Section LruRecSpec.
  Context {L V : Type} (ltb : L -> L -> bool) (F : L -> body L V).

  (** ** without a cache: [yields b o] says that the computation b ends, with the outcome o *)
  Inductive yields : body L V -> outcome V -> Prop :=
  | y_finish : forall o, yields (Finish o) o
  | y_call : forall l k o' o, yields (F l) o' -> yields (k o') o -> yields (Call l k) o.

  (** ** with a cache, as a client writes it:
      [V compute(L l) { if (cache.has_label(l)) return cache.get(l);
                        V v=body(l); cache.put(l,v); return v; }]
      where the calls in the body are calls of compute.  The log lists the evaluations of the body, in the
      order in which they ended. *)
  Inductive answer :=
  | Got (o : outcome V) (c : cache L V) (log : list (L * outcome V))
  | Spent                       (* the fuel is used up: not an outcome of the program *)
  | Broken.                     (* a member of the cache threw, or was undefined *)

  Section Perform.
    Context (call : L -> cache L V -> list (L * outcome V) -> answer).
    Fixpoint perform (b : body L V) (c : cache L V) (log : list (L * outcome V)) : answer :=
      match b with
      | Finish o => Got o c log
      | Call l k =>
          match call l c log with
          | Got o c' log' => perform (k o) c' log'
          | a => a
          end
      end.
  End Perform.

  Fixpoint compute (fuel : nat) (l : L) (c : cache L V) (log : list (L * outcome V)) : answer :=
    match fuel with
    | 0 => Spent
    | S n =>
        match step ltb c (OHas l) with
        | (Some c1, RBool true) =>
            match step ltb c1 (OGet l) with (Some c2, RVal v) => Got (OVal v) c2 log | _ => Broken end
        | (Some c1, RBool false) =>
            match perform (compute n) (F l) c1 log with
            | Got (OVal v) c2 log2 =>
                match step ltb c2 (OPut l v) with
                | (Some c3, RUnit) => Got (OVal v) c3 (log2 ++ [(l, OVal v)])
                | _ => Broken
                end
            | Got (OExc e) c2 log2 => Got (OExc e) c2 (log2 ++ [(l, OExc e)])
            | a => a
            end
        | _ => Broken
        end
    end.

  (** requests one after the other; a request that throws does not end the program *)
  Inductive session := Session (os : list (outcome V)) (log : list (L * outcome V)) | SSpent | SBroken.
  Fixpoint ask_all (fuel : nat) (ls : list L) (c : cache L V) (log : list (L * outcome V)) (os : list (outcome V)) : session :=
    match ls with
    | [] => Session os log
    | l :: t =>
        match compute fuel l c log with
        | Got o c' log' => ask_all fuel t c' log' (os ++ [o])
        | Spent => SSpent
        | Broken => SBroken
        end
    end.
  (** a new cache with m places *)
  Definition requests (fuel : nat) (m : Z) (ls : list L) : session :=
    match lru_new m with
    | Ret c _ => ask_all fuel ls c [] []
    | _ => SBroken
    end.

  (** the labels whose evaluation gave a value *)
  Definition valued (log : list (L * outcome V)) : list L :=
    flat_map (fun e => match snd e with OVal _ => [fst e] | OExc _ => [] end) log.
  (** no two labels of the list are the same label to the cache *)
  Fixpoint all_different (s : list L) : Prop :=
    match s with
    | [] => True
    | x :: t => Forall (fun y => eqvb ltb x y = false) t /\ all_different t
    end.
End LruRecSpec.
Arguments answer : clear implicits.
Arguments session : clear implicits.
