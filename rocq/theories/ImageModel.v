(** ImageModel.v -- apply(f,s) for a Set s: include/container.hpp:206-208, with adjoin, 187-188.  Definitions only.

    - The function is an arbitrary stateful, possibly throwing, computation, as in ListModel.v; it leaves the set s alone.  R is its result type
      and has the order ltb.
    - The body calls res.adjoin(f(itm)), whose parameter is a const std::set<R>&.  [ways] says how R is declared: R may be derived from
      std::set<R>, or have conversion functions.  [as_set] is what the conversion makes of a value.
    - Not modelled: allocations that fail; the choice between Helper::apply and std::apply, see C118. *)
From Verif Require Import Base StdOrd SetModel OverModel.

(** the types in the one-argument constructors of std::set<R>: const Compare&, const Allocator&, initializer_list<R>, and const set&, set&& *)
Inductive target := ToCompare | ToAllocator | ToInitList | ToStdSet | ToSet | ToOther.
Inductive way := DerivedFromSet | HasOperator (is_explicit : bool) (to : target).

(** one-argument constructors of std::set, and whether they are explicit ([set.cons]) *)
Definition set_constructors : list (target * bool) := [(ToCompare, true); (ToAllocator, true); (ToInitList, false)].
(** an implicit conversion by a constructor of the parameter's class takes an argument by a standard conversion only, never by a conversion
    function of R; R itself is none of these types *)
Definition is_itself (t : target) : bool := false.
Definition by_constructor : bool := existsb (fun c => negb (snd c) && is_itself (fst c)) set_constructors.
(** otherwise by binding to the base class, or by a conversion function to std::set<R> or Set<R> that is not explicit *)
Definition by_way (w : way) : bool :=
  match w with
  | DerivedFromSet => true
  | HasOperator false (ToStdSet | ToSet) => true
  | HasOperator _ _ => false
  end.
Definition adjoinable (ways : list way) : bool := by_constructor || existsb by_way ways.

Section Image.
  Context {S T R : Type} (ltb : R -> R -> bool).

  Fixpoint image_loop (as_set : R -> list R) (f : T -> M S R) (rest : list T) (res : list R) : M S (list R) :=
    match rest with
    | [] => ret res
    | itm :: rest' =>
        (r <- f itm ;;
         match adjoin ltb (other_arg (as_set r)) res with
         | Some res' => image_loop as_set f rest' res'
         | None => fun _ => Fuel
         end)%M
    end.
  (** None if the call does not compile *)
  Definition image (ways : list way) (as_set : R -> list R) (f : T -> M S R) (s : list T) : option (M S (list R)) :=
    if adjoinable ways then Some (image_loop as_set f s []) else None.
End Image.
