(** KeysModel.v -- containers as elements, keys and labels of containers.  Definitions only.

    operator< of std::vector, std::list, std::set and std::map (contract: std::lexicographical_compare over
    the elements in order; for std::map over the pairs, [pair_ltb]).  Set<List<T>>, Map<Set<T>,V>, LRUCache<List<T>,V> and so on
    compare with it. *)
From Verif Require Import Base StdOrd.

Section Lex.
  Context {T : Type} (ltb : T -> T -> bool).
  Fixpoint list_ltb (l1 l2 : list T) : bool :=
    match l1, l2 with
    | _, [] => false
    | [], _ :: _ => true
    | a :: l1', b :: l2' => if ltb a b then true else if ltb b a then false else list_ltb l1' l2'
    end.
End Lex.
(** operator< of std::pair *)
Definition pair_ltb {A B} (lta : A -> A -> bool) (ltb : B -> B -> bool) (x y : A * B) : bool :=
  if lta (fst x) (fst y) then true else if lta (fst y) (fst x) then false else ltb (snd x) (snd y).
