(** RandomUnitsSpec.v -- what is expected of randomisers in a program of several translation units. *)
From Verif Require Import Base RandomModel RandomSpec RandomUnitsModel.

Section Spec.
  Context {T : Type} (home : nat -> nat).
  (** the calls of a program *)
  Definition calls (p : list (uop T)) : list (rop T) := flat_map (fun o => match o with UCall c => [c] | UInit _ => [] end) p.
  (** the units it initialises *)
  Definition initialised (p : list (uop T)) : list nat := flat_map (fun o => match o with UInit u => [u] | UCall _ => [] end) p.
  (** every draw comes after the construction of the randomiser, and of the generator it uses *)
  Definition ready (p : list (uop T)) : Prop := forall i k, nth_error p i = Some (UCall (RGet k)) ->
    In (UInit (home k)) (firstn i p) /\ exists a b, In (UCall (RNew k a b)) (firstn i p).
  (** the homes of the draws, in their order *)
  Definition draw_homes (l : list (rop T)) : list nat := flat_map (fun o => match o with RGet k => [home k] | RNew _ _ _ => [] end) l.
  (** of the engine outputs used by each draw, those used by draws whose home is [u] *)
  Definition used_from {A} (u : nat) (homes : list nat) (cs : list (list A)) : list A :=
    concat (map snd (filter (fun x => Nat.eqb (fst x) u) (combine homes cs))).
  Definition no_draws (l : list (rop T)) : Prop := forall k, ~ In (RGet k) l.
End Spec.
