(** RandomSpec.v -- the contract of distributions, the output of the generator, and what is expected of draws. *)
From Verif Require Import Base RandomModel.

Section Spec.
  Context {T G Ds : Type} (next : G -> Z * G) (dmake : T -> T -> Ds) (ddraw : Ds -> draw (T * Ds)).

  (** drawing with [t] ends with [a] after the engine has answered exactly [l] *)
  Inductive answers {A} : draw A -> list Z -> A -> Prop :=
  | AnsDone a : answers (Done a) [] a
  | AnsAsk k z l a : answers (k z) l a -> answers (Ask k) (z :: l) a.

  (** states of a distribution object made for [a,b] *)
  Inductive made_for (a b : T) : Ds -> Prop :=
  | MadeNew : made_for a b (dmake a b)
  | MadeDrawn d l v d' : made_for a b d -> answers (ddraw d) l (v, d') -> made_for a b d'.
  (** the contract: whatever the engine answers, the value is in the interval *)
  Definition in_interval_distribution (valid : T -> T -> Prop) (le : T -> T -> Prop) : Prop :=
    forall a b d l v d', valid a b -> made_for a b d -> answers (ddraw d) l (v, d') -> le a v /\ le v b.

  (** the first [n] outputs of a generator, and its state after them *)
  Fixpoint outputs (n : nat) (g : G) : list Z :=
    match n with 0 => [] | S n' => fst (next g) :: outputs n' (snd (next g)) end.
  Fixpoint advance (n : nat) (g : G) : G :=
    match n with 0 => g | S n' => advance n' (snd (next g)) end.

  (** the interval given at the last construction of randomiser [k] *)
  Definition built_with (k : nat) (p : list (rop T)) (a b : T) : Prop :=
    exists p1 p2, p = p1 ++ RNew k a b :: p2 /\ forall a' b', ~ In (RNew k a' b') p2.

  (** what a program gives if its i-th draw uses the engine outputs [nth i cs]: [m k] is the distribution of k *)
  Inductive draws : (nat -> option Ds) -> list (rop T) -> list (list Z) -> list (option T) -> (nat -> option Ds) -> Prop :=
  | DNil m : draws m [] [] [] m
  | DNew m k a b p cs l m' : draws (set_var m k (Some (dmake a b))) p cs l m' -> draws m (RNew k a b :: p) cs (None :: l) m'
  | DGet m k d c v d' p cs l m' : m k = Some d -> answers (ddraw d) c (v, d') ->
      draws (set_var m k (Some d')) p cs l m' -> draws m (RGet k :: p) (c :: cs) (Some v :: l) m'.
End Spec.
