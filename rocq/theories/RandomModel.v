(** RandomModel.v -- model of include/randomiser.hpp:42-82.  Definitions only.

    The engine is an arbitrary state machine ([G], [next]); its initial state (44-51: seeded from the random
    device and the clocks) is arbitrary.  A distribution object has a state in [Ds]; drawing from it may call
    the engine any number of times ([draw], a decision tree over the engine's outputs).
    Simplified: one translation unit, so one RANDOM_GENERATOR (59, which is static, so every translation
    unit has its own: RandomUnitsModel.v); the distributions themselves (std::uniform_real_distribution,
    std::uniform_int_distribution) are library code and appear as parameters. *)
From Verif Require Import Base.
Local Open Scope monad_scope.

Inductive draw (A : Type) := Done (a : A) | Ask (k : Z -> draw A).
Arguments Done {A} a.
Arguments Ask {A} k.

Section Random.
  Context {T G Ds : Type} (next : G -> Z * G) (dmake : T -> T -> Ds) (ddraw : Ds -> draw (T * Ds)).

  (** the randomisers of the program, by number, and RANDOM_GENERATOR (59) *)
  Record rst := mkRst { randomisers : nat -> option Ds; generator : G }.
  Definition rinit (g : G) : rst := mkRst (fun _ => None) g.

  (** 53: engine() returns a reference, so the distribution advances the generator itself *)
  Fixpoint feed {A} (t : draw A) (g : G) : A * G :=
    match t with
    | Done a => (a, g)
    | Ask k => let (z, g') := next g in feed (k z) g'
    end.

  (** 68: _distribution(D(min,max)) *)
  Definition construct (k : nat) (min max : T) : M rst unit := fun s =>
    Ret tt (mkRst (set_var (randomisers s) k (Some (dmake min max))) (generator s)).
  (** 71: return this->_distribution(RANDOM_GENERATOR.engine()) *)
  Definition get (k : nat) : M rst T := fun s =>
    match randomisers s k with
    | None => Ub UbUninit
    | Some d =>
        let '((v, d'), g') := feed (ddraw d) (generator s) in
        Ret v (mkRst (set_var (randomisers s) k (Some d')) g')
    end.

  Inductive rop := RNew (k : nat) (min max : T) | RGet (k : nat).
  Definition rstep (o : rop) : M rst (option T) :=
    match o with
    | RNew k a b => construct k a b ;;; ret None
    | RGet k => v <- get k ;; ret (Some v)
    end.
  Fixpoint rrun (p : list rop) (s : rst) : res rst (list (option T)) :=
    match p with
    | [] => Ret [] s
    | o :: p' => (x <- rstep o ;; l <- rrun p' ;; ret (x :: l)) s
    end.
End Random.
Arguments rst : clear implicits.
Arguments rop : clear implicits.
