(** RandomUnitsModel.v -- include/randomiser.hpp in a program of several translation units.  Definitions only.

    - RANDOM_GENERATOR is static (randomiser.hpp:59): each translation unit that includes the file has its own, constructed (44-51) by the
      dynamic initialisation of the unit, before the unit's other variables; the order of the units is unspecified.
    - get() (71) is a member of a class template: each unit that uses it has an instantiation, which refers to the unit's own RANDOM_GENERATOR,
      and the linker keeps one of them for each class.  [home k] is the unit of the one kept for the class of randomiser [k], an arbitrary function.
      (The standard calls the program ill-formed; this is what linkers do with it.)
    - Using a generator before its construction is undefined. *)
From Verif Require Import Base RandomModel.
Local Open Scope monad_scope.

Section Units.
  Context {T G Ds : Type} (next : G -> Z * G) (dmake : T -> T -> Ds) (ddraw : Ds -> draw (T * Ds)).
  Context (home : nat -> nat) (seeds : nat -> G).

  Record ust := mkUst { uvars : nat -> option Ds; generators : nat -> option G }.
  Definition ustart : ust := mkUst (fun _ => None) (fun _ => None).
  (** 44-51, 59 *)
  Definition init_unit (u : nat) : M ust unit := fun s => Ret tt (mkUst (uvars s) (set_var (generators s) u (Some (seeds u)))).
  (** 68 *)
  Definition unew (k : nat) (a b : T) : M ust unit := fun s => Ret tt (mkUst (set_var (uvars s) k (Some (dmake a b))) (generators s)).
  (** 71 *)
  Definition uget (k : nat) : M ust T := fun s =>
    match uvars s k, generators s (home k) with
    | Some d, Some g =>
        let '((v, d'), g') := feed next (ddraw d) g in
        Ret v (mkUst (set_var (uvars s) k (Some d')) (set_var (generators s) (home k) (Some g')))
    | _, _ => Ub UbUninit
    end.

  (** the initialisation of unit [u]'s generator; a call, by an initialiser of another variable or by main *)
  Inductive uop := UInit (u : nat) | UCall (o : rop T).
  Definition ustep (o : uop) : M ust (list (option T)) :=
    match o with
    | UInit u => init_unit u ;;; ret []
    | UCall (RNew k a b) => unew k a b ;;; ret [None]
    | UCall (RGet k) => v <- uget k ;; ret [Some v]
    end.
  Fixpoint urun (p : list uop) (s : ust) : res ust (list (option T)) :=
    match p with
    | [] => Ret [] s
    | o :: p' => (x <- ustep o ;; l <- urun p' ;; ret (x ++ l)) s
    end.
  (** a program: the units in the order of their initialisation, the calls made by the initialisers of each, and those of main *)
  Definition linked (order : list nat) (inits : nat -> list (rop T)) (main : list (rop T)) : list uop :=
    flat_map (fun u => UInit u :: map UCall (inits u)) order ++ map UCall main.
End Units.
Arguments ust : clear implicits.
Arguments uop : clear implicits.
