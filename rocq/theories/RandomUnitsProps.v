(** RandomUnitsProps.v -- property C97 of randomiser.hpp: programs of several translation units.  Statements only; the lemmas are in
    RandomUnitsProofs.v. *)
From Verif Require Import Base RandomModel RandomSpec RandomUnitsModel RandomUnitsSpec RandomUnitsProofs.

(** ** C97: in whatever order the translation units are initialised and whichever instantiations the linker keeps, randomisers can be used from
    initialisers and from main, and all draws share one generator, no output of which is used twice.
    Intended: forall home seeds order inits main, NoDup order -> (every randomiser is constructed before) -> exists l s' cs u n,
      urun (linked order inits main) ustart = Ret l s' /\ draws .. cs l .. /\ concat cs = outputs next n (seeds u).
    Refuted: an initialiser that draws is undefined when its unit comes first and another unit's instantiation was kept. *)
Theorem C97_too_early_refuted :
  forall (T G Ds : Type) (next : G -> Z * G) (dmake : T -> T -> Ds) (ddraw : Ds -> draw (T * Ds)) (home : nat -> nat) (seeds : nat -> G)
    (v : nat) (order : list nat) (inits : nat -> list (rop T)) (main : list (rop T)) (k : nat) (a b : T) rest,
  v <> home k -> inits v = RNew k a b :: RGet k :: rest ->
  urun next dmake ddraw home seeds (linked (v :: order) inits main) ustart = Ub UbUninit.
Proof. exact @too_early. Qed.
Print Assumptions C97_too_early_refuted.
(** ... and there is a generator for each unit: if two get the same seed, their outputs are used twice, and equal randomisers give equal values. *)
Theorem C97_used_twice_refuted :
  forall (T G Ds : Type) (next : G -> Z * G) (dmake : T -> T -> Ds) (ddraw : Ds -> draw (T * Ds)) (home : nat -> nat) (seeds : nat -> G)
    (k k' : nat) (a b : T), k <> k' -> home k <> home k' -> seeds (home k) = seeds (home k') ->
  exists v s', urun next dmake ddraw home seeds (linked [home k; home k'] (fun _ => []) [RNew k a b; RNew k' a b; RGet k; RGet k']) ustart =
    Ret [None; None; Some v; Some v] s'.
Proof. exact @twice. Qed.
Print Assumptions C97_used_twice_refuted.
(** What holds: if every draw comes after the construction of the randomiser and of the generator kept for it, all draws are defined, and the
    draws that use one generator use up its outputs, in order and none twice. *)
Theorem C97_ready_partial :
  forall (T G Ds : Type) (next : G -> Z * G) (dmake : T -> T -> Ds) (ddraw : Ds -> draw (T * Ds)) (home : nat -> nat) (seeds : nat -> G)
    (p : list (uop T)), ready home p -> NoDup (initialised p) ->
  exists l s' cs, urun next dmake ddraw home seeds p ustart = Ret l s' /\ draws dmake ddraw (fun _ => None) (calls p) cs l (uvars s') /\
    forall u, exists n, used_from u (draw_homes home (calls p)) cs = outputs next n (seeds u).
Proof. exact @units_good. Qed.
Print Assumptions C97_ready_partial.
(** In particular if no initialiser draws, whatever the order of the units and the choice of the linker. *)
Theorem C97_main_partial :
  forall (T G Ds : Type) (next : G -> Z * G) (dmake : T -> T -> Ds) (ddraw : Ds -> draw (T * Ds)) (home : nat -> nat) (seeds : nat -> G)
    (order : list nat) (inits : nat -> list (rop T)) (main : list (rop T)),
  NoDup order -> (forall u, In u order -> no_draws (inits u)) ->
  (forall i k, nth_error main i = Some (RGet k) -> In (home k) order /\ exists a b, In (RNew k a b) (flat_map inits order ++ firstn i main)) ->
  exists l s' cs, urun next dmake ddraw home seeds (linked order inits main) ustart = Ret l s' /\
    draws dmake ddraw (fun _ => None) (flat_map inits order ++ main) cs l (uvars s') /\
    forall u, exists n, used_from u (draw_homes home main) cs = outputs next n (seeds u).
Proof. exact @main_good. Qed.
Print Assumptions C97_main_partial.
(** If all instantiations kept are those of the unit initialised first (there is only one unit, say), the program is that of C62.
    Missing: one generator for several units. *)
Theorem C97_one_home_partial :
  forall (T G Ds : Type) (next : G -> Z * G) (dmake : T -> T -> Ds) (ddraw : Ds -> draw (T * Ds)) (home : nat -> nat) (seeds : nat -> G)
    (h : nat) (order : list nat) (inits : nat -> list (rop T)) (main : list (rop T)) (l : list (option T)),
  (forall k, home k = h) -> NoDup (h :: order) ->
  ((exists s', urun next dmake ddraw home seeds (linked (h :: order) inits main) ustart = Ret l s') <->
   exists s1, rrun next dmake ddraw (flat_map inits (h :: order) ++ main) (rinit (seeds h)) = Ret l s1).
Proof. exact @one_home. Qed.
Print Assumptions C97_one_home_partial.

(** an engine that counts, a distribution that takes the output modulo the upper bound; randomisers 0 and 1 are kept from units 0 and 1 *)
Definition count (g : Z) : Z * Z := (g, g + 1)%Z.
Definition below (d : Z) : draw (Z * Z) := Ask (fun z => Done ((z mod d)%Z, d)).
Definition two_units (order : list nat) (inits : nat -> list (rop Z)) (main : list (rop Z)) : option (list (option Z)) :=
  match urun count (fun _ b => b) below (fun k => k) (fun u => if Nat.eqb u 0 then 100 else 200)%Z (linked order inits main) ustart with
  | Ret l _ => Some l | _ => None end.
Definition unit_inits (u : nat) : list (rop Z) := if Nat.eqb u 1 then [RNew 0 0%Z 7%Z; RNew 1 0%Z 9%Z] else [].
Example C97_example :
  (forall u, In u [1; 0] -> no_draws (unit_inits u)) /\
  two_units [1; 0] unit_inits [RGet 0; RGet 1; RGet 0; RGet 1] = Some [None; None; Some 2; Some 2; Some 3; Some 3]%Z.
Proof.
  split; [|vm_compute; reflexivity]. intros u [<-|[<-|[]]] k Hk; cbn in Hk; [|contradiction]. destruct Hk as [Hk|[Hk|[]]]; discriminate.
Qed.
(** an initialiser of unit 1 that draws from randomiser 0: defined in one order only *)
Example C97_order_example :
  let inits u := if Nat.eqb u 1 then [RNew 0 0%Z 7%Z; RGet 0] else [] in
  two_units [0; 1] inits [] = Some [None; Some 2%Z] /\ two_units [1; 0] inits [] = None.
Proof. vm_compute. split; reflexivity. Qed.
