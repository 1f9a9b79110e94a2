(** MixProps.v -- C154: operators between an iterator and a const_iterator made with IteratorFacade. *)
From Verif Require Import Base IterModel IterSpec IterProofs MixModel MixSpec MixProofs.

(** C154: if an iterator converts to a const_iterator at the same position (and not back), all six comparisons of the two, in either order,
    compile and say how the positions compare. *)
Theorem C154_compare :
  forall (TI TC Ref CRef : Type) (ki : core TI Ref) (kc : core TC CRef) (lo hi : Z) (pi : TI -> Z) (pc : TC -> Z),
  lawful ki lo hi pi -> lawful kc lo hi pc -> forall (up : TI -> TC) (down : TC -> TI), keeps pi pc up ->
  forall o x y, compare_expr ki kc (mkConvs true false) up down o x y = Some (cmp_positions o (at_position pi pc x) (at_position pi pc y)).
Proof. exact @compare_mixed. Qed.
Print Assumptions C154_compare.

(** C154, missing: the difference of an iterator and a const_iterator does not compile; all other differences are those of the positions. *)
Theorem C154_minus_partial :
  forall (TI TC Ref CRef : Type) (ki : core TI Ref) (kc : core TC CRef) (lo hi : Z) (pi : TI -> Z) (pc : TC -> Z),
  lawful ki lo hi pi -> lawful kc lo hi pc -> forall (up : TI -> TC) (down : TC -> TI), keeps pi pc up ->
  forall x y, minus_expr ki kc (mkConvs true false) up down x y =
    match x, y with OI _, OC _ => None | _, _ => Some (Ret (at_position pi pc x - at_position pi pc y)%Z tt) end.
Proof. exact @const_minus_iterator. Qed.
Print Assumptions C154_minus_partial.

(** C154, refuted: whichever of the two classes converts to the other, one of i==c, i-c and c-i does not compile. *)
Theorem C154_refuted :
  forall (TI TC Ref CRef : Type) (ki : core TI Ref) (kc : core TC CRef) (up : TI -> TC) (down : TC -> TI) (i : TI) (c : TC) (v : convs),
  ~ (compare_expr ki kc v up down CEq (OI i) (OC c) <> None /\ minus_expr ki kc v up down (OI i) (OC c) <> None /\
     minus_expr ki kc v up down (OC c) (OI i) <> None).
Proof. exact @not_all_compile. Qed.
Print Assumptions C154_refuted.

(** C154: whatever compiles gives the answer of the positions, for all conversions; and mixed comparisons compile iff exactly one of the
    classes converts to the other, differences iff the right operand's class converts to the left one's. *)
Theorem C154_whatever_compiles :
  forall (TI TC Ref CRef : Type) (ki : core TI Ref) (kc : core TC CRef) (lo hi : Z) (pi : TI -> Z) (pc : TC -> Z),
  lawful ki lo hi pi -> lawful kc lo hi pc -> forall (v : convs) (up : TI -> TC) (down : TC -> TI), keeps pi pc up -> keeps pc pi down ->
  forall x y,
    (forall o b, compare_expr ki kc v up down o x y = Some b -> b = cmp_positions o (at_position pi pc x) (at_position pi pc y)) /\
    (forall r, minus_expr ki kc v up down x y = Some r -> r = Ret (at_position pi pc x - at_position pi pc y)%Z tt) /\
    (forall o, compare_expr ki kc v up down o x y <> None <-> cls x = cls y \/ i_to_c v <> c_to_i v) /\
    (minus_expr ki kc v up down x y <> None <->
     match x, y with OI _, OC _ => c_to_i v = true | OC _, OI _ => i_to_c v = true | _, _ => True end).
Proof. exact @whatever_compiles. Qed.
Print Assumptions C154_whatever_compiles.

(** two views of ten positions *)
Example C154_example :
  let i := c_advance vec_core vec_begin 2 in let c := c_advance vec_core vec_begin 5 in
  let e := compare_expr vec_core vec_core (mkConvs true false) (fun x => x) (fun x => x) in
  e CLt (OI i) (OC c) = Some true /\ e CLt (OC c) (OI i) = Some false /\ e CEq (OC i) (OI i) = Some true /\
  minus_expr vec_core vec_core (mkConvs true false) (fun x => x) (fun x => x) (OC c) (OI i) = Some (Ret 3%Z tt) /\
  minus_expr vec_core vec_core (mkConvs true false) (fun x => x) (fun x => x) (OI i) (OC c) = None /\
  keeps (@proj1_sig Z _) (@proj1_sig Z _) (fun x : { z : Z | (0 <= z <= 9)%Z } => x).
Proof. vm_compute. repeat split. Qed.
