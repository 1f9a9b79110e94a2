(** MixModel.v -- operators between an iterator and a const_iterator, both made with IteratorFacade (include/iterator.hpp:58-90).
    Definitions only.

    - Two classes of iterators, [CI] and [CC], each derived from its own IteratorFacade; either may convert implicitly to the other.
    - The comparisons are friends defined in the facade (75-80), found by argument-dependent lookup, through either operand's base.
    - operator-(I const&) (81) is a member of the left operand's facade; no conversion applies to the left operand.
      operator-(ptrdiff_t) (83) is not viable: an iterator does not convert to a number.
    - Reversed candidates (C++20) have the parameter types of the originals, which are preferred to them; they are left out. *)
From Verif Require Import Base IterModel.

Inductive icls := CI | CC.
Definition icls_eqb (a b : icls) : bool := match a, b with CI, CI | CC, CC => true | _, _ => false end.
(** which class converts to the other one *)
Record convs := mkConvs { i_to_c : bool; c_to_i : bool }.
Definition converts (v : convs) (a b : icls) : bool := icls_eqb a b || match a with CI => i_to_c v | CC => c_to_i v end.

(** a candidate whose two parameters are of class [p], for operands of classes [a] and [b] *)
Definition viable (v : convs) (a b p : icls) : bool := converts v a p && converts v b p.
(** [p] is better than [q]: no operand is converted that [q] takes as it is, and some operand is taken as it is that [q] converts *)
Definition better (a b p q : icls) : bool :=
  (icls_eqb a p || negb (icls_eqb a q)) && (icls_eqb b p || negb (icls_eqb b q)) &&
  ((icls_eqb a p && negb (icls_eqb a q)) || (icls_eqb b p && negb (icls_eqb b q))).
(** overload resolution among viable candidates; [None]: none, or ambiguous *)
Definition resolve (a b : icls) (cands : list icls) : option icls :=
  match cands with
  | [] => None
  | [p] => Some p
  | [p; q] => if better a b p q then Some p else if better a b q p then Some q else None
  | _ => None
  end.
(** lookup: the friends of the facades of the operands' classes *)
Definition friends (a b : icls) : list icls := if icls_eqb a b then [a] else [CI; CC].
Definition pick_friend (v : convs) (a b : icls) : option icls := resolve a b (filter (viable v a b) (friends a b)).
Definition pick_member (v : convs) (a b : icls) : option icls := if converts v b a then Some a else None.

Inductive cmp := CEq | CNe | CLt | CLe | CGt | CGe.
Section Mix.
  Context {TI TC Ref CRef : Type} (ki : core TI Ref) (kc : core TC CRef) (v : convs) (up : TI -> TC) (down : TC -> TI).
  Inductive operand := OI (i : TI) | OC (c : TC).
  Definition cls (x : operand) : icls := match x with OI _ => CI | OC _ => CC end.
  Definition as_i (x : operand) : TI := match x with OI i => i | OC c => down c end.
  Definition as_c (x : operand) : TC := match x with OI i => up i | OC c => c end.
  Definition run_cmp {T R} (k : core T R) (o : cmp) (a b : T) : bool :=
    match o with CEq => f_eq k a b | CNe => f_ne k a b | CLt => f_lt k a b | CLe => f_le k a b | CGt => f_gt k a b | CGe => f_ge k a b end.
  (** x op y; [None]: does not compile *)
  Definition compare_expr (o : cmp) (x y : operand) : option bool :=
    match pick_friend v (cls x) (cls y) with
    | Some CI => Some (run_cmp ki o (as_i x) (as_i y))
    | Some CC => Some (run_cmp kc o (as_c x) (as_c y))
    | None => None
    end.
  (** x - y *)
  Definition minus_expr (x y : operand) : option (res unit Z) :=
    match pick_member v (cls x) (cls y) with
    | Some CI => Some (f_diff ki (as_i x) (as_i y) tt)
    | Some CC => Some (f_diff kc (as_c x) (as_c y) tt)
    | None => None
    end.
End Mix.
Arguments operand : clear implicits.
