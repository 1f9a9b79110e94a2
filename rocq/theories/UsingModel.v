(** UsingModel.v -- the constructors that HELPER_USING_CONSTRUCTORS(Class,Base) declares, include/macros.hpp:42-47, and which
    of them a definition chooses.  Definitions only.

    - Class is publicly derived from Base and has further members with default initialisers; its copy and move constructors
      are the implicit ones.  Copying and moving a Base preserves its value, and Base is made from an object of class
      Class by its copy or move constructor.
    - Arguments are objects of class Class, of a class publicly derived from it, or of any other type X.  [base_from x c]: the
      Base made from x of category c by direct initialisation, if there is one; [converts x]: also by implicit conversion;
      [from_base x]: the type of x can be constructed from a Base, which the macro asks in place of the reverse. *)
From Verif Require Import Base OverModel.

Inductive cat := Lvalue | ConstLvalue | Rvalue | ConstRvalue.

Section Using.
  Context {B M X : Type} (dflt : M)
          (base_from : X -> cat -> option B) (base_from_all : list (X * cat) -> option B)
          (converts from_base : X -> bool).

  Record obj := mkObj { o_base : B; o_own : M }.
  Inductive arg := OfClass (o : obj) | OfDerived (o : obj) | Other (x : X).

  (** CopyCtor: Class(const Class&); MoveCtor: Class(Class&&); Conv: line 43-44; ExplicitConv: 45-46; Forward: 47 *)
  Inductive ctor := CopyCtor | MoveCtor | Conv | ExplicitConv | Forward.

  (** binding a const lvalue reference is worse than binding a reference to exactly what the argument is; this counts as a
      promotion here, as only the order of ranks matters *)
  Definition bind_const (c : cat) : rank := match c with ConstLvalue => Identity | _ => Promotion end.
  Definition is_convertible (a : arg) : bool := match a with OfClass _ | OfDerived _ => true | Other x => converts x end.
  Definition constructible_from_base (a : arg) : bool :=
    match a with OfClass _ | OfDerived _ => true | Other x => from_base x end.
  (** the rank of the conversion of the argument, if the constructor can be called with it.  The copy and move constructors
      can also be called with Other after a conversion, which is worse than Forward and left out *)
  Definition ctor_rank (k : ctor) (a : arg) (c : cat) : option rank :=
    match k with
    | CopyCtor => match a with OfClass _ => Some (bind_const c) | OfDerived _ => Some Conversion | Other _ => None end
    | MoveCtor =>
        match a, c with
        | OfClass _, Rvalue => Some Identity
        | OfDerived _, Rvalue => Some Conversion
        | _, _ => None
        end
    | Conv => if is_convertible a then Some (bind_const c) else None
    | ExplicitConv => if constructible_from_base a && negb (is_convertible a) then Some (bind_const c) else None
    | Forward => Some Identity
    end.
  (** for equal ranks: functions that are no templates, then templates with a parameter const T&, then those with a pack of
      forwarding references *)
  Definition level (k : ctor) : nat := match k with CopyCtor | MoveCtor => 0 | Conv | ExplicitConv => 1 | Forward => 2 end.
  Definition beats (a : arg) (c : cat) (k k' : ctor) : bool :=
    match ctor_rank k a c, ctor_rank k' a c with
    | Some r, Some r' =>
        (rank_num r <? rank_num r') || ((rank_num r =? rank_num r') && (level k <? level k'))
    | Some _, None => true
    | None, _ => false
    end.
  Definition same_ctor (k k' : ctor) : bool :=
    match k, k' with
    | CopyCtor, CopyCtor | MoveCtor, MoveCtor | Conv, Conv | ExplicitConv, ExplicitConv | Forward, Forward => true
    | _, _ => false
    end.
  Definition chosen (ks : list ctor) (a : arg) (c : cat) : option ctor :=
    find (fun k => forallb (fun k' => same_ctor k k' || beats a c k k') ks) ks.

  (** the object made by a constructor; None: it does not compile *)
  Definition run_ctor (k : ctor) (a : arg) (c : cat) : option obj :=
    match k, a with
    | (CopyCtor | MoveCtor), (OfClass o | OfDerived o) => Some o
    | (CopyCtor | MoveCtor), Other _ => None
    | (Conv | ExplicitConv), (OfClass o | OfDerived o) => Some (mkObj (o_base o) dflt)
    | (Conv | ExplicitConv), Other x => option_map (fun b => mkObj b dflt) (base_from x ConstLvalue)
    | Forward, (OfClass o | OfDerived o) => Some (mkObj (o_base o) dflt)
    | Forward, Other x => option_map (fun b => mkObj b dflt) (base_from x c)
    end.
  (** Class r(a); *)
  Definition define (a : arg) (c : cat) : option obj :=
    match chosen [CopyCtor; MoveCtor; Conv; ExplicitConv; Forward] a c with Some k => run_ctor k a c | None => None end.
  (** Class r=a; and passing a for a parameter of class Class *)
  Definition define_implicit (a : arg) (c : cat) : option obj :=
    match chosen [CopyCtor; MoveCtor; Conv; Forward] a c with Some k => run_ctor k a c | None => None end.
  (** Class r(x1,..,xn); for n not 1 *)
  Definition define_all (xs : list (X * cat)) : option obj := option_map (fun b => mkObj b dflt) (base_from_all xs).
End Using.
Arguments obj : clear implicits.
Arguments arg : clear implicits.
