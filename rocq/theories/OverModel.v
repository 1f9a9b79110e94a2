(** OverModel.v -- which constructor of List, Array and LinkedList a call chooses: include/container.hpp:71-93
    (List, with the constructors inherited from std::vector), 137-154 (LinkedList), include/array.hpp:79-121 (Array).
    Definitions only.

    - Types are the arithmetic types of an LP64 platform, where size_t is unsigned long, and classes.  [conv X T] says
      that an implicit conversion by a constructor of T or a conversion function of X exists; it is asked only where
      X or T is a class.  [gen X T]: the class X can be called with a size_t, and the result converts to T.
    - An implicit conversion has one of the ranks of [over.best.ics]; two conversions by user-defined functions are
      indistinguishable.  A constructor is better than another if no argument converts worse and one converts better, or
      all convert equally well and only the other is a template ([over.match.best]).
    - Arguments are values that are not constant expressions.  Not modelled: arguments that are themselves lists, arrays,
      iterators, allocators or initializer lists, so constructors taking those are not viable. *)
From Verif Require Import Base.

Inductive ty := TBool | TChar | TInt | TUInt | TLong | TSize | TFloat | TDouble | TClass (n : nat).
Definition ty_eqb (a b : ty) : bool :=
  match a, b with
  | TBool, TBool | TChar, TChar | TInt, TInt | TUInt, TUInt | TLong, TLong | TSize, TSize
  | TFloat, TFloat | TDouble, TDouble => true
  | TClass m, TClass n => Nat.eqb m n
  | _, _ => false
  end.
Definition is_class (t : ty) : bool := match t with TClass _ => true | _ => false end.

(** conversion ranks, best first *)
Inductive rank := Identity | Promotion | Conversion | UserDefined.
Definition rank_num (r : rank) : nat := match r with Identity => 0 | Promotion => 1 | Conversion => 2 | UserDefined => 3 end.

(** a constructor that can be called with the arguments *)
Record cand (C : Type) := mkCand { c_ctor : C; c_template : bool; c_ranks : list rank }.
Arguments mkCand {C}.
Arguments c_ctor {C}.
Arguments c_template {C}.
Arguments c_ranks {C}.
Inductive choice (C : Type) := Chosen (c : C) | Ambiguous | NoneViable.
Arguments Chosen {C} c.
Arguments Ambiguous {C}.
Arguments NoneViable {C}.

Fixpoint none_worse (a b : list rank) : bool :=
  match a, b with
  | x :: a', y :: b' => (rank_num x <=? rank_num y) && none_worse a' b'
  | _, _ => true
  end.
Definition better {C} (a b : cand C) : bool :=
  none_worse (c_ranks a) (c_ranks b) &&
  (negb (none_worse (c_ranks b) (c_ranks a)) || (negb (c_template a) && c_template b)).
(** the candidate better than all others; [before] are those already looked at *)
Fixpoint resolve_from {C} (before after : list (cand C)) : choice C :=
  match after with
  | [] => match before with [] => NoneViable | _ => Ambiguous end
  | c :: rest =>
      if forallb (better c) (before ++ rest) then Chosen (c_ctor c) else resolve_from (before ++ [c]) rest
  end.
Definition resolve {C} (l : list (cand C)) : choice C := resolve_from [] l.

Section Over.
  Context (conv gen : ty -> ty -> bool).

  (** ** implicit conversions *)
  Definition promotes (X T : ty) : bool :=
    match X, T with TBool, TInt | TChar, TInt | TFloat, TDouble => true | _, _ => false end.
  Definition implicit (X T : ty) : option rank :=
    if ty_eqb X T then Some Identity
    else if is_class X || is_class T then (if conv X T then Some UserDefined else None)
    else if promotes X T then Some Promotion else Some Conversion.
  Definition standard (X T : ty) : option rank :=
    match implicit X T with Some UserDefined => None | r => r end.
  (** [dcl.init.list] narrowing, for values that are not constant expressions *)
  Definition is_float (t : ty) : bool := match t with TFloat | TDouble => true | _ => false end.
  Definition is_signed (t : ty) : bool := match t with TChar | TInt | TLong => true | _ => false end.   (* char: x86-64 *)
  Definition bits (t : ty) : nat := match t with TBool => 1 | TChar => 8 | TInt | TUInt => 32 | _ => 64 end.
  Definition narrows (X T : ty) : bool :=
    if ty_eqb X T || is_class X || is_class T then false
    else match is_float X, is_float T with
         | true, true => match X, T with TDouble, TFloat => true | _, _ => false end
         | true, false | false, true => true
         | false, false =>
             match T with
             | TBool => true
             | _ =>
                 match is_signed X, is_signed T with
                 | true, true | false, false => bits T <? bits X
                 | true, false => true
                 | false, true => bits T <=? bits X
                 end
             end
         end.
  Definition viable {C} (c : C) (tmpl : bool) (rs : list (option rank)) : list (cand C) :=
    if forallb (fun r => match r with Some _ => true | None => false end) rs
    then [mkCand c tmpl (flat_map (fun r => match r with Some x => [x] | None => [] end) rs)] else [].

  Section Values.
    Context {V : Type}
            (cast : ty -> ty -> V -> V)      (* cast X T v: the value v of type X converted to T *)
            (dflt : ty -> V)                 (* T() *)
            (count : ty -> V -> nat).        (* the number of elements that a value of type X means *)

    (** what a definition [L l(args)] makes *)
    Inductive made := Elements (l : list V) | DoesNotCompile.

    (** ** List<T> with one argument.  [LCount]: explicit vector(size_type n, const Allocator& = Allocator()), inherited;
        [LValue]: List(T const&), container.hpp:83; [LCopy]: List(List const&) and List(List&&), from a List made from the
        argument by List(T const&) *)
    Inductive list_ctor := LCount | LValue | LCopy.
    Definition list_candidates (T X : ty) : list (cand list_ctor) :=
      viable LCount false [implicit X TSize] ++
      viable LValue false [implicit X T] ++
      viable LCopy false [option_map (fun _ => UserDefined) (standard X T)].
    (** List<T> l(x); *)
    Definition list_direct (T X : ty) (x : V) : made :=
      match resolve (list_candidates T X) with
      | Chosen LCount => Elements (repeat (dflt T) (count X x))
      | Chosen (LValue | LCopy) => Elements [cast X T x]
      | _ => DoesNotCompile
      end.
    (** List<T> l=x; and the conversion of an argument x to a parameter of type List<T>: only constructors that are not
        explicit, and no second conversion by a user-defined function *)
    Definition list_implicit (T X : ty) (x : V) : made :=
      match resolve (viable LValue false [standard X T]) with
      | Chosen _ => Elements [cast X T x]
      | _ => DoesNotCompile
      end.
    (** List<T> l{x}; if x converts to T then vector(initializer_list<T>), inherited, otherwise as List<T> l(x), where
        converting to the size may be narrowing *)
    Definition list_braces (T X : ty) (x : V) : made :=
      match implicit X T with
      | Some _ => if narrows X T then DoesNotCompile else Elements [cast X T x]
      | None =>
          match resolve (list_candidates T X) with
          | Chosen LCount => if narrows X TSize then DoesNotCompile else Elements (repeat (dflt T) (count X x))
          | Chosen (LValue | LCopy) => Elements [cast X T x]
          | _ => DoesNotCompile
          end
      end.

    (** ** n copies of x: the arguments have the types A and X *)
    (** List<T> l(n,x): vector(size_type, const T&, const Allocator& = Allocator()), inherited; the constructor from two iterators is
        constrained to iterators *)
    Definition list_fill (T A X : ty) (n x : V) : made :=
      match resolve (viable tt false [implicit A TSize; implicit X T]) with
      | Chosen _ => Elements (repeat (cast X T x) (count A n))
      | _ => DoesNotCompile
      end.
    (** Array<T> a(n,x): array.hpp:85 Array(const size_t, const ValueType&), 95-97 the generator, 100-104 the template for two
        iterators, whose std::distance does not compile unless the argument type is an iterator *)
    Inductive array_ctor := AFill | AGenerate | ARange.
    Definition array_candidates (T A X : ty) : list (cand array_ctor) :=
      viable AFill false [implicit A TSize; implicit X T] ++
      (if gen X T then viable AGenerate true [implicit A TSize; Some Identity] else []) ++
      (if ty_eqb A X then viable ARange true [Some Identity; Some Identity] else []).
    Context (generated : ty -> ty -> V -> nat -> V).     (* generated X T x i: x(i), converted to T *)
    Definition array_fill (T A X : ty) (n x : V) : made :=
      match resolve (array_candidates T A X) with
      | Chosen AFill => Elements (repeat (cast X T x) (count A n))
      | Chosen AGenerate => Elements (map (generated X T x) (seq 0 (count A n)))
      | _ => DoesNotCompile
      end.
    (** LinkedList<T> l(n,x): container.hpp:145, whose initialiser std::vector<T>(n,t) is not a base and does not compile; 149
        the template for two arguments of the same type, which calls std::list<T>(b,e), that is, for types that are
        not iterators, std::list(size_type, const T&) *)
    Inductive linked_ctor := KFill | KRange.
    Definition linked_candidates (T A X : ty) : list (cand linked_ctor) :=
      viable KFill false [implicit A TUInt; implicit X T] ++
      (if ty_eqb A X then viable KRange true [Some Identity; Some Identity] else []).
    Definition linked_fill (T A X : ty) (n x : V) : made :=
      match resolve (linked_candidates T A X) with
      | Chosen KRange => list_fill T A X n x
      | _ => DoesNotCompile
      end.

    (** container.hpp:318 make_array(t): Array<T>(1u,t); 322 make_list(t): List<T>(1u,t); [one] is the literal 1u *)
    Definition make_array (T : ty) (one t : V) : made := array_fill T TUInt T one t.
    Definition make_list (T : ty) (one t : V) : made := list_fill T TUInt T one t.
  End Values.
End Over.
Arguments made : clear implicits.
