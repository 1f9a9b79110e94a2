(** InitModel.v -- List<T> l{x1,...,xn}, and the same for Array, Set and LinkedList: include/container.hpp:71-93 (List, with the constructors of
    std::vector), 137-154 (LinkedList), 161-175 (Set, with those of std::set), include/array.hpp:79-104 (Array).  Definitions only.

    - The members of the braces have the types of OverModel.v: numbers and objects of classes other than containers, iterators and
      initializer lists.  They may be constant expressions; [fits X T v]: the value v of X can be represented by T.
    - [over.match.list]: constructors that take an initializer_list come first; only if none of them can be called, all constructors do.
      Conversions that narrow ([dcl.init.list]) are errors once a constructor is chosen; those inside the body of a constructor template are not.
    - [gen X T]: the class X can be called with a size_t and the result converts to T (array.hpp:95). *)
From Verif Require Import Base StdOrd SetModel OverModel.

Section Init.
  Context (conv gen : ty -> ty -> bool) {V : Type} (ltb : V -> V -> bool)
          (cast : ty -> ty -> V -> V)                 (* cast X T v: the value v of type X converted to T *)
          (dflt : ty -> V)                            (* T() *)
          (count : ty -> V -> nat)                    (* the number of elements that a value of type X means *)
          (generated : ty -> ty -> V -> nat -> V)     (* generated X T x i: x(i), converted to T *)
          (fits : ty -> ty -> V -> bool).
  Record member := mkMember { m_type : ty; m_value : V; m_const : bool }.

  (** [dcl.init.list] 7: a constant expression that fits does not narrow, unless a fraction is cut off *)
  Definition narrowing (T : ty) (x : member) : bool :=
    narrows (m_type x) T &&
    negb (m_const x && (is_float T || negb (is_float (m_type x))) && fits (m_type x) T (m_value x)).
  Definition converts (T : ty) (x : member) : bool := match implicit conv (m_type x) T with Some _ => true | None => false end.
  Definition value_as (T : ty) (x : member) : V := cast (m_type x) T (m_value x).

  (** the constructor from initializer_list<T> *)
  Definition from_list (T : ty) (xs : list member) : made V :=
    if existsb (narrowing T) xs then DoesNotCompile else Elements (map (value_as T) xs).
  (** narrowing of the arguments of the constructor chosen *)
  Definition unless (b : bool) (m : made V) : made V := if b then DoesNotCompile else m.

  (** List: vector(initializer_list<T>), inherited; otherwise List(T const&), vector(size_type), vector(size_type, const T&).  No braces
      in which every member converts get there *)
  Definition list_init (T : ty) (xs : list member) : made V :=
    if forallb (converts T) xs then from_list T xs
    else match xs with
         | [x] => match resolve (list_candidates conv T (m_type x)) with
                  | Chosen LCount => unless (narrowing TSize x) (Elements (repeat (dflt T) (count (m_type x) (m_value x))))
                  | Chosen (LValue | LCopy) => unless (narrowing T x) (Elements [value_as T x])
                  | _ => DoesNotCompile
                  end
         | [n; x] => unless (narrowing TSize n || narrowing T x) (list_fill conv cast count T (m_type n) (m_type x) (m_value n) (m_value x))
         | _ => DoesNotCompile
         end.

  (** Array: array.hpp:88-89 Array(InitializerList<T>); otherwise 81 Array(const size_t) and 85, 95-97, 100-104 *)
  Definition array_init (T : ty) (xs : list member) : made V :=
    if forallb (converts T) xs then from_list T xs
    else match xs with
         | [x] => match resolve (viable tt false [implicit conv (m_type x) TSize]) with
                  | Chosen _ => unless (narrowing TSize x) (Elements (repeat (dflt T) (count (m_type x) (m_value x))))
                  | _ => DoesNotCompile
                  end
         | [n; x] => match resolve (array_candidates conv gen T (m_type n) (m_type x)) with
                     | Chosen AFill => unless (narrowing TSize n || narrowing T x) (Elements (repeat (value_as T x) (count (m_type n) (m_value n))))
                     | Chosen AGenerate =>
                         unless (narrowing TSize n) (Elements (map (generated (m_type x) T (m_value x)) (seq 0 (count (m_type n) (m_value n)))))
                     | _ => DoesNotCompile
                     end
         | _ => DoesNotCompile
         end.

  (** Set: set(initializer_list<T>), inherited, and container.hpp:167-168 the template for InitializerList<TT>, whose TT is deduced if all
      members have the same type; a list converts as its worst member does [over.ics.list].  Other constructors take comparisons or iterators *)
  Inductive set_ctor := SList | SListOf.
  Definition rank_max (a b : rank) : rank := if rank_num a <=? rank_num b then b else a.
  Fixpoint list_rank (T : ty) (xs : list member) : option rank :=
    match xs with
    | [] => Some Identity
    | x :: xs' => match implicit conv (m_type x) T, list_rank T xs' with Some r, Some q => Some (rank_max r q) | _, _ => None end
    end.
  Definition common_type (xs : list member) : option ty :=
    match xs with
    | [] => None
    | x :: xs' => if forallb (fun y => ty_eqb (m_type y) (m_type x)) xs' then Some (m_type x) else None
    end.
  Definition set_init (T : ty) (xs : list member) : made V :=
    match resolve (viable SList false [list_rank T xs] ++
                   match common_type xs with
                   | Some TT => viable SListOf true [option_map (fun _ => Identity) (implicit conv TT T)]
                   | None => []
                   end) with
    | Chosen SList => match from_list T xs with Elements l => Elements (set_of_list ltb l) | DoesNotCompile => DoesNotCompile end
    | Chosen SListOf => Elements (set_of_list ltb (map (value_as T) xs))
    | _ => DoesNotCompile
    end.

  (** LinkedList has no constructor from an initializer_list: container.hpp:143 LinkedList(), 144 LinkedList(unsigned int), 145 and 149 as in
      OverModel.v *)
  Definition linked_init (T : ty) (xs : list member) : made V :=
    match xs with
    | [] => Elements []
    | [x] => match resolve (viable tt false [implicit conv (m_type x) TUInt]) with
             | Chosen _ => unless (narrowing TUInt x) (Elements (repeat (dflt T) (count (m_type x) (m_value x))))
             | _ => DoesNotCompile
             end
    | [n; x] => linked_fill conv cast count T (m_type n) (m_type x) (m_value n) (m_value x)
    | _ => DoesNotCompile
    end.
End Init.
Arguments member : clear implicits.
Arguments mkMember {V} m_type m_value m_const.
Arguments m_type {V} m.
Arguments m_value {V} m.
Arguments m_const {V} m.
