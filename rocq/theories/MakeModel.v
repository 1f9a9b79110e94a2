(** MakeModel.v -- which overload the calls make_array(s), make_list(s) (include/container.hpp:318-325), Map::insert
    (256, 269-272, with the overloads of std::map::insert brought in by line 256) and apply (106-110) choose.
    Definitions only; the language rules are those of OverModel.v.

    - Only the outermost class of an argument matters, so values are numbers, which stand for everything that is not a
      sequence, and sequences of some class. *)
From Verif Require Import Base OverModel.

(** ** make_array and make_list *)
Inductive kind := KVector | KList | KArray | KSharedArray | KStdSet | KSet | KStdList | KLinked.
Inductive value := Num (z : Z) | Seq (k : kind) (l : list value).
Definition kind_eqb (a b : kind) : bool :=
  match a, b with
  | KVector, KVector | KList, KList | KArray, KArray | KSharedArray, KSharedArray | KStdSet, KStdSet | KSet, KSet
  | KStdList, KStdList | KLinked, KLinked => true
  | _, _ => false
  end.
(** container.hpp:71 List, 161 Set, 137 LinkedList *)
Definition base_of (k : kind) : option kind :=
  match k with KList => Some KVector | KSet => Some KStdSet | KLinked => Some KStdList | _ => None end.

(** the parameters of the overloads: const T&, or a reference to a class template of T *)
Inductive param := PAny | PClass (k : kind).
(** deduction of T, and the rank of binding the reference: a base class binds by a derived-to-base conversion *)
Definition deduce (p : param) (v : value) : option rank :=
  match p with
  | PAny => Some Identity
  | PClass k =>
      match v with
      | Num _ => None
      | Seq k' _ =>
          if kind_eqb k' k then Some Identity
          else match base_of k' with Some b => if kind_eqb b k then Some Conversion else None | None => None end
      end
  end.
(** const T& is less specialised than all the others; this is asked only if the conversions are equally good, so it takes the
    place of "is a template" in OverModel.better *)
Definition overloads (ps : list param) (v : value) : choice param :=
  resolve (flat_map (fun p => viable p (match p with PAny => true | _ => false end) [deduce p v]) ps).

Inductive result := Made (v : value) | NoCompile.
Definition elements (v : value) : list value := match v with Seq _ l => l | Num _ => [v] end.

(** container.hpp:318-320 *)
Definition make_array (v : value) : result :=
  match overloads [PAny; PClass KVector; PClass KArray] v with
  | Chosen PAny => Made (Seq KArray [v])
  | Chosen (PClass _) => Made (Seq KArray (elements v))
  | _ => NoCompile
  end.
(** container.hpp:322-325; the body List<T>(ary) of line 324 has no constructor to call *)
Definition make_list (v : value) : result :=
  match overloads [PAny; PClass KVector; PClass KArray; PClass KSet] v with
  | Chosen PAny => Made (Seq KList [v])
  | Chosen (PClass KArray) => NoCompile
  | Chosen (PClass _) => Made (Seq KList (elements v))
  | _ => NoCompile
  end.

(** ** Map<K,T>::insert *)
Section Insert.
  Context (conv : ty -> ty -> bool) {V : Type} (cast : ty -> ty -> V -> V).
  (** the pair that is inserted if its key is absent *)
  Inductive inserted := Inserted (k v : V) | InsertFails.
  (** m.insert(k,v): container.hpp:271-272 insert(const K&, const T&); std::map's template insert(InputIterator, InputIterator),
      whose body does not compile for types that are not iterators *)
  Inductive insert_fn := IKeyValue | IRange | IPair | IValue | IValueMove.
  Definition insert_two (K T A B : ty) (k v : V) : inserted :=
    match resolve (viable IKeyValue false [implicit conv A K; implicit conv B T] ++
                   (if ty_eqb A B then viable IRange true [Some Identity; Some Identity] else [])) with
    | Chosen IKeyValue => Inserted (cast A K k) (cast B T v)
    | _ => InsertFails
    end.
  (** m.insert({k,v}): container.hpp:269-270 insert(const std::pair<K,T>&); std::map's insert(const value_type&) and
      insert(value_type&&), where value_type is std::pair<const K,T>; all convert by constructors *)
  Definition pair_rank (K T A B : ty) : option rank :=
    match implicit conv A K, implicit conv B T with Some _, Some _ => Some UserDefined | _, _ => None end.
  Definition insert_braces (K T A B : ty) (k v : V) : inserted :=
    match resolve (viable IPair false [pair_rank K T A B] ++ viable IValue false [pair_rank K T A B] ++
                   viable IValueMove false [pair_rank K T A B]) with
    | Chosen _ => Inserted (cast A K k) (cast B T v)
    | _ => InsertFails
    end.
End Insert.
Arguments inserted : clear implicits.

(** ** the call apply(f,l) of a client that does not write Helper::apply *)
(** l is a const object, another named object, or a temporary *)
Inductive category := ConstObject | Object | Temporary.
Inductive apply_fn := HelperApply | StdApply.
(** how the references bind: Tuple&& of std::apply(F&&, Tuple&&) binds to what l is; List<T> const& adds const, or binds a
    temporary to an lvalue reference, which is worse *)
Definition binds_worse (c : category) : bool := match c with ConstObject => false | Object | Temporary => true end.
(** std::apply is found because std::vector is a base of List, unless Helper::apply is written ([qualified]).  The worse
    binding counts as a promotion, as only the order of ranks matters; if the references bind equally well, then List<T>
    const& is more specialised *)
Definition apply_choice (qualified : bool) (c : category) : choice apply_fn :=
  resolve (viable HelperApply false [Some Identity; Some (if binds_worse c then Promotion else Identity)] ++
           (if qualified then [] else viable StdApply true [Some Identity; Some Identity])).
(** the body of std::apply asks for the tuple_size of l, which does not compile *)
Definition apply_call {A B} (f : A -> B) (qualified : bool) (c : category) (l : list A) : option (list B) :=
  match apply_choice qualified c with Chosen HelperApply => Some (map f l) | _ => None end.
