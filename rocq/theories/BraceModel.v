(** BraceModel.v -- which overload a call with a braced list chooses, in the setting of OverModel.v: append, concatenate and
    catenate of List (include/container.hpp:88-105), adjoin, subset, disjoint and remove of Set (178-204).
    Definitions only.

    - The members of the braces have the types of OverModel.v: numbers and objects of classes other than lists, sets and
      iterators.  They are not constant expressions.
    - [over.ics.list]: braces convert to a number if they are empty, with rank identity, or hold one value, with the rank of
      that; to a class by one of its constructors, which is a user-defined conversion unless the braces hold one value
      of that class.  A braced list deduces no template parameter, so 201-204 remove(const std::vector<TT>&) is not viable.
    - [brace_conv T Xs]: some constructor of the class T takes members of types Xs, or T is an aggregate of such members. *)
From Verif Require Import Base StdOrd SetModel OverModel.

Section Brace.
  Context (conv : ty -> ty -> bool) (brace_conv : ty -> list ty -> bool)
          {V : Type} (ltb : V -> V -> bool)
          (cast : ty -> ty -> V -> V)                 (* cast X T v: the value v of type X converted to T *)
          (dflt : ty -> V)                            (* T{} for a number *)
          (build : ty -> list V -> V)                 (* the object of class T made from the members *)
          (count : ty -> V -> nat).                   (* the number of elements that a value of type X means *)
  Notation args := (list (ty * V)).

  Inductive called (A : Type) := Runs (a : A) | Rejected.
  Arguments Runs {A} a.
  Arguments Rejected {A}.

  (** the conversion of braces to T *)
  Definition brace_rank (T : ty) (xs : args) : option rank :=
    if is_class T then
      match xs with
      | [(X, _)] => if ty_eqb X T then Some Identity else if brace_conv T [X] then Some UserDefined else None
      | _ => if brace_conv T (map fst xs) then Some UserDefined else None
      end
    else match xs with [] => Some Identity | [(X, _)] => implicit conv X T | _ => None end.
  Definition brace_value (T : ty) (xs : args) : called V :=
    match xs with
    | [] => Runs (if is_class T then build T [] else dflt T)
    | [(X, x)] => if is_class T && negb (ty_eqb X T) then Runs (build T [x])
                  else if narrows X T then Rejected else Runs (cast X T x)
    | _ => Runs (build T (map snd xs))
    end.

  (** the conversion to std::vector<T>: vector(), vector(initializer_list<T>), otherwise vector(size_type, const T&) *)
  Definition all_convert (T : ty) (xs : args) : bool :=
    forallb (fun p => match implicit conv (fst p) T with Some _ => true | None => false end) xs.
  Definition vector_rank (T : ty) (xs : args) : option rank :=
    if all_convert T xs then Some UserDefined
    else match xs with
         | [(A, _); (X, _)] =>
             match implicit conv A TSize, implicit conv X T with Some _, Some _ => Some UserDefined | _, _ => None end
         | _ => None
         end.
  Definition converted (T : ty) (xs : args) : called (list V) :=
    if existsb (fun p => narrows (fst p) T) xs then Rejected else Runs (map (fun p => cast (fst p) T (snd p)) xs).
  Definition vector_value (T : ty) (xs : args) : called (list V) :=
    if all_convert T xs then converted T xs
    else match xs with
         | [(A, n); (X, x)] => if narrows A TSize then Rejected else Runs (repeat (cast X T x) (count A n))
         | _ => Rejected
         end.
  (** the conversion to std::set<T>: set(), set(initializer_list<T>) *)
  Definition set_rank (T : ty) (xs : args) : option rank := if all_convert T xs then Some UserDefined else None.
  Definition set_value (T : ty) (xs : args) : called (list V) :=
    match converted T xs with Runs l => Runs (set_of_list ltb l) | Rejected => Rejected end.

  Inductive overload := One | Sequence | Container.
  Definition then_ {A B} (c : called A) (k : A -> called B) : called B := match c with Runs a => k a | Rejected => Rejected end.

  (** 88 append(const T&), 89-90 append(const std::vector<T>&); and 94-105 catenate(l,{..}), with T deduced from l: const List<T>&,
      const T& *)
  Definition append_braces (T : ty) (xs : args) (l : list V) : called (list V) :=
    match resolve (viable One false [brace_rank T xs] ++ viable Sequence false [vector_rank T xs]) with
    | Chosen One => then_ (brace_value T xs) (fun t => Runs (l ++ [t]))
    | Chosen _ => then_ (vector_value T xs) (fun ts => Runs (l ++ ts))
    | _ => Rejected
    end.
  (** 91-92 *)
  Definition concatenate_braces (T : ty) (xs : args) (l : list V) : called (list V) :=
    match resolve (viable Sequence false [vector_rank T xs]) with
    | Chosen _ => then_ (vector_value T xs) (fun ts => Runs (l ++ ts))
    | _ => Rejected
    end.
  (** 189-192, 193-196, and 201-204, which is not viable; [None] would be a loop without end *)
  Definition remove_braces (T : ty) (xs : args) (l : list V) : called (option (list V)) :=
    match resolve (viable One false [brace_rank T xs] ++ viable Container false [set_rank T xs]) with
    | Chosen One => then_ (brace_value T xs) (fun t => Runs (Some (remove_elem ltb t l)))
    | Chosen _ => then_ (set_value T xs) (fun s => Runs (member_remove ltb (other_arg s) l))
    | _ => Rejected
    end.
  (** 187-188 *)
  Definition adjoin_braces (T : ty) (xs : args) (l : list V) : called (option (list V)) :=
    match resolve (viable Container false [set_rank T xs]) with
    | Chosen _ => then_ (set_value T xs) (fun s => Runs (adjoin ltb (other_arg s) l))
    | _ => Rejected
    end.
  (** 178-180 *)
  Definition subset_braces (T : ty) (xs : args) (l : list V) : called bool :=
    match resolve (viable Container false [set_rank T xs]) with
    | Chosen _ => then_ (set_value T xs) (fun s => Runs (member_subset ltb l s))
    | _ => Rejected
    end.
  (** 181-183 disjoint(const std::set<T>&), 184-186 disjoint(const std::vector<T>&); and 216-221, the functions that are no members *)
  Definition disjoint_braces (T : ty) (xs : args) (l : list V) : called bool :=
    match resolve (viable Container false [set_rank T xs] ++ viable Sequence false [vector_rank T xs]) with
    | Chosen Container => then_ (set_value T xs) (fun s => Runs (member_disjoint ltb l s))
    | Chosen _ => then_ (vector_value T xs) (fun s => Runs (member_disjoint ltb l s))
    | _ => Rejected
    end.
End Brace.
Arguments called : clear implicits.
Arguments Runs {A} a.
Arguments Rejected {A}.
