(** ConvModel.v -- implicit conversions between strings, vectors, lists and sets, and Set::contains and Set::remove of arguments that are such:
    include/container.hpp:80-87 (constructors of List), 163-174 (constructors of Set), 176-177, 189-196, 201-204, include/string.hpp:42-47.
    Definitions only.

    - Types are a number, std::string, String, and std::vector, List, std::set and Set of such types.  List<t> is derived from std::vector<t>,
      Set<t> from std::set<t>, String from std::string; an argument is a variable whose object has just its type.
    - A value is a number or the sequence of the elements, in order for a set; the elements are compared as by std::less.
    - Overload resolution is that of OverModel.v; a conversion to a base class has the rank Conversion.
    - Not modelled: arguments that are the set itself (SetModel.v), braced lists (BraceModel.v). *)
From Verif Require Import Base StdOrd SetModel OverModel.

Inductive ctype := Num | StdString | HString | StdVector (t : ctype) | HList (t : ctype) | StdSet (t : ctype) | HSet (t : ctype).
Inductive val := VNum (z : Z) | VSeq (l : list val).
Definition items (v : val) : list val := match v with VSeq l => l | VNum _ => [] end.

(** ** std::less *)
Fixpoint val_cmp (a b : val) : comparison :=
  match a, b with
  | VNum x, VNum y => Z.compare x y
  | VNum _, VSeq _ => Lt
  | VSeq _, VNum _ => Gt
  | VSeq l, VSeq m =>
      (fix go l m := match l, m with
                     | [], [] => Eq
                     | [], _ => Lt
                     | _, [] => Gt
                     | x :: l', y :: m' => match val_cmp x y with Eq => go l' m' | c => c end
                     end) l m
  end.
Definition val_ltb (a b : val) : bool := match val_cmp a b with Lt => true | _ => false end.

(** ** conversions *)
Fixpoint ctype_eqb (a b : ctype) : bool :=
  match a, b with
  | Num, Num | StdString, StdString | HString, HString => true
  | StdVector a, StdVector b | HList a, HList b | StdSet a, StdSet b | HSet a, HSet b => ctype_eqb a b
  | _, _ => false
  end.
(** D is derived from B *)
Definition derived (D B : ctype) : bool :=
  match D, B with
  | HString, StdString => true
  | HList a, StdVector b | HSet a, StdSet b => ctype_eqb a b
  | _, _ => false
  end.
(** to a const T& that is bound to the argument itself *)
Definition bound (X T : ctype) : option rank :=
  if ctype_eqb X T then Some Identity else if derived X T then Some Conversion else None.
(** to const std::vector<TT>& and const std::set<TT>&, with TT *)
Definition as_vector (X : ctype) : option (ctype * rank) :=
  match X with StdVector u => Some (u, Identity) | HList u => Some (u, Conversion) | _ => None end.
Definition as_set (X : ctype) : option (ctype * rank) :=
  match X with StdSet u => Some (u, Identity) | HSet u => Some (u, Conversion) | _ => None end.

(** 82 List(std::vector<T> const&), 84-85 List(const std::vector<TT>&), 83 List(T const&) *)
Inductive list_from := FromVector | FromVectorOf | FromItem.
Fixpoint conv (T X : ctype) {struct T} : option (rank * (val -> val)) :=
  match bound X T with
  | Some r => Some (r, fun v => v)
  | None =>
      match T with
      | HString => match X with StdString => Some (UserDefined, fun v => v) | _ => None end            (* string.hpp:45 *)
      | HList t =>
          let each := match as_vector X with Some (u, r) => match conv t u with Some (_, f) => Some (r, f) | None => None end | None => None end in
          match resolve (viable FromVector false [bound X (StdVector t)] ++ viable FromVectorOf true [option_map fst each] ++
                         viable FromItem false [bound X t]), each with
          | Chosen FromVector, _ => Some (UserDefined, fun v => v)
          | Chosen FromVectorOf, Some (_, f) => Some (UserDefined, fun v => VSeq (map f (items v)))
          | Chosen FromItem, _ => Some (UserDefined, fun v => VSeq [v])
          | _, _ => None
          end
      | HSet t =>                                                                                      (* 169-172 *)
          match (match as_vector X with Some p => Some p | None => as_set X end) with
          | Some (u, _) => match conv t u with Some (_, f) => Some (UserDefined, fun v => VSeq (set_of_list val_ltb (map f (items v)))) | None => None end
          | None => None
          end
      | Num | StdString | StdVector _ | StdSet _ => None
      end
  end.
(** "T t=x;" for an x of type X; None: does not compile *)
Definition convert (T X : ctype) (x : val) : option val := match conv T X with Some (_, f) => Some (f x) | None => None end.

(** ** Set<T> *)
(** 176-177 s.contains(x), for an s with elements l *)
Definition contains_arg (T X : ctype) (x : val) (l : list val) : option bool :=
  match convert T X x with Some t => Some (contains val_ltb l t) | None => None end.

Inductive removed := Left (l : list val) | Undefined | DoesNotCompile.
(** 203 static_cast<const T&>( *iter): to a class derived from that of the item it is a claim that the item is of that class *)
Definition remove_items (T u : ctype) (xs l : list val) : removed :=
  if derived T u then match xs with [] => Left l | _ => Undefined end
  else match conv T u with Some (_, f) => Left (remove_list val_ltb (map f xs) l) | None => DoesNotCompile end.
(** 189-192, 193-196, 201-204: s.remove(x) *)
Inductive overload := One | Container | Items.
Definition remove_arg (T X : ctype) (x : val) (l : list val) : removed :=
  match resolve (viable One false [option_map fst (conv T X)] ++ viable Container false [bound X (StdSet T)] ++
                 viable Items true [option_map snd (as_vector X)]) with
  | Chosen One => match convert T X x with Some t => Left (remove_elem val_ltb t l) | None => DoesNotCompile end
  | Chosen Container => match member_remove val_ltb (other_arg (items x)) l with Some l' => Left l' | None => Undefined end
  | Chosen Items => match as_vector X with Some (u, _) => remove_items T u (items x) l | None => DoesNotCompile end
  | Ambiguous | NoneViable => DoesNotCompile
  end.
