(** CastModel.v -- which function a call of dynamic_handle_cast<D>(h) or dynamic_handle_extract<T>(h) chooses, include/handle.hpp:51-52,
    113-116, 129-169, and whether the program can be built.  Definitions only.

    - h is a variable, a const variable or a temporary, of type Handle<I>, Handle<const I> or a class derived from one of these.
    - [over.match.best]: a function is better if its parameter needs no conversion to a base class where the other's does; if
      neither or both do, if its parameter is a reference to a type with less const; if still equal, and both are templates,
      if it is more specialised.
    - A function that is declared but not defined lets the program compile, but not link. *)
From Verif Require Import Base.

(** ** handles as arguments *)
Record handle_type := mkHT {
  ht_derived : bool;        (* a class derived from Handle<..> *)
  ht_const : bool           (* Handle<const I>, or derived from that *)
}.
Inductive category := Variable_ | ConstVariable | Temporary.

(** ** functions *)
(** types of the parameter *)
Inductive param :=
| ToHandle                  (* Handle<I>& *)
| ToConstHandle             (* const Handle<I>& *)
| ToConstHandleConst        (* const Handle<const I>& *)
| ToAny.                    (* B const& *)
Record fn := mkFn { f_line : nat; f_param : param; f_defined : bool }.

(** 51, 52, 129; and the functions declared as friends, 115, 116, which are found if the name is not qualified *)
Definition cast_51 := mkFn 51 ToConstHandle false.
Definition cast_52 := mkFn 52 ToHandle false.
Definition cast_115 := mkFn 115 ToHandle false.
Definition cast_116 := mkFn 116 ToConstHandle false.
Definition cast_129 := mkFn 129 ToAny true.
Definition cast_functions (qualified : bool) : list fn :=
  [cast_51; cast_52; cast_129] ++ (if qualified then [] else [cast_115; cast_116]).
(** 145, 156 and 160; the friends 114 and 113 are the latter two *)
Definition extract_145 := mkFn 145 ToConstHandleConst true.
Definition extract_156 := mkFn 156 ToConstHandle true.
Definition extract_160 := mkFn 160 ToHandle true.
Definition extract_functions : list fn := [extract_145; extract_156; extract_160].

(** ** overload resolution *)
Definition adds_const (p : param) (c : category) : bool :=
  match p, c with ToHandle, _ => false | _, Variable_ => true | _, _ => false end.
Definition viable (f : fn) (t : handle_type) (c : category) : bool :=
  match f_param f, c with
  | ToHandle, Variable_ => true
  | ToHandle, _ => false
  | ToConstHandleConst, _ => ht_const t
  | _, _ => true
  end.
Definition to_base (f : fn) (t : handle_type) : bool := match f_param f with ToAny => false | _ => ht_derived t end.
Definition more_special (p q : param) : bool :=
  match p, q with
  | ToConstHandleConst, (ToConstHandle | ToAny) => true
  | (ToConstHandle | ToHandle), ToAny => true
  | _, _ => false
  end.
Definition better (t : handle_type) (c : category) (f g : fn) : bool :=
  match to_base f t, to_base g t with
  | false, true => true
  | true, false => false
  | _, _ =>
      match adds_const (f_param f) c, adds_const (f_param g) c with
      | false, true => true
      | true, false => false
      | _, _ => more_special (f_param f) (f_param g)
      end
  end.
Inductive resolved := Chosen (f : fn) | Ambiguous | NoneViable.
Fixpoint resolve_from (t : handle_type) (c : category) (before after : list fn) : resolved :=
  match after with
  | [] => match before with [] => NoneViable | _ => Ambiguous end
  | f :: rest => if forallb (better t c f) (before ++ rest) then Chosen f else resolve_from t c (before ++ [f]) rest
  end.
Definition resolve (t : handle_type) (c : category) (fs : list fn) : resolved :=
  resolve_from t c [] (filter (fun f => viable f t c) fs).

(** ** building a call *)
Inductive built := Builds (f : fn) | DoesNotCompile | DoesNotLink.
(** 129-143 for D with D::Interface = DI, [dconst] if DI is a const type; [takes] if D can be made from a Handle<const DI>.  The
    second branch of [if constexpr] is taken, since managed_pointer() const returns a const shared_ptr; line 137 makes D from a
    Handle<const DI>: the constructor 82 of Handle<DI> converts a shared_ptr<const DI> to a shared_ptr<DI> *)
Definition body_129_compiles (dconst takes : bool) : bool := takes && dconst.
Definition build_cast (qualified : bool) (t : handle_type) (c : category) (dconst takes : bool) : built :=
  match resolve t c (cast_functions qualified) with
  | Chosen f =>
      if f_defined f then (if body_129_compiles dconst takes then Builds f else DoesNotCompile) else DoesNotLink
  | _ => DoesNotCompile
  end.
Definition build_extract (t : handle_type) (c : category) : built :=
  match resolve t c extract_functions with
  | Chosen f => if f_defined f then Builds f else DoesNotLink
  | _ => DoesNotCompile
  end.
(** 160 returns T&, 145 and 156 const T& *)
Definition returns_const (f : fn) : bool := match f_param f with ToHandle => false | _ => true end.
(** the argument of the call of dynamic_handle_extract in the body of a function: 157 makes a temporary Handle<const I>, the others
    call nothing *)
Definition inner_argument (f : fn) : option (handle_type * category) :=
  if f_line f =? 156 then Some (mkHT false true, Temporary) else None.
Definition inner_call (f : fn) : option built :=
  match inner_argument f with Some (t, c) => Some (build_extract t c) | None => None end.
(** the functions that run, one inside the other; [NotBuilt] if a call in one of them cannot be built, [Endless] if there are more
    than [fuel] *)
Inductive calls := Ends (fs : list fn) | NotBuilt | Endless.
Fixpoint run_extract (fuel : nat) (t : handle_type) (c : category) : calls :=
  match fuel with
  | O => Endless
  | S fuel =>
      match build_extract t c with
      | Builds f =>
          match inner_argument f with
          | None => Ends [f]
          | Some (t', c') => match run_extract fuel t' c' with Ends fs => Ends (f :: fs) | r => r end
          end
      | _ => NotBuilt
      end
  end.
