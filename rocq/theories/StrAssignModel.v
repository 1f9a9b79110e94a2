(** StrAssignModel.v -- initialisation of, and assignment to, a String (include/string.hpp:42-47) and a std::string.  Definitions only.

    - String inherits the constructors of std::string, except its copy and move constructors, and adds String(std::string const&) and String().
      Its only assignment operators are the implicit ones, which hide those of std::string.
    - Texts are lists of character codes.  A [char const*] points to the beginning of a text that ends in a zero. *)
From Verif Require Import Base.

Definition text := list Z.
(** what is on the right-hand side; String and std::string as lvalues *)
Inductive rhs := AString (t : text) | AStd (t : text) | ACStr (t : text) | ANullptr | AZero | AChr (c : Z) | AInt (z : Z) | AView (t : text) | AList (t : text).
Inductive outcome := Holds (t : text) | Undefined | DoesNotCompile.

(** the overloads of std::string::operator=, and those of String; the constructors have the same parameters, and String one more (45) *)
Inductive overload := SCopy | SMove | SCStr | SChar | SList | SView | TCopy | TMove | TStd.
(** how an argument converts to the parameter of an overload: as it is (or by a qualification), by a standard conversion, by a constructor *)
Inductive conv := Exact | Standard | User.
Definition conv_rank (c : conv) : nat := match c with Exact => 0 | Standard => 1 | User => 2 end.

(** constructors of std::string that are not explicit, inherited by String: from char const*, and from a braced list of characters *)
Definition converting (x : rhs) : bool := match x with ACStr _ | ANullptr | AZero | AList _ => true | _ => false end.
Definition conversion (x : rhs) (o : overload) : option conv :=
  match o with
  | SCopy => match x with AStd _ => Some Exact | AString _ => Some Standard | _ => if converting x then Some User else None end
  | SMove => if converting x then Some User else None                                   (* not for lvalues *)
  | SCStr => match x with ACStr _ => Some Exact | ANullptr | AZero => Some Standard | _ => None end
  | SChar => match x with AChr _ => Some Exact | AInt _ | AZero => Some Standard | _ => None end
  | SList => match x with AList _ => Some Exact | _ => None end
  (* a template, for what converts to string_view and not to char const* *)
  | SView => match x with AView _ | AStd _ | AString _ => Some Exact | _ => None end
  | TCopy => match x with AString _ => Some Exact | AStd _ => Some User | _ => if converting x then Some User else None end
  | TMove => match x with AStd _ => Some User | _ => if converting x then Some User else None end
  | TStd => match x with AStd _ => Some Exact | AString _ => Some Standard | _ => if converting x then Some User else None end
  end.
Definition is_template (o : overload) : bool := match o with SView => true | _ => false end.
(** equally good conversions: a temporary is bound to the rvalue reference rather than to a reference to const; what is not a template is preferred *)
Definition better (cv : overload -> option conv) (o p : overload) : bool :=
  match cv o, cv p with
  | Some a, Some b =>
      (conv_rank a <? conv_rank b) ||
      ((conv_rank a =? conv_rank b) &&
       (match o, p with SMove, SCopy | TMove, TCopy => true | _, _ => false end || (negb (is_template o) && is_template p)))
  | Some _, None => true
  | _, _ => false
  end.
Definition overload_eqb (o p : overload) : bool :=
  match o, p with SCopy, SCopy | SMove, SMove | SCStr, SCStr | SChar, SChar | SList, SList | SView, SView | TCopy, TCopy | TMove, TMove | TStd, TStd => true | _, _ => false end.
Definition select (cv : overload -> option conv) (os : list overload) : option overload :=
  find (fun o => match cv o with Some _ => forallb (fun p => overload_eqb o p || better cv o p) os | None => false end) os.

(** a String or std::string made from the argument; the text a null pointer points to *)
Definition made_from (x : rhs) : outcome :=
  match x with
  | AString t | AStd t | ACStr t | AList t | AView t => Holds t
  | ANullptr | AZero => Undefined
  | AChr _ | AInt _ => DoesNotCompile
  end.
(** a conversion to char *)
Definition to_char (z : Z) : Z := ((z + 128) mod 256 - 128)%Z.
Definition run_overload (x : rhs) (o : overload) : outcome :=
  match o with
  | SChar => match x with AChr c => Holds [c] | AInt z => Holds [to_char z] | AZero => Holds [0%Z] | _ => DoesNotCompile end
  | _ => made_from x
  end.
Definition assign (os : list overload) (x : rhs) : outcome := match select (conversion x) os with Some o => run_overload x o | None => DoesNotCompile end.
(** s = x for a std::string s, and for a String s *)
Definition assign_std : rhs -> outcome := assign [SCopy; SMove; SCStr; SChar; SList; SView].
Definition assign_String : rhs -> outcome := assign [TCopy; TMove].
(** std::string s = x; and String s = x;: a constructor that is not explicit, to whose parameter no constructor converts *)
Definition no_user (x : rhs) (o : overload) : option conv := match conversion x o with Some User => None | c => c end.
Definition init (os : list overload) (x : rhs) : outcome := match select (no_user x) os with Some o => run_overload x o | None => DoesNotCompile end.
Definition init_std : rhs -> outcome := init [SCopy; SMove; SCStr; SList].
Definition init_String : rhs -> outcome := init [TCopy; TMove; TStd; SCStr; SList].
