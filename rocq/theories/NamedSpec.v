(** NamedSpec.v -- the class whose test a check is part of, and when it is named. *)
From Verif Require Import Base StreamModel NamedModel.
Open Scope list_scope.

(** the innermost test of a class around the check; the checks that are run do not depend on names *)
Section Seq.
  Variable blame : text -> step -> ending * list note.
  Fixpoint blame_list (class : text) (l : list step) : ending * list note :=
    match l with
    | [] => (Done, [])
    | s :: l' => match blame class s with
                 | (Done, out) => match blame_list class l' with (e, out') => (e, out ++ out') end
                 | r => r
                 end
    end.
End Seq.
Fixpoint blame (class : text) (s : step) : ending * list note :=
  match s with
  | Check what holds => (Done, if holds then [] else [(class, what)])
  | TestClass name test => blame_list blame name test
  | CallStd f => match blame_list blame class f with (Std, out) => (Done, out) | r => r end
  | TryAny f => (Done, snd (blame_list blame class f))
  | ThrowStd => (Std, [])
  | ThrowOther => (Other, [])
  end.
Definition blames (p : list step) : list note := snd (blame_list blame no_class p).

(** there is a test of a class in it; there is a check in it, outside of tests of other classes *)
Fixpoint has_class (s : step) : bool :=
  match s with TestClass _ _ => true | CallStd f | TryAny f => existsb has_class f | _ => false end.
Fixpoint has_check (s : step) : bool :=
  match s with Check _ _ => true | CallStd f | TryAny f => existsb has_check f | _ => false end.
(** no check after a test of another class in the same test *)
Section Tidy.
  Variable tidy : step -> bool.
  Fixpoint tidy_list (l : list step) : bool :=
    match l with
    | [] => true
    | s :: l' => tidy s && tidy_list l' && (negb (has_class s) || negb (existsb has_check l'))
    end.
End Tidy.
Fixpoint tidy (s : step) : bool :=
  match s with TestClass _ f | CallStd f | TryAny f => tidy_list tidy f | _ => true end.
(** the names of the classes tested, in the order in which their tests begin, ends and exceptions aside *)
Fixpoint last_class (current : text) (s : step) : text :=
  match s with
  | TestClass name f => fold_left last_class f name
  | CallStd f | TryAny f => fold_left last_class f current
  | _ => current
  end.
Fixpoint throws (s : step) : bool :=
  match s with TestClass _ f | CallStd f | TryAny f => existsb throws f | ThrowStd | ThrowOther => true | Check _ _ => false end.
