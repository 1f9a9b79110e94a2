(** PrintSpec.v -- independent description of the types that print: which types occur in a type, and which containers may
    stand inside which.  It does not mention the lookup rules of PrintModel.v. *)
From Verif Require Import Base PrintModel.

Definition components (t : pty) : list pty :=
  match t with
  | PNum | POwn _ => []
  | PArray e | PSharedArray e | PVector e | PList e | PStdList e | PLinked e | PStdSet e | PSet e => [e]
  | PStdMap k e | PMap k e | PPair k e => [k; e]
  | PTuple ts => ts
  end.
Inductive occurs : pty -> pty -> Prop :=
| occurs_self : forall t, occurs t t
| occurs_in : forall s u t, In u (components t) -> occurs s u -> occurs s t.

(** a class of Helper, other than an alias of a standard class *)
Definition helper_class (t : pty) : Prop :=
  match t with
  | POwn true | PArray _ | PSharedArray _ | PList _ | PLinked _ | PSet _ | PMap _ _ => True
  | _ => False
  end.
Definition mentions_helper (t : pty) : Prop := exists s, occurs s t /\ helper_class s.
(** a container of the standard library, not the class of Helper derived from it *)
Definition std_container (t : pty) : Prop :=
  match t with PVector _ | PStdList _ | PStdSet _ | PStdMap _ _ => True | _ => False end.
(** the standard container s may stand directly inside p *)
Definition may_hold (p s : pty) : Prop :=
  match p, s with
  | (PVector _ | PList _), PVector _ => True
  | (PStdSet _ | PSet _), (PVector _ | PStdList _ | PStdSet _) => True
  | (PStdMap _ _ | PMap _ _), _ => True
  | _, _ => False
  end.
