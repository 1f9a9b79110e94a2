(** InitSpec.v -- what the client expects of a container made from braces: the members, and nothing lost. *)
From Verif Require Import Base StdOrd SetSpec OverModel InitModel.

Section Init.
  Context (conv : ty -> ty -> bool) {V : Type} (ltb : V -> V -> bool) (cast : ty -> ty -> V -> V) (fits : ty -> ty -> V -> bool).
  (** every member converts to T *)
  Definition convertible (T : ty) (xs : list (member V)) : Prop := forall x, In x xs -> implicit conv (m_type x) T <> None.
  (** and none loses anything by that *)
  Definition safe (T : ty) (x : member V) : Prop :=
    narrows (m_type x) T = false \/
    m_const x = true /\ fits (m_type x) T (m_value x) = true /\ (is_float (m_type x) = true -> is_float T = true).
  Definition lossless (T : ty) (xs : list (member V)) : Prop := forall x, In x xs -> safe T x.
  (** all have the type X *)
  Definition all_of (X : ty) (xs : list (member V)) : Prop := xs <> [] /\ forall x, In x xs -> m_type x = X.
  (** the elements of a sequence made from the braces *)
  Definition members (T : ty) (xs : list (member V)) : list V := map (fun x => cast (m_type x) T (m_value x)) xs.
  (** the elements of a set: in order, each is one of the members, and each member is there, up to equivalence *)
  Definition set_of_members (T : ty) (xs : list (member V)) (l : list V) : Prop :=
    increasing ltb l /\ (forall a, In a l -> In a (members T xs)) /\ forall a, In a (members T xs) -> exists b, In b l /\ eqvb ltb b a = true.
End Init.
