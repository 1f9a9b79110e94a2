(** ResultSpec.v -- types of arguments that a function type keeps. *)
From Verif Require Import Base ResultModel.
Open Scope list_scope.

(** an object type without const, a pointer or a reference *)
Definition kept (t : ty) : Prop := match t with TName _ | TLref _ | TRref _ | TPtr _ => True | _ => False end.
(** the callee is an object, a pointer or a reference *)
Definition callee_kept (t : ty) : Prop := match t with TArray _ _ | TFunction _ _ => False | _ => True end.
(** no const of const, no const reference, array or function: such types are written otherwise *)
Definition plain_const (t : ty) : Prop := match t with TConst (TName _) | TConst (TPtr _) => True | _ => False end.
