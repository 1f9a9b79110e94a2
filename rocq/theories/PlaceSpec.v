(** PlaceSpec.v -- what the client means, and where a macro may stand. *)
From Verif Require Import Base ArgsModel PlaceModel.
From Coq Require Import String.
Open Scope list_scope.
Open Scope nat_scope.

(** a macro stands for all of its statements *)
Fixpoint meaning (v : nat -> bool) (p : client) : list string :=
  match p with
  | CPlain s => [s]
  | CMacro k _ => match replacement k with Some l => flat_map (trace v) l | None => [] end
  | CBlock l => flat_map (meaning v) l
  | CIf c t e => if v c then meaning v t else match e with Some e => meaning v e | None => [] end
  end.
(** it is one statement *)
Definition single (k : called) : bool := match replacement k with Some [_] => true | _ => false end.

(** the last thing read of a statement is a macro with its own semicolon *)
Fixpoint ends_in_macro (p : client) : bool :=
  match p with
  | CMacro _ semi => semi
  | CIf _ t None => ends_in_macro t
  | CIf _ _ (Some e) => ends_in_macro e
  | _ => false
  end.
(** or an if without else *)
Fixpoint ends_in_if (p : client) : bool :=
  match p with
  | CIf _ _ None => true
  | CIf _ _ (Some e) => ends_in_if e
  | _ => false
  end.
(** [branch]: under an if, without braces *)
Fixpoint well_placed (branch : bool) (p : client) : bool :=
  match p with
  | CPlain _ => true
  | CMacro k _ => if branch then single k else match replacement k with Some _ => true | None => false end
  | CBlock l => forallb (well_placed false) l
  | CIf _ t e =>
      well_placed true t &&
      match e with Some e => negb (ends_in_macro t) && negb (ends_in_if t) && well_placed true e | None => true end
  end.
(** the client's function would be correct C++ with calls of functions instead of macros *)
Fixpoint proper (p : client) : bool :=
  match p with
  | CPlain _ => true
  | CMacro k _ => match replacement k with Some _ => true | None => false end
  | CBlock l => forallb proper l
  | CIf _ t e => proper t && match e with Some e => negb (ends_in_if t) && proper e | None => true end
  end.
