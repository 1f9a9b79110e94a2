(** CanSpec.v -- what C156 says.  Definitions only. *)
From Verif Require Import Base CanModel.

(** a parameter that does not distinguish lvalues from xvalues *)
Definition indifferent (p : param) : bool := match p with PVal | PCRef => true | _ => false end.
Definition indifferent_op (c : cand) : bool := indifferent (fst c) && indifferent (snd c).
(** an object of the type can be made, and from another as well if that is to be kept as if not *)
Definition ordinary (t : optype) : Prop := is_abstract t = false /\ from_lvalue t = from_xvalue t.

(** Overload resolution by the rules of the language, for operands that are both lvalues or both xvalues; no function of CanModel.v is used. *)
Inductive takes (t : optype) : bool -> param -> Prop :=
| takes_value : forall lv, takes t lv PVal
| takes_const : forall lv, takes t lv PCRef                                             (* any reference to const binds to anything *)
| takes_lvalue : is_const t = false -> takes t true PRef
| takes_xvalue : is_const t = false -> takes t false PRv
| takes_const_xvalue : takes t false PCRv.
(** the first parameter is the better one ([over.ics.rank] 3.2.3 and 3.2.6); a value is as good as any reference *)
Inductive closer : bool -> param -> param -> Prop :=
| closer_less_const : closer true PRef PCRef
| closer_rvalue : forall p, In p [PRv; PCRv] -> closer false p PCRef
| closer_less_const_rvalue : closer false PRv PCRv.
(** [over.match.best]: not worse for any operand, and better for one *)
Definition beats (lv : bool) (c d : cand) : Prop :=
  ~ closer lv (fst d) (fst c) /\ ~ closer lv (snd d) (snd c) /\ (closer lv (fst c) (fst d) \/ closer lv (snd c) (snd d)).
Definition viable (lv : bool) (t1 t2 : optype) (c : cand) : Prop := takes t1 lv (fst c) /\ takes t2 lv (snd c).
Definition chosen (lv : bool) (t1 t2 : optype) (ops : list cand) (c : cand) : Prop :=
  In c ops /\ viable lv t1 t2 c /\ forall d, In d ops -> viable lv t1 t2 d -> d = c \/ beats lv c d.
(** a parameter that is a value has to be made from the operand *)
Inductive passes (t : optype) : bool -> param -> Prop :=
| passes_copy : from_lvalue t = true -> passes t true PVal
| passes_move : from_xvalue t = true -> passes t false PVal
| passes_ref : forall lv p, p <> PVal -> passes t lv p.
Definition well_formed (lv : bool) (t1 t2 : optype) (ops : list cand) : Prop :=
  exists c, chosen lv t1 t2 ops c /\ passes t1 lv (fst c) /\ passes t2 lv (snd c).
