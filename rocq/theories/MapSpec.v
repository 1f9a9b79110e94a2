(** MapSpec.v -- finite maps as partial functions from keys to entries.  An entry is the stored key
    (the first of its equivalence class to be inserted) with its value. *)
From Verif Require Import Base StdOrd MapModel SetSpec.

Section MapSpec.
  Context {K V : Type} (ltb : K -> K -> bool) (dflt : V).
  Notation eqv := (eqvb ltb).

  Definition fmap := K -> option (K * V).
  Definition fempty : fmap := fun _ => None.
  (** the function changed on the class of [k] *)
  Definition fset (k : K) (e : option (K * V)) (f : fmap) : fmap := fun x => if eqv k x then e else f x.
  (** the value of the class of [k] becomes [v]; the stored key stays *)
  Definition fassign (k : K) (v : V) (f : fmap) : fmap :=
    fset k (Some (match f k with Some e => (fst e, v) | None => (k, v) end)) f.
  (** add, not overwriting *)
  Definition fadd (k : K) (v : V) (f : fmap) : fmap :=
    match f k with Some _ => f | None => fset k (Some (k, v)) f end.
  (** left-biased union, removal and restriction *)
  Definition funion (f g : fmap) : fmap := fun x => match f x with Some e => Some e | None => g x end.
  Definition fremove (s : list K) (f : fmap) : fmap := fun x => if in_list ltb s x then None else f x.
  Definition frestrict (s : list K) (f : fmap) : fmap := fun x => if in_list ltb s x then f x else None.

  Definition lookup_out (k : K) (f : fmap) : mout V :=
    match f k with Some e => OutVal (snd e) | None => OutThrow end.
  Definition fdef (v : V) (k : K) (f : fmap) : V := match f k with Some e => snd e | None => v end.

  Definition spec_mstep (o : mop K V) (p : nat -> fmap) : (nat -> fmap) * mout V :=
    match o with
    | MNew d => (set_var p d fempty, OutUnit)
    | MCopy d s => (set_var p d (p s), OutUnit)
    | MIndexRead d k => (set_var p d (fadd k dflt (p d)), OutVal (fdef dflt k (p d)))
    | MIndexWrite d k v => (set_var p d (fassign k v (p d)), OutUnit)
    | MConstIndex d k => (p, lookup_out k (p d))
    | MGet d k => (p, lookup_out k (p d))
    | MValue d k => (p, lookup_out k (p d))
    | MValueWrite d k v =>
        match p d k with
        | Some _ => (set_var p d (fassign k v (p d)), OutUnit)
        | None => (p, OutThrow)
        end
    | MHasKey d k => (p, OutBool (match p d k with Some _ => true | None => false end))
    | MInsert d k v => (set_var p d (fadd k v (p d)), OutUnit)
    | MFreeInsert d k v => (set_var p d (fadd k v (p d)), OutVal (fdef v k (p d)))
    | MFreeInsertWrite d k v w => (set_var p d (fassign k w (p d)), OutUnit)
    | MAdjoin d s => (set_var p d (funion (p d) (p s)), OutUnit)
    | MRemoveKeys d s => (set_var p d (fremove s (p d)), OutUnit)
    | MJoin d s1 s2 => (set_var p d (funion (p s1) (p s2)), OutUnit)
    | MRestrictKeys d s ks => (set_var p d (frestrict ks (p s)), OutUnit)
    end.
  Fixpoint spec_mrun (ops : list (mop K V)) (p : nat -> fmap) : (nat -> fmap) * list (mout V) :=
    match ops with
    | [] => (p, [])
    | o :: t => let '(p1, a) := spec_mstep o p in let '(p2, r) := spec_mrun t p1 in (p2, a :: r)
    end.

  (** the lists [ks] and [vs] tabulate [f] in increasing key order *)
  Definition tabulates (f : fmap) (ks : list K) (vs : list V) : Prop :=
    length ks = length vs /\ increasing ltb ks /\
    (forall k v, In (k, v) (combine ks vs) -> f k = Some (k, v)) /\
    (forall x e, f x = Some e -> In e (combine ks vs)).
End MapSpec.
