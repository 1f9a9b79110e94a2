(** KeysSpec.v -- lexicographic order of sequences. *)
From Verif Require Import Base StdOrd.

Section Spec.
  Context {T : Type} (ltb : T -> T -> bool).
  (** element by element equivalent *)
  Definition same_elements (l1 l2 : list T) : Prop := Forall2 (fun a b => eqvb ltb a b = true) l1 l2.
  (** after a common beginning the first list ends, or has the lesser element *)
  Definition lex_before (l1 l2 : list T) : Prop :=
    exists p q r1 r2, l1 = p ++ r1 /\ l2 = q ++ r2 /\ same_elements p q /\
      match r1, r2 with
      | [], _ :: _ => True
      | a :: _, b :: _ => ltb a b = true
      | _, _ => False
      end.
End Spec.

(** ** Sets and maps over a type with equality, no order *)
From Verif Require Import SetModel MapModel.
Section Plain.
  Context {T : Type}.
  Definition pstep (o : sop T) (p : nat -> T -> Prop) : nat -> T -> Prop :=
    match o with
    | SNew d => set_var p d (fun _ => False)
    | SFromList d l => set_var p d (fun x => In x l)
    | SCopy d s => set_var p d (p s)
    | SInsert d t => set_var p d (fun x => p d x \/ x = t)
    | SAdjoin d s => set_var p d (fun x => p d x \/ p s x)
    | SRemove d t => set_var p d (fun x => p d x /\ x <> t)
    | SRemoveSet d s | SFreeRemove d s => set_var p d (fun x => p d x /\ ~ p s x)
    | SRemoveList d l => set_var p d (fun x => p d x /\ ~ In x l)
    | SFreeRestrict d s | SMemberRestrict d s => set_var p d (fun x => p d x /\ p s x)
    | SJoin d s1 s2 => set_var p d (fun x => p s1 x \/ p s2 x)
    | SIntersection d s1 s2 => set_var p d (fun x => p s1 x /\ p s2 x)
    | SIntersectionList d s1 l => set_var p d (fun x => p s1 x /\ In x l)
    | SDifference d s1 s2 => set_var p d (fun x => p s1 x /\ ~ p s2 x)
    end.
  Definition prun (ops : list (sop T)) : nat -> T -> Prop := fold_left (fun q o => pstep o q) ops (fun _ _ => False).
End Plain.

Section PlainMap.
  Context {K V : Type} (eqb : K -> K -> bool) (dflt : V).
  Notation func := (K -> option V).
  Definition put (k : K) (v : V) (f : func) : func := fun x => if eqb k x then Some v else f x.
  Definition put_new (k : K) (v : V) (f : func) : func := match f k with Some _ => f | None => put k v f end.
  Definition merge (f g : func) : func := fun x => match f x with Some v => Some v | None => g x end.
  Definition without (s : list K) (f : func) : func := fun x => if existsb (eqb x) s then None else f x.
  Definition only (s : list K) (f : func) : func := fun x => if existsb (eqb x) s then f x else None.
  Definition found (k : K) (f : func) : mout V := match f k with Some v => OutVal v | None => OutThrow end.
  Definition with_default (v : V) (k : K) (f : func) : V := match f k with Some v' => v' | None => v end.
  Definition pmstep (o : mop K V) (p : nat -> func) : (nat -> func) * mout V :=
    match o with
    | MNew d => (set_var p d (fun _ => None), OutUnit)
    | MCopy d s => (set_var p d (p s), OutUnit)
    | MIndexRead d k => (set_var p d (put_new k dflt (p d)), OutVal (with_default dflt k (p d)))
    | MIndexWrite d k v => (set_var p d (put k v (p d)), OutUnit)
    | MConstIndex d k | MGet d k | MValue d k => (p, found k (p d))
    | MValueWrite d k v => match p d k with Some _ => (set_var p d (put k v (p d)), OutUnit) | None => (p, OutThrow) end
    | MHasKey d k => (p, OutBool (match p d k with Some _ => true | None => false end))
    | MInsert d k v => (set_var p d (put_new k v (p d)), OutUnit)
    | MFreeInsert d k v => (set_var p d (put_new k v (p d)), OutVal (with_default v k (p d)))
    | MFreeInsertWrite d k v w => (set_var p d (put k w (p d)), OutUnit)
    | MAdjoin d s => (set_var p d (merge (p d) (p s)), OutUnit)
    | MRemoveKeys d s => (set_var p d (without s (p d)), OutUnit)
    | MJoin d s1 s2 => (set_var p d (merge (p s1) (p s2)), OutUnit)
    | MRestrictKeys d s ks => (set_var p d (only ks (p s)), OutUnit)
    end.
  Fixpoint pmrun (ops : list (mop K V)) (p : nat -> func) : (nat -> func) * list (mout V) :=
    match ops with
    | [] => (p, [])
    | o :: t => let '(p1, a) := pmstep o p in let '(p2, r) := pmrun t p1 in (p2, a :: r)
    end.
End PlainMap.
