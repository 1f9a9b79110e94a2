(** SetSpec.v -- mathematical sets as membership predicates. *)
From Verif Require Import Base StdOrd SetModel.

Section SetSpec.
  Context {T : Type} (ltb : T -> T -> bool).
  Notation eqv := (eqvb ltb).

  Definition mset := T -> bool.
  Definition in_list (l : list T) : mset := fun x => existsb (fun e => eqv e x) l.

  (** the set operation each call is meant to perform *)
  Definition spec_sstep (o : sop T) (p : nat -> mset) : nat -> mset :=
    match o with
    | SNew d => set_var p d (fun _ => false)
    | SFromList d l => set_var p d (in_list l)
    | SCopy d s => set_var p d (p s)
    | SInsert d t => set_var p d (fun x => p d x || eqv t x)
    | SAdjoin d s => set_var p d (fun x => p d x || p s x)
    | SRemove d t => set_var p d (fun x => p d x && negb (eqv t x))
    | SRemoveSet d s => set_var p d (fun x => p d x && negb (p s x))
    | SRemoveList d l => set_var p d (fun x => p d x && negb (in_list l x))
    | SFreeRemove d s => set_var p d (fun x => p d x && negb (p s x))
    | SFreeRestrict d s => set_var p d (fun x => p d x && p s x)
    | SMemberRestrict d s => set_var p d (fun x => p d x && p s x)
    | SJoin d s1 s2 => set_var p d (fun x => p s1 x || p s2 x)
    | SIntersection d s1 s2 => set_var p d (fun x => p s1 x && p s2 x)
    | SIntersectionList d s1 l => set_var p d (fun x => p s1 x && in_list l x)
    | SDifference d s1 s2 => set_var p d (fun x => p s1 x && negb (p s2 x))
    end.
  Definition spec_srun (ops : list (sop T)) (p : nat -> mset) : nat -> mset :=
    fold_left (fun q o => spec_sstep o q) ops p.

  (** the member function restrict is treated apart *)
  Definition no_member_restrict (o : sop T) : Prop :=
    match o with SMemberRestrict _ _ => False | _ => True end.

  (** strictly increasing *)
  Definition increasing (l : list T) : Prop := StronglySorted (fun a b => ltb a b = true) l.

  (** two positions of a list hold elements equivalent to x *)
  Definition occurs_twice (l : list T) (x : T) : Prop :=
    exists i j a b, i < j /\ nth_error l i = Some a /\ nth_error l j = Some b /\
                    eqv a x = true /\ eqv b x = true.
End SetSpec.
