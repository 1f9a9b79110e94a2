(** FailSpec.v -- what container functions may leave behind when an element operation throws. *)
From Verif Require Import Base StdOrd SetModel SetSpec MapModel MapSpec FailModel.

(** the exceptions in a list of outcomes *)
Fixpoint raised {A} (f : A -> option exn) (l : list A) : list exn :=
  match l with
  | [] => []
  | x :: t => match f x with Some e => e :: raised f t | None => raised f t end
  end.
Definition as_is (x : option exn) : option exn := x.
(** every exception raised by an element operation reaches the caller: [used] is the part of the schedule consumed *)
Definition nothing_swallowed {A} (f : A -> option exn) (outs : list A) (sc rest : sched) : Prop :=
  exists used, sc = used ++ rest /\ raised as_is used = raised f outs.

Section Sets.
  Context {T : Type} (ltb : T -> T -> bool).
  Notation sets := (nat -> mset (T := T)).
  Definition same_sets (p q : sets) : Prop := forall v x, p v x = q v x.
  (** the elements up to some point of the order *)
  Definition initial (below : T -> bool) : Prop := forall x y, below y = true -> ltb y x = false -> below x = true.
  (** the sets after a call that has thrown: it has dealt with the elements before some point, not with all *)
  Definition sfails (o : sop T) (p p' : sets) : Prop :=
    match o with
    | SAdjoin d s => exists below, initial below /\ (exists x, p s x = true /\ below x = false) /\
        same_sets p' (set_var p d (fun x => p d x || (p s x && below x)))
    | SRemoveSet d s | SFreeRemove d s => exists below, initial below /\ (exists x, p d x = true /\ below x = false) /\
        same_sets p' (set_var p d (fun x => p d x && negb (p s x && below x)))
    | SFreeRestrict d s => exists below, initial below /\ (exists x, p d x = true /\ below x = false) /\
        same_sets p' (set_var p d (fun x => p d x && (p s x || negb (below x))))
    | SRemoveList d l => exists k, k < length l /\
        same_sets p' (set_var p d (fun x => p d x && negb (in_list ltb (firstn k l) x)))
    | SNew _ | SMemberRestrict _ _ => False
    | _ => same_sets p' p
    end.
  Inductive sexec : list (sop T) -> list (option exn) -> sets -> sets -> Prop :=
  | SxNil p p' : same_sets p p' -> sexec [] [] p p'
  | SxDone o ops r p p1 p' : same_sets p1 (spec_sstep ltb o p) -> sexec ops r p1 p' -> sexec (o :: ops) (None :: r) p p'
  | SxThrow o e ops r p p1 p' : sfails o p p1 -> sexec ops r p1 p' -> sexec (o :: ops) (Some e :: r) p p'.
End Sets.

Section Maps.
  Context {K V : Type} (ltb : K -> K -> bool) (dflt : V).
  Notation maps := (nat -> fmap (K := K) (V := V)).
  Definition same_maps (p q : maps) : Prop := forall v x, p v x = q v x.
  Definition mfails (o : mop K V) (p p' : maps) : Prop :=
    match o with
    | MAdjoin d s => exists below, initial ltb below /\ (exists x, p s x <> None /\ below x = false) /\
        same_maps p' (set_var p d (funion (p d) (fun x => if below x then p s x else None)))
    | MRemoveKeys d ks => exists k, k < length ks /\ same_maps p' (set_var p d (fremove ltb (firstn k ks) (p d)))
    | MIndexWrite d k v => same_maps p' p \/ same_maps p' (set_var p d (fadd ltb k dflt (p d)))
    | MFreeInsertWrite d k v w => same_maps p' p \/ same_maps p' (set_var p d (fadd ltb k v (p d)))
    | MNew _ => False
    | _ => same_maps p' p
    end.
  Definition thrown (x : mout V + exn) : option exn := match x with inr e => Some e | inl _ => None end.
  Inductive mexec : list (mop K V) -> list (mout V + exn) -> maps -> maps -> Prop :=
  | MxNil p p' : same_maps p p' -> mexec [] [] p p'
  | MxDone o ops r p p1 p' : same_maps p1 (fst (spec_mstep ltb dflt o p)) -> mexec ops r p1 p' ->
      mexec (o :: ops) (inl (snd (spec_mstep ltb dflt o p)) :: r) p p'
  | MxThrow o e ops r p p1 p' : mfails o p p1 -> mexec ops r p1 p' -> mexec (o :: ops) (inr e :: r) p p'.
End Maps.

Section Lists.
  Context {T : Type}.
  Notation lists := (nat -> list T).
  Definition same_lists (p q : lists) : Prop := forall v, p v = q v.
  Definition lsdone (o : lsop T) (p : lists) : lists :=
    match o with
    | LsNew d l => set_var p d l
    | LsAppend d t => set_var p d (p d ++ [t])
    | LsAppendList d s | LsConcatenate d s => set_var p d (p d ++ p s)
    | LsCatenate d s1 s2 => set_var p d (p s1 ++ p s2)
    | LsCatenateElem d s t => set_var p d (p s ++ [t])
    end.
  Definition lsfails (o : lsop T) (p p' : lists) : Prop :=
    match o with
    | LsAppendList d s | LsConcatenate d s => exists k, k < length (p s) /\ same_lists p' (set_var p d (p d ++ firstn k (p s)))
    | _ => same_lists p' p
    end.
  Inductive lsexec : list (lsop T) -> list (option exn) -> lists -> lists -> Prop :=
  | LxNil p p' : same_lists p p' -> lsexec [] [] p p'
  | LxDone o ops r p p1 p' : same_lists p1 (lsdone o p) -> lsexec ops r p1 p' -> lsexec (o :: ops) (None :: r) p p'
  | LxThrow o e ops r p p1 p' : lsfails o p p1 -> lsexec ops r p1 p' -> lsexec (o :: ops) (Some e :: r) p p'.
  (** no list is appended to itself (C22) *)
  Definition no_self_append (o : lsop T) : Prop :=
    match o with LsAppendList d s | LsConcatenate d s => d <> s | _ => True end.
  (** a bound for the sizes a program can reach *)
  Fixpoint size_bound (ops : list (lsop T)) (b : nat) : nat :=
    match ops with
    | [] => b
    | LsNew _ l :: t => size_bound t (Nat.max b (length l))
    | LsAppend _ _ :: t | LsCatenateElem _ _ _ :: t => size_bound t (S b)
    | LsAppendList _ _ :: t | LsConcatenate _ _ :: t | LsCatenate _ _ _ :: t => size_bound t (2 * b)
    end.
End Lists.
