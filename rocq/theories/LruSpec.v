(** LruSpec.v -- what a least-recently-used cache is, independently of lru_cache.hpp:
    a list of (label,value), most recently used first, of bounded length. *)
From Verif Require Import Base StdOrd LruModel.

Section LruSpec.
  Context {L V : Type} (ltb : L -> L -> bool).

  (** "has_label(x) answers true", the public way to see whether x is in the cache *)
  Definition contains (c : cache L V) (x : L) : Prop := has_label ltb x c = Ret true c.

  (** states a program can reach from a new cache by public calls *)
  Definition reachable (c : cache L V) : Prop :=
    exists m c0 ops outs, (0 < m < 2 ^ 64)%Z /\ lru_new m = Ret c0 tt /\
                          run ltb c0 ops = (Some c, outs).

  (** "x is in the cache after every call of the sequence" *)
  Fixpoint stays (x : L) (c : cache L V) (ops : list (op L V)) : Prop :=
    match ops with
    | [] => True
    | o :: t => match step ltb c o with
                | (Some c', _) => contains c' x /\ stays x c' t
                | (None, _) => False
                end
    end.

  Record rlist := mkRlist { r_cap : Z; r_items : list (L * V) }.

  (** the first item for a label, with its position and the remaining items *)
  Fixpoint take_label (l : L) (items : list (L * V)) : option (nat * (L * V) * list (L * V)) :=
    match items with
    | [] => None
    | x :: t => if eqvb ltb (fst x) l then Some (0, x, t)
                else match take_label l t with
                     | Some (i, y, rest) => Some (S i, y, x :: rest)
                     | None => None
                     end
    end.

  Definition spec_step (s : rlist) (o : op L V) : rlist * out V :=
    match o with
    | OHas l => (s, RBool (if take_label l (r_items s) then true else false))
    | OGet l => match take_label l (r_items s) with
                | Some (_, x, rest) => (mkRlist (r_cap s) (x :: rest), RVal (snd x))
                | None => (s, RThrow ERuntime)
                end
    | OAge l => match take_label l (r_items s) with
                | Some (i, _, _) => (s, RNum (Z.of_nat i))
                | None => (s, RThrow ERuntime)
                end
    | OPut l v => match take_label l (r_items s) with
                  | Some _ => (s, RThrow ERuntime)
                  | None =>
                      let kept := if (Z.of_nat (length (r_items s)) <? r_cap s)%Z
                                  then r_items s else removelast (r_items s) in
                      (mkRlist (r_cap s) ((l, v) :: kept), RUnit)
                  end
    | OSize => (s, RNum (Z.of_nat (length (r_items s))))
    | OMax => (s, RNum (r_cap s))
    end.

  Fixpoint spec_run (s : rlist) (ops : list (op L V)) : rlist * list (out V) :=
    match ops with
    | [] => (s, [])
    | o :: t => let (s', r) := spec_step s o in let (s'', rs) := spec_run s' t in (s'', r :: rs)
    end.

  (** "o used label l and succeeded", read off a call and its observed result *)
  Definition touches (l : L) (c : op L V * out V) : bool :=
    match c with
    | (OGet l', RVal _) => eqvb ltb l' l
    | (OPut l' _, RUnit) => eqvb ltb l' l
    | _ => false
    end.

  (** index in the history of the last successful use of l (history oldest first) *)
  Fixpoint last_use (l : L) (h : list (op L V * out V)) : option nat :=
    match h with
    | [] => None
    | c :: t => match last_use l t with
                | Some i => Some (S i)
                | None => if touches l c then Some 0 else None
                end
    end.

  (** ** Variables holding recency lists, as values; [None]: the program misuses a variable *)
  Definition spec_vstep (s : nat -> option rlist) (o : vop L V) : option ((nat -> option rlist) * out V) :=
    match o with
    | VNew k m =>
        match s k with
        | Some _ => None
        | None => if (m =? 0)%Z then Some (s, RThrow ERuntime) else Some (set_var s k (Some (mkRlist m [])), RUnit)
        end
    | VCopy d k => match s d, s k with None, Some c => Some (set_var s d (Some c), RUnit) | _, _ => None end
    | VMove d k =>
        match s d, s k with
        | None, Some c => Some (set_var (set_var s d (Some c)) k (Some (mkRlist (r_cap c) [])), RUnit)
        | _, _ => None
        end
    | VAssign d k => match s d, s k with Some _, Some c => Some (set_var s d (Some c), RUnit) | _, _ => None end
    | VMoveAssign d k =>
        match s d, s k with
        | Some _, Some c => Some (set_var (set_var s d (Some c)) k (Some (mkRlist (r_cap c) [])), RUnit)
        | _, _ => None
        end
    | VDestroy k => match s k with Some _ => Some (set_var s k None, RUnit) | None => None end
    (* a failing copy makes no cache; a failing assignment leaves an empty one of the other's size.  Copying nothing does not fail. *)
    | VCopyFails d k =>
        match s d, s k with
        | None, Some c => match r_items c with [] => Some (set_var s d (Some c), RUnit) | _ => Some (s, RThrow (EUser 0)) end
        | _, _ => None
        end
    | VAssignFails d k =>
        match s d, s k with
        | Some _, Some c =>
            if Nat.eqb d k then Some (s, RUnit)
            else match r_items c with
                 | [] => Some (set_var s d (Some c), RUnit)
                 | _ => Some (set_var s d (Some (mkRlist (r_cap c) [])), RThrow (EUser 0))
                 end
        | _, _ => None
        end
    | VCall k o =>
        match s k with
        | Some c => Some (set_var s k (Some (fst (spec_step c o))), snd (spec_step c o))
        | None => None
        end
    end.
  Fixpoint spec_vrun (s : nat -> option rlist) (p : list (vop L V)) : option ((nat -> option rlist) * list (out V)) :=
    match p with
    | [] => Some (s, [])
    | o :: p' =>
        match spec_vstep s o with
        | Some (s', r) => match spec_vrun s' p' with Some (s'', l) => Some (s'', r :: l) | None => None end
        | None => None
        end
    end.
  (** sizes are values of type size_t *)
  Definition sizes_ok (o : vop L V) : Prop := match o with VNew _ m => (0 <= m < 2 ^ 64)%Z | _ => True end.
End LruSpec.
Arguments rlist : clear implicits.
