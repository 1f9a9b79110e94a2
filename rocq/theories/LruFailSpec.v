(** LruFailSpec.v -- what an LRUCache is when puts may fail while storing: a list of slots, position =
    age, some of which are gaps.  Independent of how lru_cache.hpp keeps its elements. *)
From Verif Require Import Base StdOrd LruModel.

Section LruFailSpec.
  Context {L V : Type} (ltb : L -> L -> bool).

  (** a call, or a put in which copying the label or the value, or allocating the node, throws *)
  Inductive fop := FCall (o : op L V) | FFail (l : L) (v : V).
  Definition fstep (c : cache L V) (o : fop) : option (cache L V) * out V :=
    match o with
    | FCall o => step ltb c o
    | FFail l v => match put ltb l (VVal v) true c with
                   | Ret _ c' => (Some c', RUnit) | Exc e c' => (Some c', RThrow e) | _ => (None, RUb) end
    end.
  Fixpoint frun (c : cache L V) (ops : list fop) : option (cache L V) * list (out V) :=
    match ops with
    | [] => (Some c, [])
    | o :: t => match fstep c o with
                | (Some c', r) => let (c'', rs) := frun c' t in (c'', r :: rs)
                | (None, r) => (None, [r])
                end
    end.

  Definition slots := list (option (L * V)).
  (** the slot holding a label: its position, its item, and the other slots *)
  Fixpoint find_slot (l : L) (s : slots) : option (nat * (L * V) * slots) :=
    match s with
    | [] => None
    | e :: t =>
        match (match e with Some x => if eqvb ltb (fst x) l then Some x else None | None => None end) with
        | Some x => Some (0, x, t)
        | None => match find_slot l t with
                  | Some (i, y, rest) => Some (S i, y, e :: rest)
                  | None => None
                  end
        end
    end.
  Fixpoint count (s : slots) : nat :=
    match s with [] => 0 | Some _ :: t => S (count t) | None :: t => count t end.

  (** the slots before the new one of a put; [None]: undefined behaviour *)
  Definition make_room (cap : Z) (s : slots) : option slots :=
    if (Z.of_nat (count s) <? cap)%Z then Some s
    else match nth_error s (Z.to_nat (cap - 1)) with
         | Some (Some _) => Some (upd (Z.to_nat (cap - 1)) None s)
         | _ => None
         end.
  (** a successful put adds a slot in front, a failing put a gap in front *)
  Definition put_slot (cap : Z) (s : slots) (l : L) (e : option (L * V)) (r : out V) : option slots * out V :=
    match find_slot l s with
    | Some _ => (Some s, RThrow ERuntime)
    | None => match make_room cap s with Some s' => (Some (e :: s'), r) | None => (None, RUb) end
    end.
  Definition slot_step (cap : Z) (s : slots) (o : fop) : option slots * out V :=
    match o with
    | FCall (OHas l) => (Some s, RBool (if find_slot l s then true else false))
    | FCall (OGet l) => match find_slot l s with
                        | Some (_, x, rest) => (Some (Some x :: rest), RVal (snd x))
                        | None => (Some s, RThrow ERuntime)
                        end
    | FCall (OAge l) => match find_slot l s with
                        | Some (i, _, _) => (Some s, RNum (Z.of_nat i))
                        | None => (Some s, RThrow ERuntime)
                        end
    | FCall (OPut l v) => put_slot cap s l (Some (l, v)) RUnit
    | FFail l v => put_slot cap s l None (RThrow (EUser 0))
    | FCall OSize => (Some s, RNum (Z.of_nat (count s)))
    | FCall OMax => (Some s, RNum cap)
    end.
  Fixpoint slot_run (cap : Z) (s : slots) (ops : list fop) : option slots * list (out V) :=
    match ops with
    | [] => (Some s, [])
    | o :: t => match slot_step cap s o with
                | (Some s', r) => let (s'', rs) := slot_run cap s' t in (s'', r :: rs)
                | (None, r) => (None, [r])
                end
    end.

  (** states a program can reach by public calls including failing puts; the number of calls is
      limited because ages are 64-bit numbers and grow with every failure *)
  Definition freachable (c : cache L V) : Prop :=
    exists m c0 ops outs, (0 < m < 2 ^ 64)%Z /\ (Z.of_nat (length ops) + m < 2 ^ 64)%Z /\
      lru_new m = Ret c0 tt /\ frun c0 ops = (Some c, outs).
End LruFailSpec.
Arguments fop : clear implicits.
Arguments slots : clear implicits.
