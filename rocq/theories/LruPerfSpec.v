(** LruPerfSpec.v -- using an LRU cache in front of a function, and what its hit rate is compared with.
    Nothing here depends on how lru_cache.hpp keeps its elements. *)
From Verif Require Import Base StdOrd LruModel.

Section LruPerfSpec.
  Context {L V : Type} (ltb : L -> L -> bool).

  (** the intended use of the class, as a client writes it:
      [if (cache.has_label(l)) return cache.get(l); else { V v=f(l); cache.put(l,v); return v; }].
      The result says whether it was a hit; [None]: a call threw or was undefined. *)
  Definition cached (f : L -> V) (c : cache L V) (l : L) : option (cache L V * bool * V) :=
    match step ltb c (OHas l) with
    | (Some c1, RBool true) =>
        match step ltb c1 (OGet l) with (Some c2, RVal v) => Some (c2, true, v) | _ => None end
    | (Some c1, RBool false) =>
        match step ltb c1 (OPut l (f l)) with (Some c2, RUnit) => Some (c2, false, f l) | _ => None end
    | _ => None
    end.
  Fixpoint serve (f : L -> V) (c : cache L V) (ls : list L) : option (cache L V * list (bool * V)) :=
    match ls with
    | [] => Some (c, [])
    | l :: t =>
        match cached f c l with
        | Some (c1, b, v) =>
            match serve f c1 t with Some (c2, r) => Some (c2, (b, v) :: r) | None => None end
        | None => None
        end
    end.

  (** the answers, and which of them were hits, of a new cache of capacity m serving the requests ls *)
  Definition answers (f : L -> V) (m : Z) (ls : list L) : option (list (bool * V)) :=
    match lru_new m with
    | Ret c _ => option_map snd (serve f c ls)
    | _ => None
    end.
  Definition hits (f : L -> V) (m : Z) (ls : list L) : option (list bool) :=
    option_map (map fst) (answers f m ls).
  (** number of evaluations of f *)
  Definition misses (f : L -> V) (m : Z) (ls : list L) : option nat :=
    option_map (fun h => length (filter negb h)) (hits f m ls).

  (** labels up to equivalence *)
  Definition among (l : L) (s : list L) : bool := existsb (fun x => eqvb ltb x l) s.
  (** number of different labels in a sequence *)
  Fixpoint different (s : list L) : nat :=
    match s with
    | [] => 0
    | x :: t => if among x t then different t else S (different t)
    end.
  (** the request l, coming after the requests pre, was last made so recently that fewer than m
      different labels were requested since *)
  Definition recent (m : Z) (pre : list L) (l : L) : Prop :=
    exists a b c, pre = a ++ b :: c /\ eqvb ltb b l = true /\ (Z.of_nat (different c) < m)%Z.

  (** Any way whatever to keep at most h labels, knowing the future or not: [contents] gives what is
      stored after each request.  The label requested is stored, and nothing is stored that was not
      there before or is being requested. *)
  Fixpoint strategy (h : nat) (s : list L) (ls : list L) (contents : list (list L)) : Prop :=
    match ls, contents with
    | [], [] => True
    | l :: t, s' :: cs =>
        length s' <= h /\ among l s' = true /\
        (forall x, among x s' = true -> among x (l :: s) = true) /\ strategy h s' t cs
    | _, _ => False
    end.
  (** requests for a label not stored at that time *)
  Fixpoint faults (s : list L) (ls : list L) (contents : list (list L)) : nat :=
    match ls, contents with
    | l :: t, s' :: cs => (if among l s then 0 else 1) + faults s' t cs
    | _, _ => 0
    end.
End LruPerfSpec.
