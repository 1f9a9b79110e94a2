(** MapModel.v -- Map of include/container.hpp (lines 249-300).

    A std::map<K,T> is the list of its pairs in increasing key order, i.e. a std::set of pairs compared
    by their keys; the loops are those of SetModel.v.  A reference to a mapped value is represented by
    the key of its node (keys are unique in a map and nodes do not move).  Copying keys and values does
    not throw. *)
From Verif Require Import Base StdOrd SetModel.

Section MapModel.
  Context {K V : Type} (ltb : K -> K -> bool) (dflt : V).
  Notation eqv := (eqvb ltb).

  Definition pltb (a b : K * V) : bool := ltb (fst a) (fst b).
  Definition mstore := nat -> list (K * V).

  (** std::map::find *)
  Definition mfind (k : K) (m : list (K * V)) : option (K * V) := find_elem fst ltb k m.
  (** std::map::insert: nothing happens if an equivalent key is present *)
  Definition minsert (m : list (K * V)) (e : K * V) : list (K * V) := sinsert pltb m e.
  (** std::map::erase(key) *)
  Definition merase (m : list (K * V)) (k : K) : list (K * V) := erase_key fst ltb k m.
  (** assignment through a reference to the value of the node with key [k] *)
  Definition mwrite (k : K) (v : V) (m : list (K * V)) : list (K * V) :=
    map (fun e => if eqv (fst e) k then (fst e, v) else e) m.

  (** container.hpp:257 T& operator[](K k): std::map::operator[], which inserts T() if absent;
      returns the new map and the key of the node referred to *)
  Definition mindex (k : K) (m : list (K * V)) : list (K * V) := minsert m (k, dflt).

  (** container.hpp:258 operator[] const, 259-260 get, 263-265 value, 266-268 value const: all of them
      find, HELPER_ASSERT (throws std::runtime_error) and return iter->second *)
  Definition mget (k : K) : M (list (K * V)) V := fun m =>
    match mfind k m with
    | Some e => Ret (snd e) m
    | None => Exc ERuntime m
    end.
  (** container.hpp:261-262 has_key *)
  Definition has_key (m : list (K * V)) (k : K) : bool :=
    match mfind k m with Some _ => true | None => false end.
  (** container.hpp:273-274 adjoin; the argument may be the map itself *)
  Definition madjoin (src : list (K * V) -> list (K * V)) (m : list (K * V)) : option (list (K * V)) :=
    adjoin pltb src m.
  (** container.hpp:275-276 remove_keys *)
  Definition remove_keys (s : list K) (m : list (K * V)) : list (K * V) := fold_left merase s m.
  (** container.hpp:277-279 keys: inserts the keys one by one into a Set *)
  Definition keys (m : list (K * V)) : list K := fold_left (fun r e => sinsert ltb r (fst e)) m [].
  (** container.hpp:280-282 values: appends the values one by one to a List *)
  Definition values (m : list (K * V)) : list V := fold_left (fun r e => r ++ [snd e]) m [].
  (** container.hpp:284-285 join: on a copy of m1 *)
  Definition mjoin (m1 m2 : list (K * V)) : option (list (K * V)) := madjoin (other_arg m2) m1.
  (** container.hpp:288-291 restrict_keys, for an object s of class Set *)
  Definition restrict_keys (m : list (K * V)) (s : list K) : list (K * V) :=
    fold_left (fun r e => if contains ltb s (fst e) then minsert r e else r) m [].

  (** The parameter is a const std::set<K>&, which line 289 casts to const Set<K>&: [c] is the class of the object
      referred to. *)
  Inductive set_class := HelperSet | StdSet.
  Definition restrict_keys_by (c : set_class) (m : list (K * V)) (s : list K) : res unit (list (K * V)) :=
    match c with
    | HelperSet => Ret (restrict_keys m s) tt
    | StdSet => Ub UbBadDowncast
    end.

  (** ** Programs over map variables *)
  Inductive mop :=
  | MNew (d : nat)                              (* d = Map() *)
  | MCopy (d s : nat)                           (* d = s *)
  | MIndexRead (d : nat) (k : K)                (* d[k], read *)
  | MIndexWrite (d : nat) (k : K) (v : V)       (* d[k] = v *)
  | MConstIndex (d : nat) (k : K)               (* const d[k] *)
  | MGet (d : nat) (k : K)                      (* d.get(k) *)
  | MValue (d : nat) (k : K)                    (* d.value(k) *)
  | MValueWrite (d : nat) (k : K) (v : V)       (* d.value(k) = v *)
  | MHasKey (d : nat) (k : K)                   (* d.has_key(k) *)
  | MInsert (d : nat) (k : K) (v : V)           (* d.insert(k,v), d.insert(make_pair(k,v)) *)
  | MFreeInsert (d : nat) (k : K) (v : V)       (* insert(d,k,v), read *)
  | MFreeInsertWrite (d : nat) (k : K) (v w : V)  (* insert(d,k,v) = w *)
  | MAdjoin (d s : nat)                         (* d.adjoin(s) *)
  | MRemoveKeys (d : nat) (s : list K)          (* d.remove_keys(s) *)
  | MJoin (d s1 s2 : nat)                       (* d = join(s1,s2) *)
  | MRestrictKeys (d s : nat) (ks : list K).    (* d = restrict_keys(s,ks), ks a Set *)

  Inductive mout := OutUnit | OutVal (v : V) | OutBool (b : bool) | OutThrow.

  Definition marg (st : mstore) (d s : nat) : list (K * V) -> list (K * V) :=
    if Nat.eqb d s then self_arg else other_arg (st s).
  Definition mstore_result (d : nat) (st : mstore) (r : option (list (K * V))) : res mstore mout :=
    match r with Some l => Ret OutUnit (set_var st d l) | None => Fuel end.
  (** reading the value of the node with key [k], just found or inserted; an absent node is undefined *)
  Definition mread (k : K) (d : nat) (st : mstore) : res mstore mout :=
    match mfind k (st d) with Some e => Ret (OutVal (snd e)) st | None => Ub UbDangling end.
  (** lookups that throw: a thrown exception is reported as an outcome, and the program goes on *)
  Definition mlookup (k : K) (d : nat) (st : mstore) : res mstore mout :=
    match mget k (st d) with
    | Ret v m => Ret (OutVal v) (set_var st d m)
    | Exc _ m => Ret OutThrow (set_var st d m)
    | Ub r => Ub r
    | Abort => Abort
    | Fuel => Fuel
    end.

  Definition mstep (o : mop) : M mstore mout := fun st =>
    match o with
    | MNew d => Ret OutUnit (set_var st d [])
    | MCopy d s => Ret OutUnit (set_var st d (st s))
    | MIndexRead d k => mread k d (set_var st d (mindex k (st d)))
    | MIndexWrite d k v => Ret OutUnit (set_var st d (mwrite k v (mindex k (st d))))
    | MConstIndex d k => mlookup k d st
    | MGet d k => mlookup k d st
    | MValue d k => mlookup k d st
    | MValueWrite d k v =>
        match mget k (st d) with
        | Ret _ m => Ret OutUnit (set_var st d (mwrite k v m))
        | Exc _ m => Ret OutThrow (set_var st d m)
        | Ub r => Ub r
        | Abort => Abort
        | Fuel => Fuel
        end
    | MHasKey d k => Ret (OutBool (has_key (st d) k)) st
    | MInsert d k v => Ret OutUnit (set_var st d (minsert (st d) (k, v)))
    | MFreeInsert d k v => mread k d (set_var st d (minsert (st d) (k, v)))
    | MFreeInsertWrite d k v w => Ret OutUnit (set_var st d (mwrite k w (minsert (st d) (k, v))))
    | MAdjoin d s => mstore_result d st (madjoin (marg st d s) (st d))
    | MRemoveKeys d s => Ret OutUnit (set_var st d (remove_keys s (st d)))
    | MJoin d s1 s2 => mstore_result d st (mjoin (st s1) (st s2))
    | MRestrictKeys d s ks => Ret OutUnit (set_var st d (restrict_keys (st s) ks))
    end.
  Fixpoint mrun (ops : list mop) : M mstore (list mout) :=
    match ops with
    | [] => ret []
    | o :: t => (a <- mstep o ;; r <- mrun t ;; ret (a :: r))%M
    end.
End MapModel.
Arguments mop : clear implicits.
Arguments mout : clear implicits.
