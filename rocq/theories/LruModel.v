(** LruModel.v -- model of include/lru_cache.hpp (class LRUCache<L,V>).
    Definitions only. *)
From Verif Require Import Base StdOrd.

Section LruModel.
  Context {L V : Type} (ltb : L -> L -> bool).   (* std::less<L> *)

  (** lru_cache.hpp:46-50 (AgeValuePair), 107 (the std::map node that holds it).
      [n_addr] is the identity of the map node: references returned by get refer to it. *)
  Record node := mkNode { n_addr : nat; n_key : L; n_age : Z; n_val : V }.

  (** lru_cache.hpp:106-107.  [c_next] is the next unused node address (not C++ state, it only
      makes every allocated node different from all earlier ones). *)
  Record cache := mkCache { c_max : Z; c_elems : list node; c_next : nat }.

  Definition set_elems (c : cache) (es : list node) : cache := mkCache (c_max c) es (c_next c).
  Definition set_age (n : node) (a : Z) : node := mkNode (n_addr n) (n_key n) a (n_val n).
  (** size_t ++ : wraps modulo 2^64 *)
  Definition incr_age (n : node) : node := set_age n (wrap64 (n_age n + 1)).

  (** lru_cache.hpp:53 constructor; the precondition throws before an object exists, so the
      outcome is over a dummy state. *)
  Definition lru_new (maximum_size : Z) : res unit cache :=
    if (0 <? maximum_size)%Z then Ret (mkCache maximum_size [] 0) tt else Exc ERuntime tt.

  (** lru_cache.hpp:56 has_label *)
  Definition has_label (label : L) : M cache bool := fun c =>
    match find_pos n_key ltb label (c_elems c) with Some _ => Ret true c | None => Ret false c end.

  (** lru_cache.hpp:63-66: for (auto& other : _elements) if (other.age < e->age) other.age++;
      [todo] are the positions still to be visited, [e] is the position of the element got. *)
  Fixpoint get_loop (e : nat) (todo : list nat) : M cache unit := fun c =>
    match todo with
    | [] => Ret tt c
    | i :: todo' =>
        match nth_error (c_elems c) i, nth_error (c_elems c) e with
        | Some other, Some target =>
            if (n_age other <? n_age target)%Z
            then get_loop e todo' (set_elems c (upd i (incr_age other) (c_elems c)))
            else get_loop e todo' c
        | _, _ => Ub UbOutOfBounds
        end
    end.

  (** lru_cache.hpp:60-69 get; the returned reference is the node address. *)
  Definition get (label : L) : M cache nat := fun c =>
    match find_pos n_key ltb label (c_elems c) with
    | None => Exc ERuntime c                                            (* line 62 *)
    | Some e =>
        (get_loop e (seq 0 (length (c_elems c))) ;;;                   (* lines 63-66 *)
         (fun c' => match nth_error (c_elems c') e with                 (* lines 67-68 *)
                    | Some n => Ret (n_addr n) (set_elems c' (upd e (set_age n 0%Z) (c_elems c')))
                    | None => Ub UbOutOfBounds
                    end))%M c
    end.

  (** lru_cache.hpp:72-76 age *)
  Definition age (label : L) : M cache Z := fun c =>
    match find_elem n_key ltb label (c_elems c) with
    | None => Exc ERuntime c
    | Some n => Ret (n_age n) c
    end.

  (** Argument [V const& val] of put: a value of the caller, or a reference into this cache. *)
  Inductive vref := VVal (v : V) | VNode (addr : nat).

  (** reading through a reference into the cache: the node must still exist *)
  Definition read_node (addr : nat) (c : cache) : option V :=
    option_map n_val (find (fun n => Nat.eqb (n_addr n) addr) (c_elems c)).

  Definition read_vref (r : vref) : M cache V := fun c =>
    match r with
    | VVal v => Ret v c
    | VNode a => match read_node a c with Some v => Ret v c | None => Ub UbDangling end
    end.

  (** lru_cache.hpp:83: for (auto& other : _elements) other.second.age++; *)
  Definition put_age_all : M cache unit := fun c =>
    Ret tt (set_elems c (map incr_age (c_elems c))).

  (** lru_cache.hpp:86-89: the loop that looks for the element to remove and ages all of them;
      the result is [to_remove] ([None] = end()). *)
  Fixpoint put_loop (todo : list nat) (to_remove : option nat) : M cache (option nat) := fun c =>
    match todo with
    | [] => Ret to_remove c
    | i :: todo' =>
        match nth_error (c_elems c) i with
        | Some n =>
            let to_remove' := if (n_age n =? wrap64 (c_max c - 1))%Z then Some i else to_remove in
            put_loop todo' to_remove' (set_elems c (upd i (incr_age n) (c_elems c)))
        | None => Ub UbOutOfBounds
        end
    end.

  (** lru_cache.hpp:90 _elements.erase(to_remove) *)
  Definition put_erase (to_remove : option nat) : M cache unit := fun c =>
    match to_remove with
    | Some i => Ret tt (set_elems c (erase_at i (c_elems c)))
    | None => Ub UbEraseEnd
    end.

  (** lru_cache.hpp:92 _elements.insert({label,AgeValuePair(0,val)}): val is copied here, after the
      eviction.  [fails] says that copying label or value, comparing labels, or allocating the node, throws. *)
  Definition put_insert (label : L) (val : vref) (fails : bool) : M cache unit :=
    (v <- read_vref val ;;
     fun c => if fails then Exc (EUser 0) c
              else Ret tt (mkCache (c_max c)
                                   (insert_elem n_key ltb (mkNode (c_next c) label 0%Z v) (c_elems c))
                                   (S (c_next c))))%M.

  (** lru_cache.hpp:80-93 put *)
  Definition put (label : L) (val : vref) (fails : bool) : M cache unit := fun c =>
    match find_pos n_key ltb label (c_elems c) with
    | Some _ => Exc ERuntime c                                          (* line 81 *)
    | None =>
        ((if (Z.of_nat (length (c_elems c)) <? c_max c)%Z
          then put_age_all                                              (* lines 82-83 *)
          else (r <- put_loop (seq 0 (length (c_elems c))) None ;;      (* lines 85-89 *)
                put_erase r)) ;;;                                       (* line 90 *)
         put_insert label val fails)%M c                                (* line 92 *)
    end.

  (** lru_cache.hpp:96-103 *)
  Definition current_size (c : cache) : Z := Z.of_nat (length (c_elems c)).
  Definition maximum_size (c : cache) : Z := c_max c.

  (** ** Histories *)
  Inductive op :=
  | OHas (l : L) | OGet (l : L) | OAge (l : L) | OPut (l : L) (v : V) | OSize | OMax.

  (** What the caller of a public member observes. *)
  Inductive out := RBool (b : bool) | RVal (v : V) | RNum (z : Z) | RUnit | RThrow (e : exn) | RUb.

  (** One public call; [None] after undefined behaviour.  A get is observed through the value its
      reference yields right after the call. *)
  Definition step (c : cache) (o : op) : option cache * out :=
    match o with
    | OHas l => match has_label l c with Ret b c' => (Some c', RBool b) | _ => (None, RUb) end
    | OGet l => match get l c with
                | Ret a c' => match read_node a c' with Some v => (Some c', RVal v) | None => (None, RUb) end
                | Exc e c' => (Some c', RThrow e)
                | _ => (None, RUb)
                end
    | OAge l => match age l c with
                | Ret a c' => (Some c', RNum a) | Exc e c' => (Some c', RThrow e) | _ => (None, RUb) end
    | OPut l v => match put l (VVal v) false c with
                  | Ret _ c' => (Some c', RUnit) | Exc e c' => (Some c', RThrow e) | _ => (None, RUb) end
    | OSize => (Some c, RNum (current_size c))
    | OMax => (Some c, RNum (maximum_size c))
    end.

  (** A sequence of calls: the observations, stopping at undefined behaviour. *)
  Fixpoint run (c : cache) (ops : list op) : option cache * list out :=
    match ops with
    | [] => (Some c, [])
    | o :: t => match step c o with
                | (Some c', r) => let (c'', rs) := run c' t in (c'', r :: rs)
                | (None, r) => (None, [r])
                end
    end.

  (** ** Cache variables.  The copy and move operations are the implicit ones: memberwise, and those of
      std::map on _elements.  A moved-from std::map is empty (libstdc++; the standard says valid but
      unspecified); node addresses are relative to the cache.  [None]: no such object. *)
  Definition vars := nat -> option cache.
  Inductive vop :=
  | VNew (k : nat) (m : Z) | VCopy (d s : nat) | VMove (d s : nat)             (* construction *)
  | VAssign (d s : nat) | VMoveAssign (d s : nat) | VDestroy (k : nat)
  | VCopyFails (d s : nat) | VAssignFails (d s : nat)                          (* copying a node, if there is one, throws *)
  | VCall (k : nat) (o : op).
  Definition moved_from (c : cache) : cache := set_elems c [].
  (** copying the nodes of a std::map, one of which may fail *)
  Definition copy_elems (fails : bool) (es : list node) : option (list node) :=
    match es with [] => Some [] | _ => if fails then None else Some es end.
  (** [None]: undefined (an object that does not exist is used, or created again, or a call is undefined) *)
  Definition vstep (s : vars) (o : vop) : option (vars * out) :=
    match o with
    | VNew k m =>
        match s k, lru_new m with
        | None, Ret c _ => Some (set_var s k (Some c), RUnit)
        | None, Exc e _ => Some (s, RThrow e)
        | _, _ => None
        end
    | VCopy d k =>
        match s d, s k with None, Some c => Some (set_var s d (Some c), RUnit) | _, _ => None end
    | VMove d k =>
        match s d, s k with
        | None, Some c => Some (set_var (set_var s d (Some c)) k (Some (moved_from c)), RUnit)
        | _, _ => None
        end
    | VAssign d k =>
        match s d, s k with Some _, Some c => Some (set_var s d (Some c), RUnit) | _, _ => None end
    | VMoveAssign d k =>                                   (* _elements is cleared, then takes the nodes of the other *)
        match s d, s k with
        | Some c1, Some c2 =>
            let s1 := set_var s d (Some (mkCache (c_max c2) [] (c_next c2))) in
            match s1 k with
            | Some c => Some (set_var (set_var s1 d (Some (mkCache (c_max c2) (c_elems c) (c_next c)))) k (Some (moved_from c)), RUnit)
            | None => None
            end
        | _, _ => None
        end
    | VDestroy k => match s k with Some _ => Some (set_var s k None, RUnit) | None => None end
    | VCopyFails d k =>                                    (* no object results *)
        match s d, s k with
        | None, Some c =>
            match copy_elems true (c_elems c) with
            | Some es => Some (set_var s d (Some (set_elems c es)), RUnit)
            | None => Some (s, RThrow (EUser 0))
            end
        | _, _ => None
        end
    | VAssignFails d k =>     (* _maximum_size is assigned first; the std::map drops its nodes, then copies; nothing is done if it is the same map *)
        match s d, s k with
        | Some c1, Some c2 =>
            if Nat.eqb d k then Some (s, RUnit)
            else match copy_elems true (c_elems c2) with
                 | Some es => Some (set_var s d (Some (set_elems c2 es)), RUnit)
                 | None => Some (set_var s d (Some (mkCache (c_max c2) [] (c_next c2))), RThrow (EUser 0))
                 end
        | _, _ => None
        end
    | VCall k o =>
        match s k with
        | Some c => match step c o with (Some c', r) => Some (set_var s k (Some c'), r) | (None, _) => None end
        | None => None
        end
    end.
  Fixpoint vrun (s : vars) (p : list vop) : option (vars * list out) :=
    match p with
    | [] => Some (s, [])
    | o :: p' =>
        match vstep s o with
        | Some (s', r) => match vrun s' p' with Some (s'', l) => Some (s'', r :: l) | None => None end
        | None => None
        end
    end.
End LruModel.
Arguments node : clear implicits.
Arguments cache : clear implicits.
Arguments op : clear implicits.
Arguments out : clear implicits.
Arguments vref : clear implicits.
Arguments vop : clear implicits.
Arguments vars : clear implicits.
