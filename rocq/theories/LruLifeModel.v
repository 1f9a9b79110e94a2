(** LruLifeModel.v -- the objects of type L and V that LRUCache<L,V> (include/lru_cache.hpp) creates and destroys, with every point at
    which a call can throw.  Definitions only.

    - The counts are those of objects made by the cache; the arguments of put belong to the caller.
    - [_elements.insert({label,AgeValuePair(0,val)})] (92) creates, in this order: the parameter v and the member value of the
      AgeValuePair (47), a temporary std::pair<const L,AgeValuePair>, and the node (107), whose pair is made from the temporary one.
      The label in a pair is const, so that it is copied; the value is moved if V has a move constructor.
    - The parameter v ends when the constructor of AgeValuePair returns or at the end of the full expression, as the implementation
      chooses: [late].
    - Destructors and deallocation do not throw.  [sched]: whether each of the next operations that can throw does; no entry means no. *)
From Verif Require Import Base StdOrd LruModel.

Section Life.
  Context {L V : Type} (ltb : L -> L -> bool) (late movable : bool).

  Record life := mkLife { l_cache : cache L V; vals : nat; labs : nat; nodes : nat; v_copies : nat; v_moves : nat; l_copies : nat; sched : list bool }.
  Definition start (c : cache L V) : life := mkLife c 0 0 0 0 0 0 [].

  (** something that can throw *)
  Definition chance (e : exn) : M life unit := fun s =>
    match s with
    | mkLife c v l n vc vm lc [] => Ret tt s
    | mkLife c v l n vc vm lc (b :: t) => let s' := mkLife c v l n vc vm lc t in if b then Exc e s' else Ret tt s'
    end.
  Definition on_cache (f : cache L V -> cache L V) : M life unit := fun s =>
    Ret tt (mkLife (f (l_cache s)) (vals s) (labs s) (nodes s) (v_copies s) (v_moves s) (l_copies s) (sched s)).
  (** copying a value or a label, moving a value, operator new for a node; their destruction *)
  Definition copy_v : M life unit :=
    (chance (EUser 0) ;;; fun s => Ret tt (mkLife (l_cache s) (S (vals s)) (labs s) (nodes s) (S (v_copies s)) (v_moves s) (l_copies s) (sched s)))%M.
  Definition move_v : M life unit :=
    if movable then (chance (EUser 0) ;;; fun s => Ret tt (mkLife (l_cache s) (S (vals s)) (labs s) (nodes s) (v_copies s) (S (v_moves s)) (l_copies s) (sched s)))%M
    else copy_v.
  Definition copy_l : M life unit :=
    (chance (EUser 0) ;;; fun s => Ret tt (mkLife (l_cache s) (vals s) (S (labs s)) (nodes s) (v_copies s) (v_moves s) (S (l_copies s)) (sched s)))%M.
  Definition new_node : M life unit :=
    (chance EBadAlloc ;;; fun s => Ret tt (mkLife (l_cache s) (vals s) (labs s) (S (nodes s)) (v_copies s) (v_moves s) (l_copies s) (sched s)))%M.
  Definition end_v : M life unit := fun s =>
    match vals s with 0 => Ub UbDoubleFree | S n => Ret tt (mkLife (l_cache s) n (labs s) (nodes s) (v_copies s) (v_moves s) (l_copies s) (sched s)) end.
  Definition end_l : M life unit := fun s =>
    match labs s with 0 => Ub UbDoubleFree | S n => Ret tt (mkLife (l_cache s) (vals s) n (nodes s) (v_copies s) (v_moves s) (l_copies s) (sched s)) end.
  Definition end_node : M life unit := fun s =>
    match nodes s with 0 => Ub UbDoubleFree | S n => Ret tt (mkLife (l_cache s) (vals s) (labs s) n (v_copies s) (v_moves s) (l_copies s) (sched s)) end.

  (** [k], then [d], also if [k] throws; [k], and [d] only if [k] throws *)
  Definition finally (k d : M life unit) : M life unit := fun s =>
    match k s with
    | Ret x s' => d s'
    | Exc e s' => match d s' with Ret _ s2 => Exc e s2 | Exc e2 s2 => Abort | Ub r => Ub r | Abort => Abort | Fuel => Fuel end
    | r => r
    end.
  Definition on_throw (k d : M life unit) : M life unit := fun s =>
    match k s with
    | Exc e s' => match d s' with Ret _ s2 => Exc e s2 | Exc e2 s2 => Abort | Ub r => Ub r | Abort => Abort | Fuel => Fuel end
    | r => r
    end.

  (** a pair<const L,AgeValuePair> from a label and an AgeValuePair that may be moved from *)
  Definition make_pair : M life unit := (copy_l ;;; on_throw move_v end_l)%M.
  Definition end_pair : M life unit := (end_v ;;; end_l)%M.
  (** std::map::insert(value_type&&): compare labels, allocate a node, make its pair, link it *)
  Definition map_insert (label : L) (val : V) : M life unit :=
    (chance (EUser 0) ;;;
     new_node ;;; on_throw make_pair end_node ;;;
     on_cache (fun c => mkCache (c_max c) (insert_elem n_key ltb (mkNode (c_next c) label 0%Z val) (c_elems c)) (S (c_next c))))%M.
  (** with the AgeValuePair made *)
  Definition insert_avp (label : L) (val : V) : M life unit := (make_pair ;;; finally (map_insert label val) end_pair)%M.
  (** 92, 47 *)
  Definition insert_expr (label : L) (val : V) : M life unit :=
    if late then (copy_v ;;; finally (copy_v ;;; finally (insert_avp label val) end_v) end_v)%M
    else (copy_v ;;; finally copy_v end_v ;;; finally (insert_avp label val) end_v)%M.
  (** 90: the node erased *)
  Definition erase_expr (to_remove : option nat) : M life unit := fun s =>
    match put_erase to_remove (l_cache s) with
    | Ret _ c' => (end_pair ;;; end_node ;;; on_cache (fun _ => c'))%M s
    | Exc e _ => Exc e s | Ub r => Ub r | Abort => Abort | Fuel => Fuel
    end.
  (** 81-92, once labels have been compared *)
  Definition put_body (label : L) (val : V) : M life unit := fun s =>
    let c := l_cache s in
    match find_pos n_key ltb label (c_elems c) with
    | Some _ => Exc ERuntime s
    | None =>
        if (Z.of_nat (length (c_elems c)) <? c_max c)%Z
        then (on_cache (fun c => set_elems c (map incr_age (c_elems c))) ;;; insert_expr label val)%M s
        else match put_loop (seq 0 (length (c_elems c))) None c with
             | Ret r c' => (on_cache (fun _ => c') ;;; erase_expr r ;;; insert_expr label val)%M s
             | Exc e _ => Exc e s | Ub r => Ub r | Abort => Abort | Fuel => Fuel
             end
    end.
  (** 80-93: comparing labels may throw *)
  Definition life_put (label : L) (val : V) : M life unit := (chance (EUser 0) ;;; put_body label val)%M.

  (** One call with what fails in it.  The other members make and destroy nothing. *)
  Definition life_step (s : life) (o : op L V) (fails : list bool) : option life * out V :=
    let s := mkLife (l_cache s) (vals s) (labs s) (nodes s) (v_copies s) (v_moves s) (l_copies s) fails in
    match o with
    | OPut l v => match life_put l v s with
                  | Ret _ s' => (Some s', RUnit) | Exc e s' => (Some s', RThrow e) | _ => (None, RUb) end
    | _ => match step ltb (l_cache s) o with
           | (Some c', r) => (Some (mkLife c' (vals s) (labs s) (nodes s) (v_copies s) (v_moves s) (l_copies s) fails), r)
           | (None, r) => (None, r)
           end
    end.
  Fixpoint life_run (s : life) (ops : list (op L V * list bool)) : option life * list (out V) :=
    match ops with
    | [] => (Some s, [])
    | (o, f) :: t => match life_step s o f with
                     | (Some s', r) => let (s'', rs) := life_run s' t in (s'', r :: rs)
                     | (None, r) => (None, [r])
                     end
    end.
  (** the destructor of _elements *)
  Fixpoint end_nodes (n : nat) : M life unit := match n with 0 => ret tt | S n => (end_pair ;;; end_node ;;; end_nodes n)%M end.
  Definition life_destroy : M life unit := fun s =>
    (end_nodes (length (c_elems (l_cache s))) ;;; on_cache (fun c => set_elems c []))%M s.
End Life.
Arguments life : clear implicits.
