(** SetModel.v -- model of class Set and the set functions of include/container.hpp.
    Definitions only.  A std::set<T> is the sorted list of its elements (StdOrd.v); named variables
    make aliased calls ([s.remove(s)]) visible.  An iterator is the element it points to
    ([None] = end()); std::set iterators survive insertions and erasures of other elements. *)
From Verif Require Import Base StdOrd.

Section SetModel.
  Context {T : Type} (ltb : T -> T -> bool).
  Notation key := (fun x : T => x).
  Notation sstore := (nat -> list T).

  (** begin() and ++it *)
  Definition it_begin (l : list T) : option T := hd_error l.
  Definition it_next (x : T) (l : list T) : option T := find (fun y => ltb x y) l.

  (** std::set members *)
  Definition sfind (l : list T) (t : T) : bool :=           (* find(t)!=end() *)
    match find_pos key ltb t l with Some _ => true | None => false end.
  Definition sinsert (l : list T) (t : T) : list T := insert_elem key ltb t l.
  Definition serase (l : list T) (t : T) : list T := erase_key key ltb t l.

  (** range constructor std::set(first,last), container.hpp:167-172 *)
  Definition set_of_list (l : list T) : list T := fold_left sinsert l [].

  (** container.hpp:176-177 contains (member), 211-212 (free) *)
  Definition contains (l : list T) (t : T) : bool := sfind l t.

  (** container.hpp:178-180 member subset: loops over the argument *)
  Fixpoint member_subset (this s : list T) : bool :=
    match s with
    | [] => true
    | x :: s' => if negb (contains this x) then false else member_subset this s'
    end.
  (** container.hpp:181-183 and 184-186 member disjoint (set and vector argument) *)
  Fixpoint member_disjoint (this s : list T) : bool :=
    match s with
    | [] => true
    | x :: s' => if contains this x then false else member_disjoint this s'
    end.
  (** container.hpp:213-215 free subset *)
  Fixpoint subset (s1 s2 : list T) : bool :=
    match s1 with
    | [] => true
    | x :: s' => if negb (contains s2 x) then false else subset s' s2
    end.
  (** container.hpp:216-218 free disjoint of sets *)
  Fixpoint disjoint (s1 s2 : list T) : bool :=
    match s1 with
    | [] => true
    | x :: s' => if contains s2 x then false else disjoint s' s2
    end.
  (** container.hpp:219-221 free disjoint of a set and a vector: loops over the vector *)
  Fixpoint disjoint_list (s1 l2 : list T) : bool :=
    match l2 with
    | [] => true
    | x :: l' => if contains s1 x then false else disjoint_list s1 l'
    end.

  (** Aliasing: the content of an argument [s] of a member function while the target changes.
      [src l] is the content of the argument when the target contains [l]: [fun l => l] if the
      argument is the target itself, constant otherwise. *)
  Definition self_arg : list T -> list T := fun l => l.
  Definition other_arg (s : list T) : list T -> list T := fun _ => s.

  (** container.hpp:187-188 adjoin: for(iter=s.begin(); iter!=s.end(); ++iter) this->insert( *iter);
      [None] = out of fuel *)
  Fixpoint adjoin_loop (fuel : nat) (it : option T) (src : list T -> list T) (l : list T) : option (list T) :=
    match fuel with
    | O => None
    | S fuel' =>
        match it with
        | None => Some l
        | Some x => let l' := sinsert l x in adjoin_loop fuel' (it_next x (src l')) src l'
        end
    end.
  Definition adjoin (src : list T -> list T) (l : list T) : option (list T) :=
    adjoin_loop (S (length (src l))) (it_begin (src l)) src l.

  (** container.hpp:189-192 remove(t): find, erase if found *)
  Definition remove_elem (t : T) (l : list T) : list T :=
    match find_elem key ltb t l with
    | Some e => serase l e
    | None => l
    end.

  (** container.hpp:193-196 (member remove), 197-200 (member restrict) and 229-236 (free remove and
      restrict): while(iter!=end()) { if(cond) erase(iter++); else ++iter; };
      [erase_if] says for which result of [contains(s, *iter)] the element is erased. *)
  Fixpoint erase_loop (erase_if : bool) (fuel : nat) (it : option T) (src : list T -> list T) (l : list T)
    : option (list T) :=
    match fuel with
    | O => None
    | S fuel' =>
        match it with
        | None => Some l
        | Some x =>
            let it' := it_next x l in
            if Bool.eqb (contains (src l) x) erase_if
            then erase_loop erase_if fuel' it' src (serase l x)
            else erase_loop erase_if fuel' it' src l
        end
    end.
  Definition member_remove (src : list T -> list T) (l : list T) : option (list T) :=
    erase_loop true (S (length l)) (it_begin l) src l.
  Definition member_restrict (src : list T -> list T) (l : list T) : option (list T) :=  (* erases if found *)
    erase_loop true (S (length l)) (it_begin l) src l.
  Definition free_remove (src : list T -> list T) (l : list T) : option (list T) :=
    erase_loop true (S (length l)) (it_begin l) src l.
  Definition free_restrict (src : list T -> list T) (l : list T) : option (list T) :=
    erase_loop false (S (length l)) (it_begin l) src l.

  (** container.hpp:201-204 remove(list) *)
  Definition remove_list (rl : list T) (l : list T) : list T := fold_left serase rl l.

  (** Functions returning a new set work on a local copy of s1, which is never the same object as s2.
      container.hpp:209-210 join(s1,s2) *)
  Definition join (s1 s2 : list T) : option (list T) := adjoin (other_arg s2) s1.
  (** container.hpp:222-223 intersection(s1,s2) *)
  Definition intersection (s1 s2 : list T) : option (list T) := free_restrict (other_arg s2) s1.
  (** container.hpp:227-228 difference(s1,s2) *)
  Definition difference (s1 s2 : list T) : option (list T) := free_remove (other_arg s2) s1.
  (** container.hpp:224-226 intersection(s1,list) *)
  Fixpoint intersection_list (s1 l2 r : list T) : list T :=
    match l2 with
    | [] => r
    | x :: l' => intersection_list s1 l' (if contains s1 x then sinsert r x else r)
    end.

  (** container.hpp:303-308 unique_elements *)
  Fixpoint unique_loop (found lst : list T) : bool :=
    match lst with
    | [] => true
    | x :: t => if contains found x then false else unique_loop (sinsert found x) t
    end.
  Definition unique_elements (lst : list T) : bool := unique_loop [] lst.
  (** container.hpp:310-315 duplicate_elements *)
  Fixpoint duplicate_loop (result found lst : list T) : list T :=
    match lst with
    | [] => result
    | x :: t => if contains found x then duplicate_loop (sinsert result x) found t
                else duplicate_loop result (sinsert found x) t
    end.
  Definition duplicate_elements (lst : list T) : list T := duplicate_loop [] [] lst.

  (** iterating from begin() to end(): what a range-for or the range constructor of List sees *)
  Fixpoint iterate (fuel : nat) (it : option T) (s : list T) : option (list T) :=
    match fuel with
    | O => None
    | S fuel' => match it with
                 | None => Some []
                 | Some x => option_map (cons x) (iterate fuel' (it_next x s) s)
                 end
    end.
  (** container.hpp:175,325 conversion of a set to a list; 327 make_set *)
  Definition make_list (s : list T) : option (list T) := iterate (S (length s)) (it_begin s) s.
  Definition make_set (l : list T) : list T := set_of_list l.

  (** ** Programs over set variables *)
  Inductive sop :=
  | SNew (d : nat)                         (* d = Set() *)
  | SFromList (d : nat) (l : list T)       (* d = Set(l) *)
  | SCopy (d s : nat)                      (* d = s *)
  | SInsert (d : nat) (t : T)              (* d.insert(t) *)
  | SAdjoin (d s : nat)                    (* d.adjoin(s) *)
  | SRemove (d : nat) (t : T)              (* d.remove(t) *)
  | SRemoveSet (d s : nat)                 (* d.remove(s) *)
  | SRemoveList (d : nat) (l : list T)     (* d.remove(l) *)
  | SFreeRemove (d s : nat)                (* remove(d,s) *)
  | SFreeRestrict (d s : nat)              (* restrict(d,s) *)
  | SMemberRestrict (d s : nat)            (* d.restrict(s) *)
  | SJoin (d s1 s2 : nat)                  (* d = join(s1,s2) *)
  | SIntersection (d s1 s2 : nat)          (* d = intersection(s1,s2) *)
  | SIntersectionList (d s1 : nat) (l : list T)  (* d = intersection(s1,l) *)
  | SDifference (d s1 s2 : nat).           (* d = difference(s1,s2) *)

  Definition arg (st : sstore) (d s : nat) : list T -> list T :=
    if Nat.eqb d s then self_arg else other_arg (st s).
  Definition store_result (d : nat) (st : sstore) (r : option (list T)) : res sstore unit :=
    match r with Some l => Ret tt (set_var st d l) | None => Fuel end.

  Definition sstep (o : sop) : M sstore unit := fun st =>
    match o with
    | SNew d => Ret tt (set_var st d [])
    | SFromList d l => Ret tt (set_var st d (set_of_list l))
    | SCopy d s => Ret tt (set_var st d (st s))
    | SInsert d t => Ret tt (set_var st d (sinsert (st d) t))
    | SAdjoin d s => store_result d st (adjoin (arg st d s) (st d))
    | SRemove d t => Ret tt (set_var st d (remove_elem t (st d)))
    | SRemoveSet d s => store_result d st (member_remove (arg st d s) (st d))
    | SRemoveList d l => Ret tt (set_var st d (remove_list l (st d)))
    | SFreeRemove d s => store_result d st (free_remove (arg st d s) (st d))
    | SFreeRestrict d s => store_result d st (free_restrict (arg st d s) (st d))
    | SMemberRestrict d s => store_result d st (member_restrict (arg st d s) (st d))
    | SJoin d s1 s2 => store_result d st (join (st s1) (st s2))
    | SIntersection d s1 s2 => store_result d st (intersection (st s1) (st s2))
    | SIntersectionList d s1 l => Ret tt (set_var st d (intersection_list (st s1) l []))
    | SDifference d s1 s2 => store_result d st (difference (st s1) (st s2))
    end.
  Fixpoint srun (ops : list sop) : M sstore unit :=
    match ops with
    | [] => ret tt
    | o :: t => (sstep o ;;; srun t)%M
    end.
End SetModel.
Arguments sop : clear implicits.
