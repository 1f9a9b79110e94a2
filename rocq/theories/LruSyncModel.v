(** LruSyncModel.v -- threads sharing one LRUCache (include/lru_cache.hpp): the public members as accesses to shared memory.
    Definitions only.

    - [LTree]: the structure of the std::map _elements (line 107), with the keys and values of its nodes; finding, iterating, size() and reading
      a value read it, erase and insert write it.
    - [LAge i]: the member age of the node at position [i]; positions change only when [LTree] is written.
    - [LMax]: _maximum_size (line 106), never written after construction.
    - The caller of get copies the value before it does anything else (in particular before it unlocks a mutex). *)
From Verif Require Import Base StdOrd LruModel SyncModel.

Section LruSync.
  Context {L V : Type} (ltb : L -> L -> bool).
  Inductive lloc := LTree | LAge (i : nat) | LMax.
  Notation lact := (act (cache L V) lloc (out V)).

  (** writing the age of the node at position [i] *)
  Definition write_age (i : nat) (a : Z) (c : cache L V) : cache L V :=
    match nth_error (c_elems c) i with Some n => set_elems c (upd i (set_age n a) (c_elems c)) | None => c end.
  (** reading it; there must be such a node *)
  Definition read_age (i : nat) (k : Z -> lact) : lact :=
    Read (LAge i) (fun c => match nth_error (c_elems c) i with Some n => k (n_age n) | None => Undefined UbOutOfBounds end).
  (** lru_cache.hpp:65, 83, 88: age++ *)
  Definition age_incr (i : nat) (k : lact) : lact := read_age i (fun a => Write (LAge i) (write_age i (wrap64 (a + 1))) k).

  (** lru_cache.hpp:63-66; advancing the iterator reads the tree *)
  Fixpoint get_loop_code (e : nat) (todo : list nat) (k : lact) : lact :=
    match todo with
    | [] => k
    | i :: todo' =>
        Read LTree (fun _ => read_age i (fun a => read_age e (fun b =>
          if (a <? b)%Z then age_incr i (get_loop_code e todo' k) else get_loop_code e todo' k)))
    end.
  (** lru_cache.hpp:67-68, and the caller reading the value *)
  Definition get_end_code (e : nat) : lact :=
    Write (LAge e) (write_age e 0%Z)
      (Read LTree (fun c => match nth_error (c_elems c) e with Some n => Fin (RVal (n_val n)) | None => Undefined UbDangling end)).
  (** lru_cache.hpp:60-69 get *)
  Definition get_code (l : L) : lact :=
    Read LTree (fun c => match find_pos n_key ltb l (c_elems c) with
                         | None => Fin (RThrow ERuntime)
                         | Some e => get_loop_code e (seq 0 (length (c_elems c))) (get_end_code e)
                         end).
  (** lru_cache.hpp:56 has_label; 72-76 age *)
  Definition has_code (l : L) : lact :=
    Read LTree (fun c => Fin (RBool match find_pos n_key ltb l (c_elems c) with Some _ => true | None => false end)).
  Definition age_code (l : L) : lact :=
    Read LTree (fun c => match find_pos n_key ltb l (c_elems c) with
                         | None => Fin (RThrow ERuntime)
                         | Some e => read_age e (fun a => Fin (RNum a))
                         end).

  (** lru_cache.hpp:92 *)
  Definition insert_code (l : L) (v : V) : lact :=
    Write LTree (fun c => mkCache (c_max c) (insert_elem n_key ltb (mkNode (c_next c) l 0%Z v) (c_elems c)) (S (c_next c))) (Fin RUnit).
  (** lru_cache.hpp:83 *)
  Fixpoint age_all_code (todo : list nat) (k : lact) : lact :=
    match todo with [] => k | i :: todo' => Read LTree (fun _ => age_incr i (age_all_code todo' k)) end.
  (** lru_cache.hpp:86-90 *)
  Fixpoint put_loop_code (todo : list nat) (to_remove : option nat) (k : lact) : lact :=
    match todo with
    | [] => match to_remove with
            | Some i => Write LTree (fun c => set_elems c (erase_at i (c_elems c))) k
            | None => Undefined UbEraseEnd
            end
    | i :: todo' =>
        Read LTree (fun _ => read_age i (fun a => Read LMax (fun c =>
          age_incr i (put_loop_code todo' (if (a =? wrap64 (c_max c - 1))%Z then Some i else to_remove) k))))
    end.
  (** lru_cache.hpp:80-93 put *)
  Definition put_code (l : L) (v : V) : lact :=
    Read LTree (fun c => match find_pos n_key ltb l (c_elems c) with
      | Some _ => Fin (RThrow ERuntime)
      | None => Read LMax (fun c1 => Read LTree (fun c2 =>
          let all := seq 0 (length (c_elems c2)) in
          if (Z.of_nat (length (c_elems c2)) <? c_max c1)%Z
          then age_all_code all (insert_code l v) else put_loop_code all None (insert_code l v)))
      end).

  Definition lru_code (o : op L V) : lact :=
    match o with
    | OHas l => has_code l
    | OGet l => get_code l
    | OAge l => age_code l
    | OPut l v => put_code l v
    | OSize => Read LTree (fun c => Fin (RNum (current_size c)))          (* 96-98 *)
    | OMax => Read LMax (fun c => Fin (RNum (maximum_size c)))            (* 101-103 *)
    end.
End LruSync.
