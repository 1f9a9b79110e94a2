(** SharedSpec.v -- shared arrays as variables referring to objects, each object a sequence of elements. *)
From Verif Require Import Base SharedModel.

Section Spec.
  Context {V : Type} (dini : option V).
  (** [refs]: the object each variable refers to, [None] for one not in scope; [objs]: the objects created so far *)
  Record shst := mkSh { refs : list (option nat); objs : list (list (option V)) }.
  Definition shinit (n : nat) : shst := mkSh (repeat None n) [].

  Definition ref_of (m : shst) (a : nat) : option nat := match nth_error (refs m) a with Some r => r | None => None end.
  Definition is_new (m : shst) (d : nat) : bool := match nth_error (refs m) d with Some None => true | _ => false end.
  Definition obj_of (m : shst) (a : nat) : option (nat * list (option V)) :=
    match ref_of m a with
    | Some o => match nth_error (objs m) o with Some l => Some (o, l) | None => None end
    | None => None
    end.
  (** how many variables share an object *)
  Definition sharers (m : shst) (o : nat) : nat :=
    length (filter (fun r => match r with Some o' => o' =? o | None => false end) (refs m)).
  Definition elem_of (m : shst) (a i : nat) : option V :=
    match obj_of m a with
    | Some (_, l) => match nth_error l i with Some c => c | None => None end
    | None => None
    end.
  Definition sarg_val (m : shst) (t : sarg V) : option V := match t with TVal v => Some v | TElem a i => elem_of m a i end.
  Definition create (m : shst) (d : nat) (l : list (option V)) : option (sout V * shst) :=
    if is_new m d then Some (SDone, mkSh (upd d (Some (length (objs m))) (refs m)) (objs m ++ [l])) else None.
  Fixpoint all_values (l : list (option V)) : option (list V) :=
    match l with
    | [] => Some []
    | Some v :: l => match all_values l with Some vs => Some (v :: vs) | None => None end
    | None :: _ => None
    end.

  Definition shstep (m : shst) (o : sop V) : option (sout V * shst) :=
    match o with
    | SNew d n => create m d (repeat dini n)
    | SValue d n t => match sarg_val m t with Some x => create m d (repeat (Some x) n) | None => None end
    | SList d l => create m d (map Some l)
    | SCopy d s => match ref_of m s with
                   | Some o => if is_new m d then Some (SDone, mkSh (upd d (Some o) (refs m)) (objs m)) else None
                   | None => None
                   end
    | SAssign d s => match ref_of m d, ref_of m s with
                     | Some _, Some o => Some (SDone, mkSh (upd d (Some o) (refs m)) (objs m))
                     | _, _ => None
                     end
    | SSet a i t => match obj_of m a, sarg_val m t with
                    | Some (o, l), Some x => if i <? length l then Some (SDone, mkSh (refs m) (upd o (upd i (Some x) l) (objs m))) else None
                    | _, _ => None
                    end
    | SGet a i => match elem_of m a i with Some v => Some (SVal v, m) | None => None end
    | SSize a => match obj_of m a with Some (_, l) => Some (SNat (length l), m) | None => None end
    | SElems a => match obj_of m a with
                  | Some (_, l) => match all_values l with Some vs => Some (SVals vs, m) | None => None end
                  | None => None
                  end
    | SDestroy _ => None
    end.
  Fixpoint shexec (m : shst) (p : list (sop V)) : option (list (sout V) * shst) :=
    match p with
    | [] => Some ([], m)
    | o :: p => match shstep m o with
                | Some (x, m1) => match shexec m1 p with Some (l, m2) => Some (x :: l, m2) | None => None end
                | None => None
                end
    end.

  (** ** what can be seen in a state of the model *)
  (** the elements and the count behind a variable *)
  Definition seen_elems (s : sst V) (a : nat) : option (list (option V)) :=
    match nth_error (svars s) a with
    | Some (SArr _ n p) => match nth_error (arrays s) p with
                           | Some k => if a_freed k then None else if length (a_cells k) =? n then Some (a_cells k) else None
                           | None => None
                           end
    | _ => None
    end.
  Definition seen_count (s : sst V) (a : nat) : option Z :=
    match nth_error (svars s) a with
    | Some (SArr (c, off) _ _) => match nth_error (counts s) c with
                                  | Some k => if c_freed k || negb (off =? 0)%Z then None else Some (c_val k)
                                  | None => None
                                  end
    | _ => None
    end.
  (** blocks not released yet *)
  Definition live_arrays (s : sst V) : nat := length (filter (fun k => negb (a_freed k)) (arrays s)).
  Definition live_counts (s : sst V) : nat := length (filter (fun k => negb (c_freed k)) (counts s)).
  (** objects somebody refers to *)
  Definition live_objects (m : shst) : nat := length (filter (fun o => negb (sharers m o =? 0)) (seq 0 (length (objs m)))).
End Spec.
Arguments shst : clear implicits.
