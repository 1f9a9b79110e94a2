(** ArraySpec.v -- arrays as independent variables holding finite sequences. *)
From Verif Require Import Base ArrayModel.

Section Spec.
  Context {V : Type} (sz : Z) (dflt : V) (eq_dec : forall x y : V, {x = y} + {x <> y}).

  (** a variable: not in scope, or a sequence of elements, [None] for one that was not constructed yet.  [own]
      tells whether the array has storage: one without storage is empty. *)
  Inductive vslot := VDead | VArr (own : bool) (l : list (option V)).
  (** the variables, and how many blocks of storage and how many elements were lost so far *)
  Record vst := mkVst { store : list vslot; lost_blocks : nat; lost_elems : nat }.
  Definition vinit (n : nat) : vst := mkVst (repeat VDead n) 0 0.

  Definition lookup (m : vst) (a : nat) : option (bool * list (option V)) :=
    match nth_error (store m) a with Some (VArr own l) => Some (own, l) | _ => None end.
  Definition is_free (m : vst) (d : nat) : bool := match nth_error (store m) d with Some VDead => true | _ => false end.
  (** all elements of a sequence have been constructed *)
  Fixpoint values (l : list (option V)) : option (list V) :=
    match l with
    | [] => Some []
    | Some v :: l => match values l with Some vs => Some (v :: vs) | None => None end
    | None :: _ => None
    end.
  Definition count_live (l : list (option V)) : nat := length (filter (fun c => match c with Some _ => true | None => false end) l).
  Definition seq_of (m : vst) (a : nat) : option (bool * list V) :=
    match lookup m a with
    | Some (own, l) => match values l with Some vs => Some (own, vs) | None => None end
    | None => None
    end.
  Definition set (m : vst) (a : nat) (x : vslot) : vst := mkVst (upd a x (store m)) (lost_blocks m) (lost_elems m).
  Definition lose (m : vst) (b e : nat) : vst := mkVst (store m) (lost_blocks m + b) (lost_elems m + e).
  Definition hold (vs : list V) : vslot := VArr true (map Some vs).

  (** the value of an argument *)
  Definition arg_val (m : vst) (t : arg V) : option V :=
    match t with
    | AVal v => Some v
    | AElem a i => match lookup m a with
                   | Some (_, l) => match nth_error l i with Some c => c | None => None end
                   | None => None
                   end
    end.
  (** the sequence between two iterators, the second not before the first *)
  Definition src_val (m : vst) (x : src V) : option (list V) :=
    match x with
    | SList f l => Some (map f l)
    | SRange f a i j =>
        match lookup m a with
        | Some (_, l) => if (i <=? j) && (j <=? length l)
                         then match values (firstn (j - i) (skipn i l)) with Some vs => Some (map f vs) | None => None end
                         else None
        | None => None
        end
    end.
  (** two iterators in the wrong order *)
  Definition reversed (m : vst) (x : src V) : bool :=
    match x with
    | SList _ _ => false
    | SRange _ a i j => match lookup m a with Some (_, l) => (j <? i) && (i <=? length l) | None => false end
    end.
  Definition inside (a : nat) (x : src V) : bool := match x with SList _ _ => false | SRange _ s _ _ => a =? s end.

  (** what becomes of creating n elements in new storage *)
  Inductive attempt := Success | NoMemory | ElemFails (j : nat).
  Definition try_new (n : nat) (fail : option nat) : attempt :=
    if (2 ^ 63 <=? Z.of_nat n * sz)%Z then NoMemory
    else match fail with
         | None => Success
         | Some 0 => NoMemory
         | Some (S j) => if j <? n then ElemFails j else Success
         end.
  (** the number of bytes is representable *)
  Definition sane (n : nat) : bool := (Z.of_nat n * sz <? 2 ^ 64)%Z.

  Definition ok (m : vst) : option (out V * vst) := Some (ODone, m).
  Definition raise (e : exn) (m : vst) : option (out V * vst) := Some (OExc e, m).
  (** new variable with the elements [vs]; if an element fails, the storage and the elements before it are lost *)
  Definition s_build (m : vst) (d : nat) (vs : list V) (fail : option nat) : option (out V * vst) :=
    if is_free m d && sane (length vs) then
      match try_new (length vs) fail with
      | Success => ok (set m d (hold vs))
      | NoMemory => raise EBadAlloc m
      | ElemFails j => raise (EUser 0) (lose m 1 j)
      end
    else None.
  (** the elements [l] of variable [a] are overwritten one after the other; a failure leaves the rest *)
  Definition s_fill (m : vst) (a : nat) (own : bool) (l vs : list V) (fail : option nat) : option (out V * vst) :=
    match fail with
    | Some j => if j <? length l then raise (EUser 0) (set m a (VArr own (map Some (firstn j vs ++ skipn j l))))
                else ok (set m a (VArr own (map Some vs)))
    | None => ok (set m a (VArr own (map Some vs)))
    end.
  (** resizing is all or nothing, but what was created before a failure is lost *)
  Definition resized (n : nat) (l : list V) (x : V) : list V := firstn n l ++ repeat x (n - length l).
  Definition s_resize (m : vst) (a n : nat) (l : list V) (x : V) (fail : option nat) : option (out V * vst) :=
    if n =? length l then ok m
    else if sane n then
      match try_new n fail with
      | Success => ok (set m a (hold (resized n l x)))
      | NoMemory => raise EBadAlloc m
      | ElemFails j => raise (EUser 0) (lose m 1 j)
      end
    else None.
  (** new elements instead of the old ones; no meaning is given to a failure *)
  Definition s_replace (m : vst) (a : nat) (vs : list V) (fail : option nat) : option (out V * vst) :=
    if sane (length vs) then match try_new (length vs) fail with Success => ok (set m a (hold vs)) | _ => None end else None.
  Definition after (n : nat) (fail : option nat) : option nat := match fail with Some k => Some (k - n) | None => None end.

  (** A statement, and the number of the allocation or element operation in it that fails.  [None]: the statement
      is not well formed. *)
  Definition sstep (m : vst) (o : op V) (fail : option nat) : option (out V * vst) :=
    match o with
    | OpDefault d => if is_free m d then ok (set m d (VArr false [])) else None
    | OpSize d n => s_build m d (repeat dflt n) fail
    | OpUninit d n =>
        if is_free m d && sane n then
          match try_new 0 fail, try_new n None with
          | Success, Success => ok (set m d (VArr true (repeat None n)))
          | _, _ => raise EBadAlloc m
          end
        else None
    | OpValue d n t => match arg_val m t with Some x => s_build m d (repeat x n) fail | None => None end
    | OpFrom d x =>
        if is_free m d && reversed m x then raise EBadAlloc m
        else match src_val m x with Some vs => s_build m d vs fail | None => None end
    | OpGen d n g => s_build m d (map g (seq 0 n)) fail
    | OpCopy d s f => match seq_of m s with Some (_, vs) => s_build m d (map f vs) fail | None => None end
    | OpMove d s =>
        match lookup m s with
        | Some (own, l) => if is_free m d then ok (set (set m s (VArr false [])) d (VArr own l)) else None
        | None => None
        end
    | OpDestroy a => match seq_of m a with Some _ => ok (set m a VDead) | None => None end
    | OpAssign d s =>
        match seq_of m d, seq_of m s with
        | Some (own, l), Some (_, vs) =>
            if length l =? length vs then s_fill m d own l vs fail else s_replace m d vs fail
        | _, _ => None
        end
    | OpMoveAssign d s =>
        match lookup m d, lookup m s with
        | Some (own, l), Some (own', l') =>
            if d =? s then ok m
            else ok (lose (set (set m d (VArr own' l')) s (VArr false [])) (if own then 1 else 0) (count_live l))
        | _, _ => None
        end
    | OpSwap a b =>
        match lookup m a, lookup m b with
        | Some (own, l), Some (own', l') => ok (set (set m a (VArr own' l')) b (VArr own l))
        | _, _ => None
        end
    | OpResize a n t =>
        match seq_of m a, match t with None => Some dflt | Some t => arg_val m t end with
        | Some (_, l), Some x => s_resize m a n l x fail
        | _, _ => None
        end
    | OpReallocate a n =>
        match seq_of m a with
        | Some (_, l) => if n =? length l then ok m else s_replace m a (repeat dflt n) fail
        | None => None
        end
    | OpFill a t =>
        match seq_of m a, arg_val m t with
        | Some (own, l), Some x => s_fill m a own l (repeat x (length l)) fail
        | _, _ => None
        end
    | OpFillFrom a x =>
        match seq_of m a, src_val m x with
        | Some (own, l), Some vs =>
            if length l <=? length vs then s_fill m a own l (firstn (length l) vs) fail else None
        | _, _ => None
        end
    | OpAssignRange a x =>
        match seq_of m a with
        | Some (own, l) =>
            if reversed m x then raise EBadAlloc m
            else match src_val m x with
                 | Some vs =>
                     if length vs =? length l then s_fill m a own l vs fail
                     else if inside a x && negb (length vs =? 0) then None
                     else match s_resize m a (length vs) l dflt fail with
                          | Some (ODone, m') => s_fill m' a true (resized (length vs) l dflt) vs (after (S (length vs)) fail)
                          | r => r
                          end
                 | None => None
                 end
        | None => None
        end
    | OpSet a i t =>
        match lookup m a, arg_val m t with
        | Some (own, l), Some x =>
            match nth_error l i with
            | Some (Some _) => match fail with Some 0 => raise (EUser 0) m | _ => ok (set m a (VArr own (upd i (Some x) l))) end
            | _ => None
            end
        | _, _ => None
        end
    | OpSetAt a i t =>
        match lookup m a, arg_val m t with
        | Some (own, l), Some x =>
            match nth_error l i with
            | Some (Some _) => match fail with Some 0 => raise (EUser 0) m | _ => ok (set m a (VArr own (upd i (Some x) l))) end
            | Some None => None
            | None => raise EOutOfRange m
            end
        | _, _ => None
        end
    | OpPlace a i t =>
        match lookup m a, arg_val m t with
        | Some (own, l), Some x =>
            match nth_error l i with
            | Some c => match fail with
                        | Some 0 => raise (EUser 0) m
                        | _ => ok (lose (set m a (VArr own (upd i (Some x) l))) 0 (match c with Some _ => 1 | None => 0 end))
                        end
            | None => None
            end
        | _, _ => None
        end
    | OpGet a i => match lookup m a with
                   | Some (_, l) => match nth_error l i with Some (Some v) => Some (OVal v, m) | _ => None end
                   | None => None
                   end
    | OpAt a i => match lookup m a with
                  | Some (_, l) => match nth_error l i with
                                   | Some (Some v) => Some (OVal v, m)
                                   | Some None => None
                                   | None => raise EOutOfRange m
                                   end
                  | None => None
                  end
    | OpFront a => match seq_of m a with Some (_, v :: _) => Some (OVal v, m) | _ => None end
    | OpBack a => match seq_of m a with Some (_, v :: l) => Some (OVal (last (v :: l) v), m) | _ => None end
    | OpList a => match seq_of m a with Some (_, l) => Some (OVals l, m) | None => None end
    | OpEq a b => match seq_of m a, seq_of m b with
                  | Some (_, l), Some (_, l') => Some (OBool (if list_eq_dec eq_dec l l' then true else false), m)
                  | _, _ => None
                  end
    | OpNe a b => match seq_of m a, seq_of m b with
                  | Some (_, l), Some (_, l') => Some (OBool (if list_eq_dec eq_dec l l' then false else true), m)
                  | _, _ => None
                  end
    | OpLen a => match lookup m a with Some (_, l) => Some (ONat (length l), m) | None => None end
    | OpEmpty a => match lookup m a with Some (_, l) => Some (OBool (match l with [] => true | _ => false end), m) | None => None end
    end.
  Fixpoint sexec (m : vst) (p : list (op V * option nat)) : option (list (out V) * vst) :=
    match p with
    | [] => Some ([], m)
    | (o, f) :: p =>
        match sstep m o f with
        | Some (x, m1) => match sexec m1 p with Some (l, m2) => Some (x :: l, m2) | None => None end
        | None => None
        end
    end.

  (** ** What can be seen in a state of the model *)
  (** the elements of a variable that is in scope and has storage of its own for exactly its elements *)
  Definition contents (s : st V) (a : nat) : option (list (option V)) :=
    match nth_error (vars s) a with
    | Some (Arr n None) => if n =? 0 then Some [] else None
    | Some (Arr n (Some b)) =>
        match nth_error (heap s) b with
        | Some k => if negb (b_freed k) && (length (b_cells k) =? n) then Some (b_cells k) else None
        | None => None
        end
    | _ => None
    end.
  Definition holds (s : st V) (a : nat) (l : list V) : Prop := contents s a = Some (map Some l).
  (** storage not released yet *)
  Definition unreleased (s : st V) : nat := length (filter (fun k => negb (b_freed k)) (heap s)).
  (** no other variable refers to the storage of [a] *)
  Definition sole_owner (s : st V) (a : nat) : Prop :=
    forall c n m b, nth_error (vars s) a = Some (Arr n (Some b)) -> nth_error (vars s) c = Some (Arr m (Some b)) -> c = a.
  (** the next failure *)
  Definition no_failure (s : st V) : Prop := cd s = None.
  Definition with_failure (f : option nat) (s : st V) : st V := mkSt (vars s) (heap s) (made s) (gone s) f.

  (** ** Single calls *)
  (** the value an argument refers to *)
  Definition arg_is (s : st V) (t : arg V) (x : V) : Prop :=
    match t with AVal v => v = x | AElem a i => exists l, holds s a l /\ nth_error l i = Some x end.
  (** the sequence between two iterators *)
  Definition src_is (s : st V) (y : src V) (vs : list V) : Prop :=
    match y with
    | SList f l => vs = map f l
    | SRange f a i j => exists l, holds s a l /\ i <= j <= length l /\ vs = map f (firstn (j - i) (skipn i l))
    end.
  (** a constructor that makes [d] hold [vs] in newly allocated storage *)
  Inductive constructs (s : st V) (d : nat) : op V -> list V -> Prop :=
  | CSize n : constructs s d (OpSize d n) (repeat dflt n)
  | CValue n t x : arg_is s t x -> constructs s d (OpValue d n t) (repeat x n)
  | CFrom y vs : src_is s y vs -> constructs s d (OpFrom d y) vs
  | CGen n g : constructs s d (OpGen d n g) (map g (seq 0 n))
  | CCopy a f l : holds s a l -> constructs s d (OpCopy d a f) (map f l).
  Definition new_var (s : st V) (d : nat) : Prop := nth_error (vars s) d = Some Dead.
  (** the bytes available to variable [a] *)
  Definition storage (s : st V) (a : nat) : option Z :=
    match nth_error (vars s) a with
    | Some (Arr _ (Some b)) =>
        match nth_error (heap s) b with Some k => if b_freed k then None else Some (b_bytes k) | None => None end
    | _ => None
    end.
  (** all other variables are unaffected *)
  Definition others_kept (s s' : st V) (a : nat) : Prop :=
    forall c l, c <> a -> contents s c = Some l -> contents s' c = Some l.
  Definition all_kept (s s' : st V) : Prop := forall c l, contents s c = Some l -> contents s' c = Some l.
  (** operator new can provide storage for n elements *)
  Definition allocatable (n : nat) : Prop := (Z.of_nat n * sz < 2 ^ 63)%Z.
  (** the value of the new elements of resize(n) and resize(n,t) *)
  Definition filler_is (s : st V) (t : option (arg V)) (x : V) : Prop := match t with None => x = dflt | Some t => arg_is s t x end.
  (** the statements that can lose storage or elements even if nothing fails *)
  Definition may_lose (o : op V) : bool := match o with OpMoveAssign _ _ | OpPlace _ _ _ => true | _ => false end.
  (** all variables have been destroyed *)
  Definition all_destroyed (m : vst) : Prop := Forall (fun x => x = VDead) (store m).
  (** no storage and no element has been lost or released *)
  Definition balanced (s s' : st V) : Prop := unreleased s' = unreleased s /\ made s' = made s /\ gone s' = gone s.
End Spec.
Arguments vslot : clear implicits.
Arguments vst : clear implicits.
Arguments VDead {V}.

From Coq Require Import Sorted.
(** strictly increasing indices below nmax *)
Definition increasing_below (nmax : nat) (l : list nat) : Prop := StronglySorted lt l /\ Forall (fun x => x < nmax) l.
