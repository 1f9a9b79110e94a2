(** SharedSyncModel.v -- threads using SharedArrays (include/array.hpp 223-247): the members as accesses to shared memory.
    Definitions only.  The state is that of SharedModel.v.

    - [LVar a]: the members of the variable a; [LCount c]: a share count; [LArr p]: the elements of an array.
    - Simplified: the elements of one array are one location (threads accessing different elements count as accessing the same
      memory); no operation fails.  Destruction is left out: it is undefined whatever the threads do (C20).
    - A write to a count that another thread has freed since it was read is not seen as undefined; it is a data race. *)
From Verif Require Import Base SharedModel SyncModel.

Section SharedSync.
  Context {V : Type}.
  Inductive sloc := LVar (a : nat) | LCount (c : nat) | LArr (p : nat).
  Notation sact := (act (sst V) sloc (sout V)).
  (** the calls of a thread *)
  Inductive top := TCopy (d s : nat) | TAssign (d s : nat) | TSet (a i : nat) (v : V) | TGet (a i : nat) | TSize (a : nat).
  Definition seq_op (o : top) : sop V :=
    match o with
    | TCopy d s => SCopy d s | TAssign d s => SAssign d s | TSet a i v => SSet a i (TVal v) | TGet a i => SGet a i | TSize a => SSize a
    end.

  (** one access that reads: what SharedModel finds there *)
  Definition look {A} (l : sloc) (m : M (sst V) A) (k : A -> sact) : sact :=
    Read l (fun s => match m s with Ret a _ => k a | Ub r => Undefined r | _ => Undefined UbUninit end).
  Definition get_var_code (a : nat) := look (LVar a) (sget_var a).
  Definition count_code (c : nat * Z) := look (LCount (fst c)) (count_at c).
  Definition array_code (p : nat) := look (LArr p) (array_at p).
  Definition put_var_code (a : nat) (x : svar) : sact -> sact :=
    Write (LVar a) (fun s => mkS (upd a x (svars s)) (counts s) (arrays s) (scd s)).
  Definition put_count_code (c : nat * Z) (z : Z) (freed : bool) : sact -> sact :=
    Write (LCount (fst c)) (fun s => mkS (svars s) (upd (fst c) (SharedModel.mkC z freed) (counts s)) (arrays s) (scd s)).
  Definition put_array_code (p : nat) (l : list (option V)) (freed : bool) : sact -> sact :=
    Write (LArr p) (fun s => mkS (svars s) (counts s) (upd p (mkA l freed) (arrays s)) (scd s)).
  (** the elements of an array that may be deleted *)
  Definition deletable (p : nat) : M (sst V) (list (option V)) := fun s =>
    match nth_error (arrays s) p with
    | Some k => if a_freed k then Ub UbDoubleFree else Ret (a_cells k) s
    | None => Ub UbDoubleFree
    end.
  (** ++ *_count, -- *_count *)
  Definition add_count_code (c : nat * Z) (z : Z) (k : sact) : sact :=
    count_code c (fun n => put_count_code c (wrap64 (n + z)) false k).

  (** 237 *)
  Definition copy_code (d s : nat) : sact :=
    look (LVar d) (sfresh d) (fun _ => get_var_code s (fun m =>
      put_var_code d (SArr (fst (fst m)) (snd (fst m)) (snd m)) (add_count_code (fst (fst m)) 1 (Fin SDone)))).
  (** 238-239 *)
  Definition assign_code (d s : nat) : sact :=
    get_var_code d (fun m => get_var_code s (fun k =>
      if snd m =? snd k then Fin SDone
      else
        let tail := get_var_code s (fun k =>
          put_var_code d (SArr (fst (fst k)) (snd (fst k)) (snd k)) (add_count_code (fst (fst k)) 1 (Fin SDone))) in
        add_count_code (fst (fst m)) (-1) (count_code (fst (fst m)) (fun z =>
          if (z =? 0)%Z
          then count_code (fst (fst m)) (fun z => put_count_code (fst (fst m)) z true
                 (look (LArr (snd m)) (deletable (snd m)) (fun l => put_array_code (snd m) l true tail)))
          else tail)))).
  (** 240-242 *)
  Definition get_code (a i : nat) : sact := get_var_code a (fun m => look (LArr (snd m)) (sload (snd m) i) (fun v => Fin (SVal v))).
  Definition set_code (a i : nat) (v : V) : sact :=
    get_var_code a (fun m => array_code (snd m) (fun l =>
      match nth_error l i with
      | Some _ => put_array_code (snd m) (upd i (Some v) l) false (Fin SDone)
      | None => Undefined UbOutOfBounds
      end)).
  Definition size_code (a : nat) : sact := get_var_code a (fun m => Fin (SNat (snd (fst m)))).

  Definition shared_code (o : top) : sact :=
    match o with
    | TCopy d s => copy_code d s | TAssign d s => assign_code d s | TSet a i v => set_code a i v | TGet a i => get_code a i
    | TSize a => size_code a
    end.
End SharedSync.
Arguments top : clear implicits.
