(** SyncModel.v -- threads using the library's global state: RANDOM_GENERATOR (include/randomiser.hpp:59), HELPER_TEST_FAILURES
    (include/test.hpp:41), the flags of HELPER_WARN_ONCE and HELPER_DEPRECATED (include/macros.hpp:149-171) and std::cerr.
    Definitions only.

    - A call is a tree of accesses to shared memory; the accesses of different threads are interleaved in any order.
    - Sequential consistency: the C++ memory model gives it to programs without data races, and data races are made visible ([race]).
    - The client may protect its calls by one std::mutex; locking a mutex one holds, or unlocking one that one does not hold, is undefined. *)
From Verif Require Import Base RandomModel.

(** undefined behaviour: within a call, or misuse of the mutex *)
Inductive bad := BadCall (r : ub_reason) | BadMutex.

Section Sync.
  Context {S Loc Op Out : Type}.
  Inductive act :=
  | Fin (a : Out)                                  (* the call returns *)
  | Read (l : Loc) (k : S -> act)
  | Write (l : Loc) (f : S -> S) (k : act)
  | Atomic (f : S -> S) (k : act)                  (* an access that is no part of a data race *)
  | Undefined (r : ub_reason).
  Context (code : Op -> act).

  Inductive stm := StLock | StUnlock | StDo (o : Op).
  (** [cur]: the call the thread is in, and what is left of it *)
  Record thread := mkT { cur : option (Op * act); rest : list stm; outs : list (Op * Out) }.
  (** [log]: the completed calls with their threads, in the order of completion *)
  Record config := mkC { shared : S; held : option nat; threads : list thread; log : list (nat * Op * Out) }.

  Definition held_by (c : config) (i : nat) : bool := match held c with Some j => Nat.eqb i j | None => false end.
  Definition put_thread (c : config) (i : nat) (t : thread) : list thread := upd i t (threads c).
  (** one step of thread [i]; a thread that is finished or waits for the mutex stays as it is *)
  Definition cstep (i : nat) (c : config) : config + bad :=
    match nth_error (threads c) i with
    | None => inl c
    | Some t =>
        match cur t with
        | Some (o, Fin a) =>
            inl (mkC (shared c) (held c) (put_thread c i (mkT None (rest t) (outs t ++ [(o, a)]))) (log c ++ [(i, o, a)]))
        | Some (o, Read l k) => inl (mkC (shared c) (held c) (put_thread c i (mkT (Some (o, k (shared c))) (rest t) (outs t))) (log c))
        | Some (o, Write l f k) => inl (mkC (f (shared c)) (held c) (put_thread c i (mkT (Some (o, k)) (rest t) (outs t))) (log c))
        | Some (o, Atomic f k) => inl (mkC (f (shared c)) (held c) (put_thread c i (mkT (Some (o, k)) (rest t) (outs t))) (log c))
        | Some (o, Undefined r) => inr (BadCall r)
        | None =>
            match rest t with
            | [] => inl c
            | StLock :: q =>
                match held c with
                | None => inl (mkC (shared c) (Some i) (put_thread c i (mkT None q (outs t))) (log c))
                | Some j => if Nat.eqb i j then inr BadMutex else inl c
                end
            | StUnlock :: q =>
                if held_by c i then inl (mkC (shared c) None (put_thread c i (mkT None q (outs t))) (log c)) else inr BadMutex
            | StDo o :: q => inl (mkC (shared c) (held c) (put_thread c i (mkT (Some (o, code o)) q (outs t))) (log c))
            end
        end
    end.
  Fixpoint crun (sch : list nat) (c : config) : config + bad :=
    match sch with
    | [] => inl c
    | i :: sch' => match cstep i c with inl c' => crun sch' c' | inr r => inr r end
    end.
  Definition fork (s : S) (ts : list (list stm)) : config := mkC s None (map (fun p => mkT None p []) ts) [].

  (** ** data races: two threads are about to access the same memory, one of them writing *)
  Definition access (t : thread) : option (Loc * bool) :=
    match cur t with
    | Some (_, Read l _) => Some (l, false)
    | Some (_, Write l _ _) => Some (l, true)
    | _ => None
    end.
  Definition race_at (l : Loc) (c : config) : Prop :=
    exists i j t u wi wj, i <> j /\ nth_error (threads c) i = Some t /\ nth_error (threads c) j = Some u /\
      access t = Some (l, wi) /\ access u = Some (l, wj) /\ wi || wj = true.
  Definition race (c : config) : Prop := exists l, race_at l c.

  (** a call without interruption *)
  Fixpoint alone (a : act) (s : S) : res S Out :=
    match a with
    | Fin x => Ret x s
    | Read _ k => alone (k s) s
    | Write _ f k => alone k (f s)
    | Atomic f k => alone k (f s)
    | Undefined r => Ub r
    end.
End Sync.
Arguments act : clear implicits.
Arguments stm : clear implicits.
Arguments thread : clear implicits.
Arguments config : clear implicits.

(** ** Randomisers (include/randomiser.hpp:42-82) *)
Section Random.
  Context {T G Ds : Type} (next : G -> Z * G) (dmake : T -> T -> Ds) (ddraw : Ds -> draw (T * Ds)).
  Inductive rloc := LDist (k : nat) | LEngine.
  Notation ract := (act (rst G Ds) rloc (option T)).
  Definition set_generator (g : G) (s : rst G Ds) : rst G Ds := mkRst (randomisers s) g.
  Definition set_distribution (k : nat) (d : Ds) (s : rst G Ds) : rst G Ds := mkRst (set_var (randomisers s) k (Some d)) (generator s).
  (** the distribution calls the engine, which reads its state and writes the new one *)
  Fixpoint draw_code (k : nat) (t : draw (T * Ds)) : ract :=
    match t with
    | Done vd => Write (LDist k) (set_distribution k (snd vd)) (Fin (Some (fst vd)))
    | Ask c => Read LEngine (fun s => Write LEngine (set_generator (snd (next (generator s)))) (draw_code k (c (fst (next (generator s))))))
    end.
  Definition rop_code (o : rop T) : ract :=
    match o with
    | RNew k a b => Write (LDist k) (set_distribution k (dmake a b)) (Fin None)                                   (* 68 *)
    | RGet k => Read (LDist k) (fun s => match randomisers s k with Some d => draw_code k (ddraw d) | None => Undefined UbUninit end)  (* 71 *)
    end.
End Random.

(** ** The counter of failed checks, an int (include/test.hpp:41, and ++HELPER_TEST_FAILURES in every check, e.g. 102).
    A check passes or fails; what it prints is not part of this model. *)
Inductive check := CheckPasses | CheckFails.
Definition check_code (o : check) : act Z unit unit :=
  match o with
  | CheckPasses => Fin tt
  | CheckFails => Read tt (fun n => if (n <? 2 ^ 31 - 1)%Z then Write tt (fun _ => (n + 1)%Z) (Fin tt) else Undefined UbOverflow)
  end.

(** ** Reports (include/macros.hpp:149-179).  Every insertion into std::cerr is atomic (contract: std::cerr may be used by several
    threads without data races; the characters of different insertions do not mix). *)
Section Reports.
  Context {text : Type}.
  (** [first_time]: the static variable of each call site; [err]: what has been inserted into std::cerr *)
  Record rep := mkRep { first_time : nat -> bool; err : list text }.
  Definition insert (x : text) (s : rep) : rep := mkRep (first_time s) (err s ++ [x]).
  Definition not_first (site : nat) (s : rep) : rep := mkRep (set_var (first_time s) site false) (err s).
  Fixpoint insertions (l : list text) : act rep nat unit :=
    match l with [] => Fin tt | x :: l' => Atomic (insert x) (insertions l') end.
  (** [Warn l]: HELPER_NOTIFY, HELPER_WARN, HELPER_ERROR with the insertions [l]; [Once site l]: HELPER_WARN_ONCE and HELPER_DEPRECATED *)
  Inductive report := Warn (l : list text) | Once (site : nat) (l : list text).
  Definition report_code (o : report) : act rep nat unit :=
    match o with
    | Warn l => insertions l
    | Once site l => Read site (fun s => if first_time s site then Write site (not_first site) (insertions l) else Fin tt)
    end.
End Reports.
Arguments rep : clear implicits.
Arguments report : clear implicits.
