(** SyncSpec.v -- what is expected of global state used by several threads. *)
From Verif Require Import Base RandomModel SyncModel.

Section Sync.
  Context {S Loc Op Out : Type} (call : Op -> S -> res S Out).

  (** calls one after the other *)
  Fixpoint seqrun (ops : list Op) (s : S) : res S (list Out) :=
    match ops with
    | [] => Ret [] s
    | o :: ops' =>
        match call o s with
        | Ret a s' => match seqrun ops' s' with Ret l s2 => Ret (a :: l) s2 | Exc e s2 => Exc e s2 | Ub r => Ub r | Abort => Abort | Fuel => Fuel end
        | Exc e s' => Exc e s' | Ub r => Ub r | Abort => Abort | Fuel => Fuel
        end
    end.

  (** the calls of a thread *)
  Fixpoint does (p : list (stm Op)) : list Op :=
    match p with [] => [] | StDo o :: q => o :: does q | _ :: q => does q end.
  (** [l] is a beginning of the calls of all threads, in an order that respects every thread *)
  Definition of_thread {A} (i : nat) (l : list (nat * A)) : list A := map snd (filter (fun x => Nat.eqb (fst x) i) l).
  Definition merged (ts : list (list (stm Op))) (l : list (nat * Op)) : Prop :=
    (forall i o, In (i, o) l -> i < length ts) /\
    forall i p, nth_error ts i = Some p -> exists q, does p = of_thread i l ++ q.

  (** lock and unlock alternate ([h]: the thread holds the mutex); if [need] calls are made only while holding the mutex *)
  Fixpoint guarded (need h : bool) (p : list (stm Op)) : Prop :=
    match p with
    | [] => h = false
    | StLock :: q => h = false /\ guarded need true q
    | StUnlock :: q => h = true /\ guarded need false q
    | StDo _ :: q => (need = true -> h = true) /\ guarded need h q
    end.
  (** all calls are made with the mutex held, or all by the same thread *)
  Definition protected (ts : list (list (stm Op))) : Prop :=
    (forall i p, nth_error ts i = Some p -> guarded true false p) \/
    exists j, forall i p, nth_error ts i = Some p -> guarded false false p /\ (i <> j -> does p = []).

  Definition finished (t : thread S Loc Op Out) : Prop := cur t = None /\ rest t = [].
  Definition waiting (c : config S Loc Op Out) (t : thread S Loc Op Out) : Prop :=
    cur t = None /\ held c <> None /\ exists q, rest t = StLock :: q.
  Definition idle (c : config S Loc Op Out) : Prop := forall t, In t (threads c) -> cur t = None.

  (** the completed calls, with their threads *)
  Definition history (c : config S Loc Op Out) : list (nat * Op) := map fst (log c).
  Definition results (c : config S Loc Op Out) : list Out := map snd (log c).

  (** what one wants of an execution that started with the programs [ts] in the state [s0] and is now in [c] *)
  Record as_if_sequential (s0 : S) (ts : list (list (stm Op))) (c : config S Loc Op Out) : Prop := {
    (* no data race is about to happen *)
    no_race : ~ race c;
    (* the completed calls have given what they give when made one after the other, in the order of their completion, ... *)
    sequential : exists s1, seqrun (map snd (history c)) s0 = Ret (results c) s1 /\ (idle c -> shared c = s1);
    (* ... which respects every thread; every thread has got the results of its calls *)
    in_order : merged ts (history c);
    own_results : forall i t, nth_error (threads c) i = Some t ->
      outs t = of_thread i (map (fun x => (fst (fst x), (snd (fst x), snd x))) (log c));
    all_made : (forall t, In t (threads c) -> finished t) ->
      forall i p, nth_error ts i = Some p -> does p = of_thread i (history c);
    (* no deadlock: unless all threads have finished, one of them can go on *)
    progress : (exists t, In t (threads c) /\ ~ finished t) -> exists t, In t (threads c) /\ ~ finished t /\ ~ waiting c t }.

  (** what one wants if the threads have nothing to do with each other; [part i s s']: what belongs to thread i is the same in s and s' *)
  Record as_if_alone (part : nat -> S -> S -> Prop) (s0 : S) (ts : list (list (stm Op))) (c : config S Loc Op Out) : Prop := {
    alone_no_race : ~ race c;
    (* every thread has got, from its first calls, what it gets when no other thread runs; between calls its part is what it is then *)
    alone_results : forall i p t, nth_error ts i = Some p -> nth_error (threads c) i = Some t ->
      exists q s1, does p = map fst (outs t) ++ q /\ seqrun (map fst (outs t)) s0 = Ret (map snd (outs t)) s1 /\
        (cur t = None -> part i (shared c) s1) /\ (finished t -> q = []);
    alone_progress : (exists t, In t (threads c) /\ ~ finished t) -> exists t, In t (threads c) /\ ~ finished t /\ ~ waiting c t }.
End Sync.

(** ** randomisers: [k] is constructed before the threads start, or by the same thread before *)
Definition constructed_before {T G Ds} (s0 : rst G Ds) (p : list (stm (rop T))) : Prop :=
  forall n k, nth_error (does p) n = Some (RGet k) ->
  randomisers s0 k <> None \/ exists a b, In (RNew k a b) (firstn n (does p)).

(** ** failed checks in a list of checks *)
Fixpoint failed (l : list check) : Z :=
  match l with [] => 0 | CheckFails :: l' => 1 + failed l' | CheckPasses :: l' => failed l' end%Z.
(** ... and in all threads *)
Definition total_failed (ts : list (list (stm check))) : Z := fold_right (fun p z => (failed (does p) + z)%Z) 0%Z ts.

(** ** reports: [seen] are the call sites that have reported already *)
Section Reports.
  Context {text : Type}.
  Fixpoint reported (seen : nat -> bool) (l : list (report text)) : list text :=
    match l with
    | [] => []
    | Warn x :: l' => x ++ reported seen l'
    | Once site x :: l' => (if seen site then [] else x) ++ reported (fun k => if Nat.eqb k site then true else seen k) l'
    end.
End Reports.

(** ** only HELPER_NOTIFY, HELPER_WARN and HELPER_ERROR *)
Definition warns {text} (p : list (stm (report text))) : Prop := forall site l, ~ In (Once site l) (does p).
(** insertions into std::cerr: all that a thread inserts *)
Definition inserts {text} (p : list (stm (report text))) : list text :=
  flat_map (fun o => match o with Warn l => l | Once _ l => l end) (does p).
(** [w] is a merge of beginnings of the lists [ls]: [by] tells which list each element of [w] is taken from *)
Definition interleaves {A} (ls : list (list A)) (w : list A) : Prop :=
  exists by_ : list (nat * A), map snd by_ = w /\ (forall i x, In (i, x) by_ -> i < length ls) /\
    forall i l, nth_error ls i = Some l -> exists l', l = of_thread i by_ ++ l'.
