(** ThreadProps.v -- the properties C83 and C84 of Handle in programs with threads.  Statements only; the lemmas are in
    ThreadProofs.v, ThreadLogic.v and ThreadMain.v. *)
From Verif Require Import Base HandleModel HandleSpec ThreadModel ThreadSpec ThreadProofs ThreadMain.

(** ** C83: threads that use only their own handles, and read or copy from common handles that nobody modifies, do not notice each
    other, though their handles share objects.  Whatever the interleaving: no undefined behaviour, no data race, the outputs are
    those of the thread running alone (a part of them while it is not finished), a finished thread's handles have the values they have when it
    runs alone, the common handles keep their values, and when all threads are finished every object still alive is owned by a handle. *)
Theorem C83_threads_as_if_alone :
  forall (V Ty : Type) (clone : V -> V) (dyn : V -> Ty) (subobjs : Ty -> Ty -> list nat) (wrapper : Ty -> Ty) (inner : Ty -> nat),
  (forall v, clone v = v) ->
  let run := run clone dyn subobjs wrapper inner in
  let reads := reads clone dyn subobjs wrapper inner in
  let crun := crun clone dyn subobjs wrapper inner in
  forall (owner : nat -> option nat) (s0 : hst V) (ts : list (list (hop V Ty) * list bool)) (sch : list nat),
  reachable clone dyn subobjs wrapper inner s0 ->
  (forall i p sc, nth_error ts i = Some (p, sc) ->
     Forall (uses owner i) p /\ exists l s1, run (map H p) (with_sched s0 sc) = (l, inl s1)) ->
  exists cfg, crun sch (fork s0 ts) = inl cfg /\ ~ race cfg /\
    (forall i p sc l s1 t, nth_error ts i = Some (p, sc) -> run (map H p) (with_sched s0 sc) = (l, inl s1) ->
       nth_error (threads cfg) i = Some t ->
       (exists l', t_outs t ++ l' = l) /\
       (finished t -> t_outs t = l /\ forall h, visible owner i h -> reads (shared cfg) h = reads s1 h)) /\
    (forall h, owner h = None -> reads (shared cfg) h = reads s0 h) /\
    (Forall finished (threads cfg) -> no_leak (shared cfg)).
Proof. exact @threads_as_if_alone. Qed.
Print Assumptions C83_threads_as_if_alone.

(** Every thread is finished after 14 own steps for each of its statements, whatever the others do. *)
Theorem C83_wait_free :
  forall (V Ty : Type) (clone : V -> V) (dyn : V -> Ty) (subobjs : Ty -> Ty -> list nat) (wrapper : Ty -> Ty) (inner : Ty -> nat)
    (s0 : hst V) (ts : list (list (hop V Ty) * list bool)) (sch : list nat) (cfg : config V Ty) (i : nat) (p : list (hop V Ty)) (sc : list bool),
  crun clone dyn subobjs wrapper inner sch (fork s0 ts) = inl cfg -> nth_error ts i = Some (p, sc) ->
  14 * length p <= count_occ Nat.eq_dec sch i ->
  exists t, nth_error (threads cfg) i = Some t /\ finished t.
Proof. exact @wait_free. Qed.
Print Assumptions C83_wait_free.

(** The actions of a statement, executed without interruption, are the statement of HandleModel. *)
Theorem C83_actions :
  forall (V Ty : Type) (clone : V -> V) (dyn : V -> Ty) (subobjs : Ty -> Ty -> list nat) (wrapper : Ty -> Ty) (inner : Ty -> nat),
  (forall v, clone v = v) ->
  forall (o : hop V Ty) (s : hst V), reachable clone dyn subobjs wrapper inner s ->
  cexec (c_hop clone dyn subobjs wrapper inner o) s = hstep clone dyn subobjs wrapper inner o s.
Proof. exact @seq_reachable. Qed.
Print Assumptions C83_actions.

(** Handle 0 is common, 1-2 belong to thread 0 and 3-4 to thread 1; 0, 1 and 3 share one object.  Both threads write through
    their handles and destroy them, copying from handle 0 in between; one allocation of thread 1 fails. *)
Section Example.
  Definition ex_ty (D T : nat) : list nat := if Nat.eqb D T then [0] else [].
  Notation ex_run := (run (fun v : nat => v) (fun v => v) ex_ty (fun t => t + 100) (fun _ => 0)).
  Notation ex_crun := (crun (fun v : nat => v) (fun v => v) ex_ty (fun t => t + 100) (fun _ => 0)).
  Definition ex_owner (h : nat) : option nat := match h with 0 => None | 1 | 2 => Some 0 | _ => Some 1 end.
  Definition ex_start : hst nat :=
    match ex_run (map H [OpNew 0 5; OpCopy 1 0; OpCopy 3 0]) (hinit 5 []) with (_, inl s) => s | _ => hinit 5 [] end.
  Definition ex_ts : list (list (hop nat nat) * list bool) :=
    [([OpWrite 1 (fun v => v + 1); OpCopy 2 0; OpRead 1; OpAssign 1 2; OpRead 1; OpDestroy 1; OpDestroy 2], []);
     ([OpWrite 3 (fun v => v * 2); OpWrite 3 (fun v => v * 2); OpRead 3; OpMove 4 3; OpRead 0], [false; true])].
  Fixpoint ex_alternate (n : nat) : list nat := match n with 0 => [] | S n => 0 :: 1 :: ex_alternate n end.
  Example C83_example :
    reachable (fun v : nat => v) (fun v => v) ex_ty (fun t => t + 100) (fun _ => 0) ex_start /\
    (forall i p sc, nth_error ex_ts i = Some (p, sc) ->
       Forall (uses ex_owner i) p /\ exists l s1, ex_run (map H p) (with_sched ex_start sc) = (l, inl s1)) /\
    match ex_crun (ex_alternate 100) (fork ex_start ex_ts) with
    | inl cfg => map t_outs (threads cfg) =
        [[ODone; ODone; OVal 6; ODone; OVal 5; ODone; ODone]; [ODone; OExc EBadAlloc; OVal 10; ODone; OVal 5]]
    | inr _ => False
    end.
  Proof.
    split; [|split].
    - exists 5, [], (map H [OpNew 0 5; OpCopy 1 0; OpCopy 3 0]). eexists. vm_compute. reflexivity.
    - intros [|[|i]] p sc E; [| |destruct i; discriminate]; injection E as <- <-.
      + split; [repeat apply Forall_cons; try apply Forall_nil; cbn; unfold mine, visible; cbn; auto|]. eexists. eexists. vm_compute. reflexivity.
      + split; [repeat apply Forall_cons; try apply Forall_nil; cbn; unfold mine, visible; cbn; auto|]. eexists. eexists. vm_compute. reflexivity.
    - vm_compute. reflexivity.
  Qed.
  Example C83_wait_free_example : 14 * length (fst (nth 0 ex_ts ([], []))) <= count_occ Nat.eq_dec (ex_alternate 100) 0.
  Proof. vm_compute. repeat constructor. Qed.

  (** ** C84: several threads may read one handle.  False of the code where the handle is not const: a non-const access
      replaces the handle's object by a clone even if nothing is written through it. *)
  (** Two threads access handle 0 and modify nothing: both replace the object, and both release the old one. *)
  Theorem C84_nonconst_reads_refuted :
    let s0 := match ex_run (map H [OpNew 0 5]) (hinit 1 []) with (_, inl s) => s | _ => hinit 1 [] end in
    let ts := [([OpWrite 0 (fun v => v)], []); ([OpWrite 0 (fun v => v)], [])] in
    ex_crun [0; 0; 0; 0; 0; 1; 1; 1; 1; 1; 0; 0; 0; 1; 1] (fork s0 ts) = inr UbDangling.
  Proof. vm_compute. reflexivity. Qed.
End Example.

(** Whenever two threads access the same handle in this way there is a data race. *)
Theorem C84_nonconst_access_refuted :
  forall (V Ty : Type) (clone : V -> V) (dyn : V -> Ty) (subobjs : Ty -> Ty -> list nat) (wrapper : Ty -> Ty) (inner : Ty -> nat),
  (forall v, clone v = v) ->
  forall (s0 : hst V) (ts : list (list (hop V Ty) * list bool)) (h i j : nat) (f g : V -> V) (p q : list (hop V Ty)) (sci scj : list bool) (v : V),
  reachable clone dyn subobjs wrapper inner s0 -> reads clone dyn subobjs wrapper inner s0 h = Some (OVal v) -> i <> j ->
  nth_error ts i = Some (OpWrite h f :: p, sci) -> nth_error ts j = Some (OpWrite h g :: q, scj) -> hd false scj = false ->
  exists sch cfg, crun clone dyn subobjs wrapper inner sch (fork s0 ts) = inl cfg /\ race cfg.
Proof. exact @nonconst_access_races. Qed.
Print Assumptions C84_nonconst_access_refuted.

(** What holds: const accesses and copies from a common handle.  Nobody's handles are read by every thread and keep their
    values. *)
Theorem C84_const_access_partial :
  forall (V Ty : Type) (clone : V -> V) (dyn : V -> Ty) (subobjs : Ty -> Ty -> list nat) (wrapper : Ty -> Ty) (inner : Ty -> nat),
  (forall v, clone v = v) ->
  forall (s0 : hst V) (ts : list (nat * list bool)) (h : nat) (v : V) (sch : list nat),
  reachable clone dyn subobjs wrapper inner s0 -> reads clone dyn subobjs wrapper inner s0 h = Some (OVal v) ->
  exists cfg, crun clone dyn subobjs wrapper inner sch (fork s0 (map (fun x => (repeat (OpRead h) (fst x), snd x)) ts)) = inl cfg /\
    ~ race cfg /\ reads clone dyn subobjs wrapper inner (shared cfg) h = Some (OVal v) /\
    forall i t, nth_error (threads cfg) i = Some t -> Forall (eq (OVal v)) (t_outs t).
Proof. exact @common_reads. Qed.
Print Assumptions C84_const_access_partial.
Example C84_partial_example :
  let s0 := match run (fun v : nat => v) (fun v => v) ex_ty (fun t => t + 100) (fun _ => 0) (map H [OpNew 0 5]) (hinit 1 []) with (_, inl s) => s | _ => hinit 1 [] end in
  match crun (fun v : nat => v) (fun v => v) ex_ty (fun t => t + 100) (fun _ => 0) (ex_alternate 12)
    (fork s0 (map (fun x => (repeat (OpRead 0) (fst x), snd x)) [(2, []); (3, [])])) with
  | inl cfg => map t_outs (threads cfg) = [[OVal 5; OVal 5]; [OVal 5; OVal 5; OVal 5]]
  | inr _ => False
  end.
Proof. vm_compute. reflexivity. Qed.
Print Assumptions C84_nonconst_reads_refuted.
