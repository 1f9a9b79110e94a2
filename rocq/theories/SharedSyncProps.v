(** SharedSyncProps.v -- property C108 of SharedArray (include/array.hpp 223-247): copies used by several threads.  Statements only;
    the lemmas are in SharedSyncProofs.v. *)
From Verif Require Import Base SharedModel SharedSpec SyncModel SyncSpec SharedSyncModel SharedSyncSpec SharedSyncProofs.

(** ** C108: several threads may copy SharedArrays that share their elements, each into a variable of its own, and the
    count is the number of sharers afterwards.
    Intended: the conclusion of C108_mutex_partial with [guarded false false] for every thread instead of [protected].
    Refuted: whenever two threads copy sharers of one array (the same variable or different ones), they race for the count, *)
Theorem C108_race_refuted :
  forall (V : Type) (dini : option V) (ts : list (list (stm (top V)))) (s0 : sst V) (m0 : shst V) (i j d d' a a' : nat) p q (o : nat),
  shared_state dini s0 m0 -> i <> j ->
  nth_error ts i = Some (StDo (TCopy d a) :: p) -> nth_error ts j = Some (StDo (TCopy d' a') :: q) ->
  is_new m0 d = true -> is_new m0 d' = true -> d <> d' -> ref_of m0 a = Some o -> ref_of m0 a' = Some o ->
  (exists sch c, crun shared_code sch (fork s0 ts) = inl c /\ race c) /\
  (* and even if the accesses to the count were atomic, both copies may be counted as one *)
  exists sch c, crun shared_code sch (fork s0 ts) = inl c /\ history c = [(i, TCopy d a); (j, TCopy d' a')] /\
    seen_count (shared c) a = Some (Z.of_nat (sharers m0 o) + 1)%Z.
Proof. exact @copies_race. Qed.
Print Assumptions C108_race_refuted.

(** ... so that, long after the threads have ended, the elements are deleted while somebody still refers to them: a program that is well
    formed reads freed memory. *)
Theorem C108_freed_refuted :
  exists (s0 : sst nat) (m0 : shst nat) ts sch c later,
  shared_state None s0 m0 /\ any_order None m0 ts /\ crun shared_code sch (fork s0 ts) = inl c /\ (forall t, In t (threads c) -> finished t) /\
  shexec None m0 (map seq_op (map snd (history c)) ++ later) <> None /\ srun None later (shared c) = Ub UbDangling.
Proof. exact copies_free. Qed.
Print Assumptions C108_freed_refuted.

(** What holds: if all calls are made with one mutex held, or by the same thread, they do what they do one after the other (C19), and
    every count is the number of sharers. *)
Theorem C108_mutex_partial :
  forall (V : Type) (dini : option V) (ts : list (list (stm (top V)))) (s0 : sst V) (m0 : shst V),
  shared_state dini s0 m0 -> protected ts -> any_order dini m0 ts ->
  forall sch, exists c, crun shared_code sch (fork s0 ts) = inl c /\ as_if_sequential (fun o => alone (shared_code o)) s0 ts c /\
    (exists m, shexec dini m0 (map seq_op (map snd (history c))) = Some (results c, m) /\ (idle c -> shows (shared c) m)) /\
    exists sch' c', crun shared_code (sch ++ sch') (fork s0 ts) = inl c' /\ forall t, In t (threads c') -> finished t.
Proof. exact @shared_mutex. Qed.
Print Assumptions C108_mutex_partial.

(** Threads that only read elements and sizes need no mutex. *)
Theorem C108_readers_partial :
  forall (V : Type) (dini : option V) (ts : list (list (stm (top V)))) (s0 : sst V) (m0 : shst V),
  shared_state dini s0 m0 -> (forall p, In p ts -> only_reads m0 p /\ guarded false false p) ->
  forall sch, exists c, crun shared_code sch (fork s0 ts) = inl c /\ as_if_sequential (fun o => alone (shared_code o)) s0 ts c /\ shared c = s0 /\
    forall i o x, In (i, o, x) (log c) -> shstep dini m0 (seq_op o) = Some (x, m0).
Proof. exact @shared_readers. Qed.
Print Assumptions C108_readers_partial.

(** Nor do threads with arrays of their own, however they copy, assign and write them: every thread gets what it gets when no other
    thread runs, the counts included.  Missing (and refuted above): threads that copy sharers of one array. *)
Theorem C108_apart_partial :
  forall (V : Type) (dini : option V) (ts : list (list (stm (top V)))) (s0 : sst V) (m0 : shst V),
  shared_state dini s0 m0 -> apart m0 ts ->
  (forall p, In p ts -> guarded false false p /\ shexec dini m0 (map seq_op (does p)) <> None) ->
  forall sch, exists c, crun shared_code sch (fork s0 ts) = inl c /\
    as_if_alone (fun o => alone (shared_code o)) (fun i s s' => forall p, nth_error ts i = Some p -> same_for p s s') s0 ts c /\
    forall i p t, nth_error ts i = Some p -> nth_error (threads c) i = Some t ->
      exists m, shexec dini m0 (map seq_op (map fst (outs t))) = Some (map snd (outs t), m) /\
        (cur t = None -> forall a o k, uses p a -> obj_of m a = Some (o, k) ->
           seen_elems (shared c) a = Some k /\ seen_count (shared c) a = Some (Z.of_nat (sharers m o))).
Proof. exact @shared_apart. Qed.
Print Assumptions C108_apart_partial.

Definition ex_shared : sst nat := mkS [SArr (0, 0%Z) 2 0; SDead; SDead] [SharedModel.mkC 1 false] [mkA [Some 5; Some 6] false] None.
Definition ex_refs : shst nat := mkSh [Some 0; None; None] [[Some 5; Some 6]].
Example C108_state_example : shared_state None ex_shared ex_refs.
Proof. exists 3, [SList 0 [5; 6]], [SDone]. vm_compute. repeat split. Qed.
Example C108_example :
  let ts := [[StLock; StDo (TCopy 1 0); StDo (TSet 1 0 9); StUnlock]; [StLock; StDo (TCopy 2 0); StUnlock]] in
  protected ts /\ exists c, crun shared_code (repeat 0 4 ++ repeat 1 4 ++ repeat 0 20 ++ repeat 1 20) (fork ex_shared ts) = inl c /\
    (forall t, In t (threads c) -> finished t) /\ seen_count (shared c) 0 = Some 3%Z /\ seen_elems (shared c) 2 = Some [Some 9; Some 6].
Proof.
  split.
  - left. intros [|[|i]] p E; [| |destruct i; discriminate]; injection E as <-; cbn; tauto.
  - eexists. vm_compute. split; [reflexivity|]. split; [|split; reflexivity]. intros t [<-|[<-|[]]]; split; reflexivity.
Qed.
Example C108_readers_example :
  let ts := [[StDo (TGet 0 0); StDo (TSize 0)]; [StDo (TGet 0 1)]] in
  (forall p, In p ts -> only_reads ex_refs p /\ guarded false false p) /\
  exists c, crun shared_code (concat (repeat [0; 1] 9)) (fork ex_shared ts) = inl c /\ results c = [SVal 5; SVal 6; SNat 2].
Proof.
  split.
  - intros p [<-|[<-|[]]]; (split; [intros o Ho; cbn in Ho; repeat (destruct Ho as [<-|Ho]; [vm_compute; discriminate|]); destruct Ho|cbn; repeat split; discriminate]).
  - eexists. vm_compute. split; reflexivity.
Qed.
(** the hypotheses of C108_race_refuted *)
Example C108_race_example :
  is_new ex_refs 1 = true /\ is_new ex_refs 2 = true /\ ref_of ex_refs 0 = Some 0 /\ sharers ex_refs 0 = 1.
Proof. repeat split. Qed.

Definition ex_two : sst nat :=
  mkS [SArr (0, 0%Z) 2 0; SDead; SArr (1, 0%Z) 1 1; SDead; SArr (2, 0%Z) 1 2] [SharedModel.mkC 1 false; SharedModel.mkC 1 false; SharedModel.mkC 1 false]
      [mkA [Some 5; Some 6] false; mkA [Some 7] false; mkA [Some 8] false] None.
Definition ex_two_refs : shst nat := mkSh [Some 0; None; Some 1; None; Some 2] [[Some 5; Some 6]; [Some 7]; [Some 8]].
Definition ex_two_threads : list (list (stm (top nat))) :=
  [[StDo (TCopy 1 0); StDo (TSet 1 0 9); StDo (TGet 0 0)]; [StDo (TCopy 3 2); StDo (TAssign 2 4); StDo (TGet 2 0)]].
Example C108_apart_example :
  shared_state None ex_two ex_two_refs /\ apart ex_two_refs ex_two_threads /\
  (forall p, In p ex_two_threads -> guarded false false p /\ shexec None ex_two_refs (map seq_op (does p)) <> None) /\
  exists c, crun shared_code (concat (repeat [0; 1] 30)) (fork ex_two ex_two_threads) = inl c /\
    (forall t, In t (threads c) -> finished t) /\ seen_count (shared c) 0 = Some 2%Z /\ seen_count (shared c) 3 = Some 1%Z /\
    seen_count (shared c) 2 = Some 2%Z /\ map (fun t => map snd (outs t)) (threads c) = [[SDone; SDone; SVal 9]; [SDone; SDone; SVal 8]].
Proof.
  split; [exists 5, [SList 0 [5; 6]; SList 2 [7]; SList 4 [8]], [SDone; SDone; SDone]; vm_compute; repeat split|].
  assert (U0 : forall a, uses [StDo (TCopy (V := nat) 1 0); StDo (TSet 1 0 9); StDo (TGet 0 0)] a -> a = 0 \/ a = 1).
  { intros a (o & Ho & Ha). cbn in Ho. repeat (destruct Ho as [<-|Ho]; [cbn in Ha; intuition congruence|]). destruct Ho. }
  assert (U1 : forall a, uses [StDo (TCopy (V := nat) 3 2); StDo (TAssign 2 4); StDo (TGet 2 0)] a -> a = 2 \/ a = 3 \/ a = 4).
  { intros a (o & Ho & Ha). cbn in Ho. repeat (destruct Ho as [<-|Ho]; [cbn in Ha; intuition congruence|]). destruct Ho. }
  split.
  { assert (A : forall a b, (a = 0 \/ a = 1) -> (b = 2 \/ b = 3 \/ b = 4) ->
      a <> b /\ forall o, (ref_of ex_two_refs a = Some o -> ref_of ex_two_refs b <> Some o) /\ (ref_of ex_two_refs b = Some o -> ref_of ex_two_refs a <> Some o)).
    { intros a b [-> | ->] [-> | [-> | ->]]; (split; [discriminate|]); intros o; cbn; split; congruence. }
    intros [|[|i]] [|[|j]] p q a b N Ep Eq Ua Ub; cbn in Ep, Eq; try congruence; try (destruct i; discriminate); try (destruct j; discriminate).
    - injection Ep as <-. injection Eq as <-. destruct (A a b (U0 a Ua) (U1 b Ub)) as [X Y]. split; [exact X|intros o; apply (Y o)].
    - injection Ep as <-. injection Eq as <-. destruct (A b a (U0 b Ub) (U1 a Ua)) as [X Y]. split; [congruence|intros o; apply (Y o)]. }
  split; [intros p [<-|[<-|[]]]; (split; [cbn; repeat split; discriminate|vm_compute; discriminate])|].
  eexists. vm_compute. split; [reflexivity|]. split; [intros t [<-|[<-|[]]]; split; reflexivity|]. repeat split.
Qed.
