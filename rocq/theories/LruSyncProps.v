(** LruSyncProps.v -- property C96 of lru_cache.hpp: a cache shared by threads.  Statements only; the lemmas are in LruSyncProofs.v. *)
From Verif Require Import Base StdOrd LruModel LruSpec SyncModel SyncSpec LruSyncModel LruSyncSpec LruSyncProofs.

(** ** C96: several threads may use one LRUCache; each call gives what it gives when the calls are made one after the other.
    Intended: forall ts s0 r, recency ltb s0 r -> (forall i p, nth_error ts i = Some p -> guarded false false p) -> forall sch, exists c,
      crun (lru_code ltb) sch (fork s0 ts) = inl c /\ ~ race c /\ results c = snd (spec_run ltb r (map snd (history c))).
    Refuted: get writes the ages, so any two gets of labels that are in the cache race, even of the same label. *)
Theorem C96_refuted :
  forall (L V : Type) (ltb : L -> L -> bool) (ts : list (list (stm (op L V)))) (s0 : cache L V) (i j : nat) p q (l l' : L),
  i <> j -> contains ltb s0 l -> contains ltb s0 l' ->
  nth_error ts i = Some (StDo (OGet l) :: p) -> nth_error ts j = Some (StDo (OGet l') :: q) ->
  exists sch c, crun (lru_code ltb) sch (fork s0 ts) = inl c /\ race c.
Proof. exact @gets_race. Qed.
Print Assumptions C96_refuted.
(** ... and even if the accesses to the ages were atomic, after two gets at the same time no element may be left to remove, and a put, long after
    them and alone, erases end(). *)
Theorem C96_broken_refuted :
  exists (s0 : cache nat nat) r (ts : list (list (stm (op nat nat)))) sch c,
  recency Nat.ltb s0 r /\ crun (lru_code Nat.ltb) sch (fork s0 ts) = inl c /\ idle c /\ map snd (history c) = [OGet 2; OGet 1] /\
  forall v, step Nat.ltb (shared c) (OPut 3 v) = (None, RUb).
Proof. exact gets_break. Qed.
Print Assumptions C96_broken_refuted.
(** What holds: if all calls are made with one mutex held (and the value is copied before it is unlocked), or by the same thread, the cache is the
    recency list of C01 for the calls in the order of their completion. *)
Theorem C96_mutex_partial :
  forall (L V : Type) (ltb : L -> L -> bool), SWO ltb ->
  forall (ts : list (list (stm (op L V)))) (s0 : cache L V) (r : rlist L V), recency ltb s0 r -> protected ts ->
  forall sch, exists c, crun (lru_code ltb) sch (fork s0 ts) = inl c /\ as_if_sequential (fun o => alone (lru_code ltb o)) s0 ts c /\
    results c = snd (spec_run ltb r (map snd (history c))) /\
    (idle c -> recency ltb (shared c) (fst (spec_run ltb r (map snd (history c))))) /\
    exists sch' c', crun (lru_code ltb) (sch ++ sch') (fork s0 ts) = inl c' /\ forall t, In t (threads c') -> finished t.
Proof. exact @cache_good. Qed.
Print Assumptions C96_mutex_partial.
(** Threads that call only has_label, age, current_size and maximum_size need no mutex.
    Missing: get and put without a mutex. *)
Theorem C96_lookers_partial :
  forall (L V : Type) (ltb : L -> L -> bool), SWO ltb ->
  forall (ts : list (list (stm (op L V)))) (s0 : cache L V) (r : rlist L V), recency ltb s0 r ->
  (forall p, In p ts -> only_looks p /\ guarded false false p) ->
  forall sch, exists c, crun (lru_code ltb) sch (fork s0 ts) = inl c /\ as_if_sequential (fun o => alone (lru_code ltb o)) s0 ts c /\ shared c = s0 /\
    forall i o x, In (i, o, x) (log c) -> x = snd (spec_step ltb r o).
Proof. exact @lookers_good. Qed.
Print Assumptions C96_lookers_partial.

Definition shared_cache : cache nat nat := mkCache 2 [mkNode 0 1 1%Z 10; mkNode 1 2 0%Z 20] 2.
Definition shared_recency : rlist nat nat := mkRlist 2 [(2, 20); (1, 10)].
Example C96_recency_example : recency Nat.ltb shared_cache shared_recency.
Proof. exists 2%Z, (mkCache 2 [] 0), [OPut 1 10; OPut 2 20], [RUnit; RUnit]. vm_compute. repeat split; reflexivity. Qed.
Example C96_example :
  let ts := [[StLock; StDo (OGet 1); StUnlock]; [StLock; StDo (OHas 1); StDo (OPut 3 30); StUnlock]] in
  protected ts /\
  exists c, crun (lru_code Nat.ltb) (repeat 0 4 ++ repeat 1 4 ++ repeat 0 20 ++ repeat 1 40) (fork shared_cache ts) = inl c /\
    (forall t, In t (threads c) -> finished t) /\ results c = [RVal 10; RBool true; RUnit] /\
    shared c = mkCache 2 [mkNode 0 1 1%Z 10; mkNode 2 3 0%Z 30] 3.
Proof.
  split.
  - left. intros [|[|i]] p E; [| |destruct i; discriminate]; injection E as <-; cbn; tauto.
  - eexists. vm_compute. split; [reflexivity|]. split; [|split; reflexivity]. intros t [<-|[<-|[]]]; split; reflexivity.
Qed.
Example C96_lookers_example :
  let ts := [[StDo (OAge 1); StDo OSize]; [StDo (OHas 7); StDo (OAge 2); StDo OMax]] in
  (forall p, In p ts -> only_looks p /\ guarded false false p) /\
  exists c, crun (lru_code Nat.ltb) (concat (repeat [0; 1] 15)) (fork shared_cache ts) = inl c /\
    results c = [RBool false; RNum 1; RNum 2; RNum 0; RNum 2]%Z.
Proof.
  split.
  - intros p [<-|[<-|[]]]; (split; [intros o Ho; cbn in Ho; repeat (destruct Ho as [<-|Ho]; [exact I|]); destruct Ho|cbn; repeat split; discriminate || auto]).
  - eexists. vm_compute. split; reflexivity.
Qed.
(** the hypotheses of C96_refuted *)
Example C96_race_example :
  let ts := [[StDo (OGet 1)]; [StDo (OGet 2); StDo (OPut 3 30)]] in contains Nat.ltb shared_cache 1 /\ contains Nat.ltb shared_cache 2 /\
  nth_error ts 0 = Some (StDo (OGet 1) :: []) /\ nth_error ts 1 = Some (StDo (OGet 2) :: [StDo (OPut 3 30)]).
Proof. repeat split; reflexivity. Qed.
