(** LruProps.v -- the properties C01-C07 and C82 of lru_cache.hpp.  Statements only; the lemmas are in
    LruProofs.v. *)
From Verif Require Import Base StdOrd LruModel LruSpec LruProofs LruFailSpec LruFailProofs.

(** ** C01 *)
Theorem C01_lru_refines_recency_list :
  forall (L V : Type) (ltb : L -> L -> bool), SWO ltb ->
  forall (m : Z) (ops : list (op L V)), (0 < m < 2 ^ 64)%Z ->
  exists c0 c', lru_new m = Ret c0 tt /\
    run ltb c0 ops = (Some c', snd (spec_run ltb (mkRlist m []) ops)).
Proof. exact @run_refines. Qed.
Print Assumptions C01_lru_refines_recency_list.

(** a history with a hit, a miss, an eviction and a rejected put *)
Example C01_example :
  exists c', run Nat.ltb (mkCache 2 [] 0)
    [OPut 1 10; OPut 2 20; OGet 1; OPut 3 30; OHas 2; OAge 1; OGet 2; OPut 1 11; OGet 1; OSize; OMax]
  = (Some c', [RUnit; RUnit; RVal 10; RUnit; RBool false; RNum 1; RThrow ERuntime; RThrow ERuntime;
               RVal 10; RNum 2; RNum 2]).
Proof. eexists. vm_compute. reflexivity. Qed.
(** labels compared by a strict weak order whose equivalence is not equality *)
Example C01_example_weak_order :
  exists c', run mod10_ltb (mkCache 2 [] 0) [OPut 1 10; OGet 11; OPut 21 20; OAge 31]
  = (Some c', [RUnit; RVal 10; RThrow ERuntime; RNum 0]).
Proof. eexists. vm_compute. reflexivity. Qed.

(** ** C02 *)
Theorem C02_lru_ages_are_permutation :
  forall (L V : Type) (ltb : L -> L -> bool), SWO ltb ->
  forall c : cache L V, reachable ltb c ->
  (current_size c <= maximum_size c)%Z /\
  (forall l, contains ltb c l -> exists a, age ltb l c = Ret a c /\ (0 <= a < current_size c)%Z) /\
  (forall l1 l2 a, age ltb l1 c = Ret a c -> age ltb l2 c = Ret a c -> eqvb ltb l1 l2 = true) /\
  (forall a, (0 <= a < current_size c)%Z -> exists l, contains ltb c l /\ age ltb l c = Ret a c).
Proof. exact @ages_observed. Qed.
Print Assumptions C02_lru_ages_are_permutation.

Definition lru_sample : cache nat nat :=
  mkCache 3 [mkNode 0 1 0%Z 10; mkNode 3 4 1%Z 40; mkNode 2 5 2%Z 50] 4.
Example C02_example : reachable Nat.ltb lru_sample.
Proof.
  exists 3%Z, (mkCache 3 [] 0), [OPut 1 10; OPut 2 20; OGet 1; OPut 5 50; OPut 4 40; OGet 1].
  eexists. split; [lia|]. split; [reflexivity|]. vm_compute. reflexivity.
Qed.

(** ** C03 *)
Theorem C03_lru_evicts_least_recently_used :
  forall (L V : Type) (ltb : L -> L -> bool), SWO ltb ->
  forall m ops outs (c : cache L V) l v c', (0 < m < 2 ^ 64)%Z ->
  run ltb (mkCache m [] 0) ops = (Some c, outs) ->
  step ltb c (OPut l v) = (Some c', RUnit) ->
  let h := combine ops outs in
  (forall x, contains ltb c x -> contains ltb c' x ->
     snd (step ltb c' (OGet x)) = snd (step ltb c (OGet x))) /\
  snd (step ltb c' (OGet l)) = RVal v /\
  ((current_size c < maximum_size c)%Z ->
     forall x, contains ltb c' x <-> contains ltb c x \/ eqvb ltb l x = true) /\
  (current_size c = maximum_size c ->
     exists victim, contains ltb c victim /\ ~ contains ltb c' victim /\
       (forall x, contains ltb c x -> eqvb ltb x victim = false ->
          exists i j, last_use ltb x h = Some i /\ last_use ltb victim h = Some j /\ j < i) /\
       (forall x, contains ltb c' x <->
          (contains ltb c x /\ eqvb ltb x victim = false) \/ eqvb ltb l x = true)).
Proof. exact @eviction. Qed.
Print Assumptions C03_lru_evicts_least_recently_used.

Example C03_example :   (* 1 is used last, so putting 3 evicts 2 *)
  exists c outs c', run Nat.ltb (mkCache 2 [] 0) [OPut 1 10; OPut 2 20; OGet 1] = (Some c, outs) /\
    step Nat.ltb c (OPut 3 30) = (Some c', RUnit) /\ current_size c = maximum_size c /\
    contains Nat.ltb c 2 /\ ~ contains Nat.ltb c' 2 /\ contains Nat.ltb c' 1.
Proof. do 3 eexists. split; [vm_compute; reflexivity|]. split; [vm_compute; reflexivity|].
  split; [vm_compute; reflexivity|]. split; [vm_compute; reflexivity|].
  split; vm_compute; [discriminate|reflexivity]. Qed.

(** ** C04 *)
Theorem C04_lru_rejected_calls :
  (forall (L V : Type), lru_new (L:=L) (V:=V) 0 = Exc ERuntime tt) /\
  forall (L V : Type) (ltb : L -> L -> bool), SWO ltb ->
  forall c : cache L V, reachable ltb c ->
    (forall l, ~ contains ltb c l -> get ltb l c = Exc ERuntime c /\ age ltb l c = Exc ERuntime c) /\
    (forall l v b, contains ltb c l -> put ltb l v b c = Exc ERuntime c) /\
    (forall l, contains ltb c l -> (exists a c', get ltb l c = Ret a c') /\ (exists n, age ltb l c = Ret n c)) /\
    (forall l v, ~ contains ltb c l -> exists c', put ltb l (VVal v) false c = Ret tt c').
Proof. exact (conj (fun _ _ => eq_refl) (@rejected)). Qed.
Print Assumptions C04_lru_rejected_calls.
Example C04_example : contains Nat.ltb lru_sample 1 /\ ~ contains Nat.ltb lru_sample 2.
Proof. split; vm_compute; [reflexivity|discriminate]. Qed.

(** ** C05 *)
Theorem C05_lru_reference_stays_valid :
  forall (L V : Type) (ltb : L -> L -> bool), SWO ltb ->
  forall (c : cache L V) l a c1 v ops c' outs,
  reachable ltb c -> get ltb l c = Ret a c1 -> read_node a c1 = Some v ->
  stays ltb l c1 ops -> run ltb c1 ops = (Some c', outs) -> read_node a c' = Some v.
Proof. exact @reference_stable. Qed.
Print Assumptions C05_lru_reference_stays_valid.
Example C05_example :
  exists c1, get Nat.ltb 5 lru_sample = Ret 2 c1 /\ read_node 2 c1 = Some 50 /\
    stays Nat.ltb 5 c1 [OPut 7 70; OGet 1; OPut 1 0; OGet 5; OPut 8 80].
Proof. eexists. split; [vm_compute; reflexivity|]. split; [reflexivity|]. vm_compute. repeat split. Qed.
(** and the hypothesis [stays] is needed: once evicted, the node is gone *)
Example C05_evicted :
  exists c1 c' outs, get Nat.ltb 5 lru_sample = Ret 2 c1 /\
    run Nat.ltb c1 [OPut 7 70; OPut 8 80; OPut 9 90] = (Some c', outs) /\ read_node 2 c' = None.
Proof. do 3 eexists. split; [vm_compute; reflexivity|]. split; vm_compute; reflexivity. Qed.

(** ** C06: intended statement
      forall c l v, reachable c -> ~ contains c l -> exists c', put l v c throws leaving c', and every
      sequence of calls from c' behaves as an LRU cache (in particular has no undefined behaviour).
    It is false: already capacity 2, one failing put and two further puts reach erase(end()). *)
Theorem C06_lru_put_failure_refuted :
  exists (c c' : cache nat nat) (l v : nat) (ops : list (op nat nat)),
    reachable Nat.ltb c /\ ~ contains Nat.ltb c l /\
    put Nat.ltb l (VVal v) true c = Exc (EUser 0) c' /\
    fst (run Nat.ltb c' ops) = None.
Proof.
  exists (mkCache 2 [mkNode 0 1 0%Z 10] 1), (mkCache 2 [mkNode 0 1 1%Z 10] 1), 2, 20, [OPut 2 20; OPut 3 30].
  split.
  { exists 2%Z, (mkCache 2 [] 0), [OPut 1 10], [RUnit].
    split; [lia|]. split; vm_compute; reflexivity. }
  split; [vm_compute; discriminate|]. split; vm_compute; reflexivity.
Qed.
Print Assumptions C06_lru_put_failure_refuted.

(** Nor is the witness exceptional: whatever happened before, if a put fails and leaves at least one element,
    then putting as many further labels as the cache has places, all new, always runs into it. *)
Theorem C06_every_failure_refuted :
  forall (L V : Type) (ltb : L -> L -> bool), SWO ltb ->
  forall (c c' : cache L V) l v ps, freachable ltb c ->
  put ltb l (VVal v) true c = Exc (EUser 0) c' -> (0 < current_size c')%Z ->
  Z.of_nat (length ps) = maximum_size c ->
  ForallOrdPairs (fun a b => eqvb ltb (fst a) (fst b) = false) ps ->
  Forall (fun p => ~ contains ltb c' (fst p)) ps ->
  fst (run ltb c' (map (fun p => OPut (fst p) (snd p)) ps)) = None.
Proof. exact @failure_fatal. Qed.
Print Assumptions C06_every_failure_refuted.
Example C06_example_every_failure :
  exists c, freachable Nat.ltb c /\
    put Nat.ltb 9 (VVal 90) true lru_sample = Exc (EUser 0) c /\ (0 < current_size c)%Z /\
    run Nat.ltb c [OPut 7 70; OPut 8 80; OPut 9 90] = (None, [RUnit; RUnit; RUb]).
Proof.
  eexists. split; [|split; [vm_compute; reflexivity|split; vm_compute; reflexivity]].
  exists 3%Z, (mkCache 3 [] 0).
  exists (map FCall [OPut 1 10; OPut 2 20; OGet 1; OPut 5 50; OPut 4 40; OGet 1] ++ [FFail 9 90]).
  eexists. split; [lia|]. split; [vm_compute; reflexivity|]. split; [reflexivity|]. vm_compute. reflexivity.
Qed.

(** Exactly what happens in every history with failing puts: the cache is a list of slots, position = age, in
    which each failing put leaves a gap in front; a put into a full cache clears the slot with number
    capacity-1, and its behaviour is undefined exactly if that slot is a gap. *)
Theorem C06_lru_failing_histories_partial :
  forall (L V : Type) (ltb : L -> L -> bool), SWO ltb ->
  forall (m : Z) (ops : list (fop L V)), (0 < m < 2 ^ 64)%Z -> (Z.of_nat (length ops) <= 2 ^ 64)%Z ->
  exists c0, lru_new m = Ret c0 tt /\ snd (frun ltb c0 ops) = snd (slot_run ltb m [] ops) /\
    (fst (frun ltb c0 ops) = None <-> fst (slot_run ltb m [] ops) = None).
Proof. exact @frun_refines. Qed.
Print Assumptions C06_lru_failing_histories_partial.
(** a get can close the gap again: 1 is brought in front of it *)
Example C06_example_histories :
  snd (frun Nat.ltb (mkCache 2 [] 0) [FCall (OPut 1 10); FFail 2 20; FCall (OAge 1); FCall (OPut 2 20); FCall (OGet 1);
         FCall (OPut 3 30); FCall (OHas 2); FCall (OGet 1); FFail 4 40; FCall (OPut 4 40); FCall (OPut 5 50)])
  = [RUnit; RThrow (EUser 0); RNum 1; RUnit; RVal 10; RUnit; RBool false; RVal 10; RThrow (EUser 0); RUnit; RUb].
Proof. vm_compute. reflexivity. Qed.

(** The part that holds: the exception propagates, no surviving label loses or changes its value, at
    most the one label to be evicted is lost, and if nothing survives the cache is as good as new.
    The first clause also shows that the damage is not an accident of the witness: whenever an
    element survives, no element has age 0 any more. *)
Theorem C06_lru_put_failure_partial :
  forall (L V : Type) (ltb : L -> L -> bool), SWO ltb ->
  forall (c : cache L V) l v, reachable ltb c -> ~ contains ltb c l ->
  exists c', put ltb l (VVal v) true c = Exc (EUser 0) c' /\
    (forall n, In n (c_elems c') -> (0 < n_age n)%Z) /\
    (forall x w, snd (step ltb c' (OGet x)) = RVal w -> snd (step ltb c (OGet x)) = RVal w) /\
    current_size c' = (if (current_size c <? maximum_size c)%Z then current_size c else current_size c - 1)%Z /\
    (c_elems c' = [] -> forall ops, snd (run ltb c' ops) = snd (spec_run ltb (mkRlist (maximum_size c) []) ops)).
Proof. exact @put_fail_state. Qed.
Print Assumptions C06_lru_put_failure_partial.
Example C06_example : reachable Nat.ltb lru_sample /\ ~ contains Nat.ltb lru_sample 2.
Proof. split; [exact C02_example|vm_compute; discriminate]. Qed.

(** ** C07: intended statement
      forall c l a v, reachable c -> ~ contains c l -> read_node a c = Some v ->
      put l (VNode a) c = put l (VVal v) c.
    False when the reference designates the element that put evicts. *)
Theorem C07_lru_put_reference_refuted :
  exists (c : cache nat nat) (l a v : nat),
    reachable Nat.ltb c /\ ~ contains Nat.ltb c l /\ read_node a c = Some v /\
    put Nat.ltb l (VNode a) false c = Ub UbDangling.
Proof.
  exists (mkCache 1 [mkNode 0 1 0%Z 10] 1), 2, 0, 10.
  split.
  { exists 1%Z, (mkCache 1 [] 0), [OPut 1 10], [RUnit].
    split; [lia|]. split; vm_compute; reflexivity. }
  split; [vm_compute; discriminate|]. split; vm_compute; reflexivity.
Qed.
Print Assumptions C07_lru_put_reference_refuted.

(** Exact condition: a reference into the cache is stored correctly unless the cache is full and the
    reference designates the oldest element, and then the behaviour is always undefined. *)
Theorem C07_lru_put_reference_partial :
  forall (L V : Type) (ltb : L -> L -> bool), SWO ltb ->
  forall (c : cache L V) l a v, reachable ltb c -> ~ contains ltb c l -> read_node a c = Some v ->
  (exists n, In n (c_elems c) /\ n_addr n = a /\
     ((current_size c < maximum_size c)%Z \/ n_age n <> (maximum_size c - 1)%Z) /\
     put ltb l (VNode a) false c = put ltb l (VVal v) false c) \/
  (exists n, In n (c_elems c) /\ n_addr n = a /\
     current_size c = maximum_size c /\ n_age n = (maximum_size c - 1)%Z /\
     put ltb l (VNode a) false c = Ub UbDangling).
Proof. exact @put_ref. Qed.
Print Assumptions C07_lru_put_reference_partial.
Example C07_example_ok : exists c', read_node 0 lru_sample = Some 10 /\
  put Nat.ltb 2 (VNode 0) false lru_sample = Ret tt c' /\
  read_node 4 c' = Some 10.
Proof. eexists. split; [vm_compute; reflexivity|]. split; vm_compute; reflexivity. Qed.

(** ** C82: caches are values.  For every program over cache variables (construction, copy, move, assignment, destruction and
    calls) the observations are those of variables holding recency lists: a copy is independent of its original, a
    moved-from cache is an empty cache of the same capacity (also after self move), and the behaviour is undefined only if the
    program uses a variable that does not exist or constructs one that does. *)
Theorem C82_lru_caches_are_values :
  forall (L V : Type) (ltb : L -> L -> bool), SWO ltb ->
  forall p : list (vop L V), Forall sizes_ok p ->
  option_map snd (vrun ltb (fun _ => None) p) = option_map snd (spec_vrun ltb (fun _ => None) p).
Proof. exact @values. Qed.
Print Assumptions C82_lru_caches_are_values.
Example C82_example :
  let p := [VNew 0 0; VNew 0 2; VCall 0 (OPut 1 10); VCopy 1 0; VCall 1 (OPut 2 20); VCall 0 OSize; VCall 1 OSize; VCall 1 (OPut 3 30);
            VCall 1 (OHas 1); VCall 0 (OHas 1); VMove 2 1; VCall 1 OSize; VCall 1 OMax; VCall 2 (OAge 2); VAssign 0 2; VMoveAssign 2 2;
            VCall 2 OSize; VCall 0 (OGet 3); VDestroy 2] in
  Forall sizes_ok p /\
  option_map snd (vrun Nat.ltb (fun _ => None) p) =
  Some [RThrow ERuntime; RUnit; RUnit; RUnit; RUnit; RNum 1; RNum 2; RUnit; RBool false; RBool true; RUnit; RNum 0; RNum 2; RNum 1;
        RUnit; RUnit; RNum 0; RVal 30%nat; RUnit]%Z.
Proof. split; [repeat constructor; simpl; lia|vm_compute; reflexivity]. Qed.
(** failing copies: the source keeps its elements, the target of an assignment is a new cache of the source's size *)
Example C82_failing_example :
  let p := [VNew 0 2; VNew 1 5; VCopyFails 2 0; VCall 0 (OPut 1 10); VCopyFails 3 0; VNew 3 1; VCall 1 (OPut 7 70); VAssignFails 1 0; VCall 1 OMax;
            VCall 1 OSize; VCall 0 (OGet 1); VCall 1 (OPut 1 11); VCall 1 (OAge 1); VAssignFails 0 0; VCall 0 OSize] in
  Forall sizes_ok p /\
  option_map snd (vrun Nat.ltb (fun _ => None) p) =
  Some [RUnit; RUnit; RUnit; RUnit; RThrow (EUser 0); RUnit; RUnit; RThrow (EUser 0); RNum 2; RNum 0; RVal 10%nat; RUnit; RNum 0; RUnit; RNum 1]%Z.
Proof. split; [repeat constructor; simpl; lia|vm_compute; reflexivity]. Qed.
