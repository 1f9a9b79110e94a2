(** LruLifeProps.v -- C153: the objects LRUCache makes and destroys. *)
From Verif Require Import Base StdOrd LruModel LruLifeModel LruLifeSpec LruLifeProofs.

(** C153: whatever is called and whatever fails, between two calls there are exactly one label, one value and one node per element of
    the cache; and its destruction destroys all of them, each once, making no copies. *)
Theorem C153_owns_its_contents :
  forall (L V : Type) (ltb : L -> L -> bool) (late movable : bool) (m : Z) (c : cache L V), lru_new m = Ret c tt ->
  forall ops s rs, life_run ltb late movable (start c) ops = (Some s, rs) ->
    owns_its_contents s /\ exists s', life_destroy s = Ret tt s' /\ owns_nothing s' /\ made s s' 0 0 0.
Proof.
  exact (fun L V ltb late movable m c Hc ops s rs H =>
    let O := life_run_owns ltb late movable ops (start c) s rs (start_owns m c Hc) H in conj O (destroy_ok s O)).
Qed.
Print Assumptions C153_owns_its_contents.

(** C153: a put that returns copies the label twice and the value twice, and moves it twice (or copies it, if it cannot be moved); no other
    call makes any object. *)
Theorem C153_made :
  forall (L V : Type) (ltb : L -> L -> bool) (late movable : bool) (m : Z) (c : cache L V), lru_new m = Ret c tt ->
  forall ops s rs, life_run ltb late movable (start c) ops = (Some s, rs) ->
  forall o fails s' r, life_step ltb late movable s o fails = (Some s', r) ->
    (is_put o = false -> made s s' 0 0 0) /\
    (is_put o = true -> r = RUnit -> made s s' (if movable then 2 else 4) (if movable then 2 else 0) 2).
Proof.
  exact (fun L V ltb late movable m c Hc ops s rs H o fails s' r =>
    life_step_made ltb late movable s o fails s' r (life_run_owns ltb late movable ops (start c) s rs (start_owns m c Hc) H)).
Qed.
Print Assumptions C153_made.

(** C153: the bookkeeping changes nothing else.  If nothing fails the calls do what C01 to C05 say; a put that fails leaves the cache as it
    was, or as C06 says; and no call is undefined unless the same call is when nothing fails. *)
Theorem C153_same_calls :
  forall (L V : Type) (ltb : L -> L -> bool) (late movable : bool) (m : Z) (c : cache L V), lru_new m = Ret c tt ->
  (forall ops, let p := map (fun o => (o, @nil bool)) ops in
     run ltb c ops = (option_map l_cache (fst (life_run ltb late movable (start c) p)), snd (life_run ltb late movable (start c) p))) /\
  forall ops s rs, life_run ltb late movable (start c) ops = (Some s, rs) ->
    (forall label val, match life_put ltb late movable label val s with
       | Exc _ s' => l_cache s' = l_cache s \/ exists e, put ltb label (VVal val) true (l_cache s) = Exc e (l_cache s')
       | Ret _ s' => put ltb label (VVal val) false (l_cache s) = Ret tt (l_cache s')
       | _ => True end) /\
    (forall o fails, fst (life_step ltb late movable s o fails) = None -> fst (step ltb (l_cache s) o) = None).
Proof.
  exact (fun L V ltb late movable m c Hc => conj (fun ops => life_run_calm ltb late movable ops (start c) (start_owns m c Hc))
    (fun ops s rs H => let O := life_run_owns ltb late movable ops (start c) s rs (start_owns m c Hc) H in
       conj (fun label val => life_put_cache ltb late movable s label val O) (fun o fails => life_step_undefined ltb late movable s o fails O))).
Qed.
Print Assumptions C153_same_calls.

(** a cache of two elements: two puts, a third whose node cannot be allocated, a get, and a fourth put that replaces an element *)
Example C153_run :
  exists s s', life_run Z.ltb true true (start (mkCache 2%Z [] 0))
      [(OPut 5%Z 50%Z, []); (OPut 6%Z 60%Z, repeat false 6 ++ [true]); (OGet 5%Z, []); (OPut 7%Z 70%Z, []); (OGet 7%Z, []); (OSize, [])]
    = (Some s, [RUnit; RThrow EBadAlloc; RVal 50%Z; RUnit; RVal 70%Z; RNum 2%Z])
    /\ vals s = 2 /\ labs s = 2 /\ nodes s = 2 /\ v_copies s = 6 /\ l_copies s = 5 /\ v_moves s = 5
    /\ life_destroy s = Ret tt s' /\ vals s' = 0 /\ labs s' = 0 /\ nodes s' = 0.
Proof. do 2 eexists. vm_compute. repeat split. Qed.
(** a put into a full cache, and one of which each of the nine points at which it can throw does *)
Example C153_evicts :
  exists s, life_run Z.ltb false false (start (mkCache 1%Z [] 0)) [(OPut 5%Z 50%Z, []); (OPut 6%Z 60%Z, [])] = (Some s, [RUnit; RUnit])
    /\ vals s = 1 /\ labs s = 1 /\ nodes s = 1 /\ v_copies s = 8 /\ l_copies s = 4 /\ v_moves s = 0.
Proof. eexists. vm_compute. repeat split. Qed.
Example C153_each_point : forall k, In k (seq 0 9) ->
  exists s e, life_run Z.ltb false true (start (mkCache 1%Z [] 0)) [(OPut 5%Z 50%Z, repeat false k ++ [true])] = (Some s, [RThrow e])
    /\ vals s = 0 /\ labs s = 0 /\ nodes s = 0.
Proof. intros k H. cbn in H. repeat (destruct H as [<-|H]; [do 2 eexists; vm_compute; repeat split|]). destruct H. Qed.
