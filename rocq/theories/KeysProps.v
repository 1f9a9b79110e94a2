(** KeysProps.v -- property C91. *)
From Verif Require Import Base StdOrd SetModel SetSpec MapModel MapSpec MapProofs StreamModel WordModel KeysModel KeysSpec KeysProofs.
From Verif Require LruModel LruSpec LruProofs.

(** C91: sets and maps whose elements or keys are compared by a strict weak order under which only equal ones are equivalent are
    plain sets and partial functions. *)
Theorem C91_plain_sets : forall (T : Type) (ltb : T -> T -> bool), SWO ltb -> (forall a b, eqvb ltb a b = true <-> a = b) ->
  forall ops : list (sop T), Forall no_member_restrict ops ->
  exists st', srun ltb ops (fun _ => []) = Ret tt st' /\
    forall v, (forall x, contains ltb (st' v) x = true <-> prun ops v x) /\
      exists l, make_list ltb (st' v) = Some l /\ NoDup l /\ (forall x, In x l <-> prun ops v x) /\ increasing ltb l.
Proof. exact @plain_sets. Qed.
Print Assumptions C91_plain_sets.
Theorem C91_plain_maps : forall (K V : Type) (ltb : K -> K -> bool), SWO ltb -> (forall a b, eqvb ltb a b = true <-> a = b) ->
  forall eqb : K -> K -> bool, (forall a b, eqb a b = true <-> a = b) ->
  forall (dflt : V) (ops : list (mop K V)), let f := pmrun eqb dflt ops (fun _ _ => None) in
  exists st', mrun ltb dflt ops (fun _ => []) = Ret (snd f) st' /\
    forall v, (forall k, mget ltb k (st' v) = match fst f v k with Some x => Ret x (st' v) | None => Exc ERuntime (st' v) end) /\
      NoDup (keys ltb (st' v)) /\ (forall k x, In (k, x) (combine (keys ltb (st' v)) (values (st' v))) <-> fst f v k = Some x) /\
      length (keys ltb (st' v)) = length (values (st' v)).
Proof. exact @plain_maps. Qed.
Print Assumptions C91_plain_maps.

(** C91: operator< of BinaryWord is such an order, so the above holds for Set<BinaryWord> and Map<BinaryWord,T>, and C01 for
    LRUCache<BinaryWord,T>. *)
Theorem C91_words : exists ltb : word -> word -> bool,
  (forall w v, word_less w v = Ret (ltb w v) tt) /\ SWO ltb /\ (forall w v, eqvb ltb w v = true <-> w = v).
Proof. exact words_as_keys. Qed.
Print Assumptions C91_words.

(** C91: so is the lexicographic order of List<T>, Set<T> (in order) and of pairs, if that of T is: to any depth of nesting. *)
Theorem C91_lists : forall (T : Type) (ltb : T -> T -> bool), SWO ltb ->
  SWO (list_ltb ltb) /\ (forall l1 l2, list_ltb ltb l1 l2 = true <-> lex_before ltb l1 l2) /\
  (forall l1 l2, eqvb (list_ltb ltb) l1 l2 = true <-> same_elements ltb l1 l2).
Proof. exact @list_laws. Qed.
Print Assumptions C91_lists.
Theorem C91_pairs : forall (A B : Type) (lta : A -> A -> bool) (ltb : B -> B -> bool), SWO lta -> SWO ltb ->
  SWO (pair_ltb lta ltb) /\
  (forall x y, eqvb (pair_ltb lta ltb) x y = true <-> eqvb lta (fst x) (fst y) = true /\ eqvb ltb (snd x) (snd y) = true).
Proof. exact @pair_swo. Qed.
Print Assumptions C91_pairs.

Example C91_word_set : let ltb := fun w v => match word_less w v with Ret r _ => r | _ => false end in
  exists st', srun ltb [SFromList 0 [[true; false]; [true]; []; [true; false]]; SInsert 0 [false]; SRemove 0 [true]] (fun _ => []) = Ret tt st' /\
    st' 0 = [[]; [false]; [true; false]].
Proof. eexists. split; vm_compute; reflexivity. Qed.
Example C91_word_cache : let ltb := fun w v => match word_less w v with Ret r _ => r | _ => false end in
  exists c', LruModel.run ltb (LruModel.mkCache 2 [] 0) [LruModel.OPut [true] 1; LruModel.OPut [] 2; LruModel.OGet [true]; LruModel.OPut [true; true] 3; LruModel.OHas []]
    = (Some c', [LruModel.RUnit; LruModel.RUnit; LruModel.RVal 1; LruModel.RUnit; LruModel.RBool false]).
Proof. eexists. vm_compute. reflexivity. Qed.
(** a set of sets of numbers, and a map keyed by lists of pairs *)
Example C91_nested : exists st', srun (list_ltb Nat.ltb) [SFromList 0 [[1; 2]; [3]; [1; 2]; []]; SInsert 0 [1; 1; 9]] (fun _ => []) = Ret tt st' /\
    st' 0 = [[]; [1; 1; 9]; [1; 2]; [3]].
Proof. eexists. split; vm_compute; reflexivity. Qed.
Example C91_nested_map : exists st', mrun (list_ltb (pair_ltb Nat.ltb Nat.ltb)) 0 [MInsert 0 [(1, 2); (0, 5)] 7; MInsert 0 [(1, 1); (9, 9)] 8; MInsert 0 [(1, 2); (0, 5)] 9; MGet 0 [(1, 2); (0, 5)]] (fun _ => []) =
    Ret [OutUnit; OutUnit; OutUnit; OutVal 7] st' /\ st' 0 = [([(1, 1); (9, 9)], 8); ([(1, 2); (0, 5)], 7)].
Proof. eexists. split; vm_compute; reflexivity. Qed.
Example C91_nat_order : SWO Nat.ltb /\ forall a b, eqvb Nat.ltb a b = true <-> a = b.
Proof.
  assert (He : forall a b, eqvb Nat.ltb a b = true <-> a = b).
  { intros a b. unfold eqvb. rewrite andb_true_iff, !negb_true_iff, !Nat.ltb_ge. lia. }
  split; [|exact He]. constructor; [intros a; apply Nat.ltb_irrefl|intros a b c; rewrite !Nat.ltb_lt; lia|].
  intros a b c. rewrite !He. congruence.
Qed.
