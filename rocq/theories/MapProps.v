(** MapProps.v -- the properties C30-C33 of the maps of container.hpp.  Statements only; the lemmas
    are in MapProofs.v. *)
From Verif Require Import Base StdOrd SetModel SetSpec MapModel MapSpec MapProofs.

(** ** C30: programs over map variables, aliased arguments included.  The outputs are those of the
    partial functions, and afterwards get, keys and values describe them. *)
Theorem C30_map_programs_refine_functions :
  forall (K V : Type) (ltb : K -> K -> bool), SWO ltb ->
  forall (dflt : V) (ops : list (mop K V)),
  exists st', mrun ltb dflt ops (fun _ => []) = Ret (snd (spec_mrun ltb dflt ops (fun _ => fempty))) st' /\
    forall v,
      (forall k, mget ltb k (st' v) = match fst (spec_mrun ltb dflt ops (fun _ => fempty)) v k with
                                      | Some e => Ret (snd e) (st' v)
                                      | None => Exc ERuntime (st' v)
                                      end) /\
      tabulates ltb (fst (spec_mrun ltb dflt ops (fun _ => fempty)) v) (keys ltb (st' v)) (values (st' v)).
Proof. exact @map_histories. Qed.
Print Assumptions C30_map_programs_refine_functions.

Example C30_example :
  let ops := [MIndexWrite 0 5 50; MInsert 0 5 51; MIndexRead 0 3; MGet 0 5; MGet 0 9; MCopy 1 0;
              MValueWrite 1 3 33; MFreeInsert 1 5 52; MFreeInsertWrite 1 7 70 71; MAdjoin 0 1; MAdjoin 0 0;
              MHasKey 0 7; MValueWrite 0 8 1; MRemoveKeys 1 [5; 6]; MJoin 2 1 0; MRestrictKeys 3 2 [3; 5]] in
  exists st', mrun Nat.ltb 0 ops (fun _ => []) =
    Ret [OutUnit; OutUnit; OutVal 0; OutVal 50; OutThrow; OutUnit; OutUnit; OutVal 50; OutUnit; OutUnit;
         OutUnit; OutBool true; OutThrow; OutUnit; OutUnit; OutUnit] st' /\
    map st' [0; 1; 2; 3] = [[(3, 0); (5, 50); (7, 71)]; [(3, 33); (7, 71)];
                            [(3, 33); (5, 50); (7, 71)]; [(3, 33); (5, 50)]].
Proof. eexists. split; vm_compute; reflexivity. Qed.
(** equivalent but different keys: the first stored key is kept *)
Example C30_example_weak_order :
  exists st', mrun mod10_ltb 0 [MIndexWrite 0 15 1; MIndexWrite 0 25 2] (fun _ => []) =
    Ret [OutUnit; OutUnit] st' /\ keys mod10_ltb (st' 0) = [15] /\ values (st' 0) = [2].
Proof. eexists. repeat split; vm_compute; reflexivity. Qed.

(** ** C31 *)
Theorem C31_map_never_overwrites :
  forall (K V : Type) (ltb : K -> K -> bool), SWO ltb ->
  forall (dflt : V) (st : nat -> list (K * V)) (d s s2 : nat) (k : K) (v : V),
  (forall v, increasing (pltb ltb) (st v)) ->
  forall o, In o [MInsert d k v; MFreeInsert d k v; MAdjoin d s; MJoin s2 d s] ->
  exists out st', mstep ltb dflt o st = Ret out st' /\
    let t := match o with MJoin _ _ _ => s2 | _ => d end in
    (forall x y, mget ltb x (st d) = Ret y (st d) -> mget ltb x (st' t) = Ret y (st' t)) /\
    (forall x, mget ltb x (st d) = Exc ERuntime (st d) ->
       match o with
       | MInsert _ _ _ | MFreeInsert _ _ _ =>
           mget ltb x (st' t) = if eqvb ltb k x then Ret v (st' t) else Exc ERuntime (st' t)
       | _ => mget ltb x (st' t) = match mget ltb x (st s) with
                                   | Ret y _ => Ret y (st' t)
                                   | _ => Exc ERuntime (st' t)
                                   end
       end).
Proof. exact @never_overwrite. Qed.
Print Assumptions C31_map_never_overwrites.

Definition map_sample (v : nat) : list (nat * nat) :=
  match v with 0 => [(1, 10); (2, 20)] | 1 => [(2, 21); (3, 31)] | _ => [] end.
Example C31_example :
  (forall v, increasing (pltb Nat.ltb) (map_sample v)) /\
  (exists st', mstep Nat.ltb 0 (MAdjoin 0 1) map_sample = Ret OutUnit st' /\
     st' 0 = [(1, 10); (2, 20); (3, 31)]) /\
  (exists st', mstep Nat.ltb 0 (MFreeInsert 0 2 99) map_sample = Ret (OutVal 20) st' /\
     st' 0 = [(1, 10); (2, 20)]).
Proof.
  split; [intros [|[|v]]; repeat constructor|].
  split; eexists; split; vm_compute; reflexivity.
Qed.

(** ** C32 *)
Theorem C32_map_lookups :
  forall (K V : Type) (ltb : K -> K -> bool), SWO ltb ->
  forall (dflt : V) (st : nat -> list (K * V)) (d : nat) (k : K),
  (forall v, increasing (pltb ltb) (st v)) ->
    (forall o, In o [MConstIndex d k; MGet d k; MValue d k] ->
      exists out st', mstep ltb dflt o st = Ret out st' /\
        (forall v, st' v = st v) /\
        (forall e, In e (st d) -> eqvb ltb (fst e) k = true -> out = OutVal (snd e)) /\
        ((forall e, In e (st d) -> eqvb ltb (fst e) k = false) -> out = OutThrow)) /\
    (exists out st', mstep ltb dflt (MIndexRead d k) st = Ret out st' /\
       (forall v, v <> d -> st' v = st v) /\
       (forall e, In e (st d) -> eqvb ltb (fst e) k = true -> out = OutVal (snd e) /\ st' d = st d) /\
       ((forall e, In e (st d) -> eqvb ltb (fst e) k = false) ->
          out = OutVal dflt /\ increasing (pltb ltb) (st' d) /\
          forall e, In e (st' d) <-> e = (k, dflt) \/ In e (st d))).
Proof. exact @lookups. Qed.
Print Assumptions C32_map_lookups.
Example C32_example :
  (exists st', mstep Nat.ltb 0 (MGet 0 2) map_sample = Ret (OutVal 20) st') /\
  (exists st', mstep Nat.ltb 0 (MConstIndex 0 3) map_sample = Ret OutThrow st') /\
  (exists st', mstep Nat.ltb 7 (MIndexRead 1 0) map_sample = Ret (OutVal 7) st' /\
     st' 1 = [(0, 7); (2, 21); (3, 31)]).
Proof. split; [|split]; eexists; [vm_compute; reflexivity|vm_compute; reflexivity|split; vm_compute; reflexivity]. Qed.

(** ** C33 *)
Theorem C33_map_key_functions :
  forall (K V : Type) (ltb : K -> K -> bool), SWO ltb ->
  forall (m : list (K * V)) (s : list K), increasing (pltb ltb) m ->
    (forall x, mfind ltb x (remove_keys ltb s m) = if in_list ltb s x then None else mfind ltb x m) /\
    (forall x, contains ltb (keys ltb m) x = has_key ltb m x) /\
    tabulates ltb (fun x => mfind ltb x m) (keys ltb m) (values m).
Proof. exact @key_functions. Qed.
Print Assumptions C33_map_key_functions.

(** intended: for a std::set argument too, which is what the parameter of restrict_keys is declared as *)
Theorem C33_restrict_keys_partial :
  forall (K V : Type) (ltb : K -> K -> bool), SWO ltb ->
  forall (m : list (K * V)) (s : list K), increasing (pltb ltb) m ->
  exists r, restrict_keys_by ltb HelperSet m s = Ret r tt /\
    (forall x, mfind ltb x r = if in_list ltb s x then mfind ltb x m else None) /\
    tabulates ltb (fun x => if in_list ltb s x then mfind ltb x m else None) (keys ltb r) (values r).
Proof. exact @restrict_keys_set. Qed.
Print Assumptions C33_restrict_keys_partial.

(** whatever the map and the keys, an argument that is a std::set and not a Set is undefined: line 289 casts it to Set *)
Theorem C33_std_set_refuted :
  forall (K V : Type) (ltb : K -> K -> bool) (m : list (K * V)) (s : list K),
  restrict_keys_by ltb StdSet m s = Ub UbBadDowncast.
Proof. exact @restrict_keys_std_set. Qed.
Print Assumptions C33_std_set_refuted.
Example C33_example :
  restrict_keys_by Nat.ltb HelperSet [(1, 10); (2, 20); (3, 30)] [0; 2; 3] = Ret [(2, 20); (3, 30)] tt /\
  remove_keys Nat.ltb [0; 2; 3] [(1, 10); (2, 20); (3, 30)] = [(1, 10)] /\
  keys Nat.ltb [(1, 10); (2, 20)] = [1; 2] /\ values [(1, 10); (2, 20)] = [10; 20].
Proof. repeat split. Qed.
