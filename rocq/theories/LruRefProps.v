(** LruRefProps.v -- the property C121: arguments that are references into the cache itself.  Statements only; the lemmas are in
    LruRefProofs.v. *)
From Verif Require Import Base StdOrd LruModel LruSpec LruRefModel LruRefSpec LruRefProofs.

(** ** C121
    intended: a program may use what get returns as argument of the next call, whatever the capacity m of the cache:
      crun ltb ltr c0 p = (Some c', snd (spec_crun ltb ltr (mkRlist m []) p))
    where spec_crun takes every result of get as a value.  False for every capacity: *)
Theorem C121_every_capacity_refuted :
  forall m : nat, 1 <= m -> (Z.of_nat m < 2 ^ 64)%Z ->
  exists p, crun Nat.ltb true (mkCache (Z.of_nat m) [] 0) p = (None, repeat RUnit m ++ [RUb]).
Proof. exact (fun m H1 H2 => ex_intro _ (ring m) (ring_undefined m H1 H2)). Qed.
Print Assumptions C121_every_capacity_refuted.
(** the programs for capacities 1 and 2: cache.put(cache.get(0),1) and cache.put(cache.get(0),cache.get(1)) *)
Example C121_example_undefined :
  ring 1 = [SPut (CLit 0) (CLit 2); SPut (CGet (CLit 0)) (CLit 1)] /\
  ring 2 = [SPut (CLit 0) (CLit 3); SPut (CLit 1) (CLit 2); SPut (CGet (CLit 0)) (CGet (CLit 1))] /\
  crun Nat.ltb true (mkCache 2 [] 0) (ring 2) = (None, [RUnit; RUnit; RUb]) /\
  snd (spec_crun Nat.ltb true (mkRlist 2 []) (ring 2)) = [RUnit; RUnit; RUnit].
Proof. repeat split. Qed.

(** It holds if the cache has room for the elements that the arguments of a put designate, and is never violated by has_label,
    age and get. *)
Theorem C121_programs_partial :
  forall (T : Type) (ltb : T -> T -> bool), SWO ltb ->
  forall (m : Z) (ltr : bool) (p : list (cst T)), (0 < m < 2 ^ 64)%Z -> Forall (roomy m ltr) p ->
  exists c0 c', lru_new m = Ret c0 tt /\
    crun ltb ltr c0 p = (Some c', snd (spec_crun ltb ltr (mkRlist m []) p)).
Proof. exact @programs. Qed.
Print Assumptions C121_programs_partial.
(** following a chain of labels, in a full cache *)
Definition chain_program : list (cst nat) :=
  [SPut (CLit 1) (CLit 2); SPut (CLit 2) (CLit 7); SPut (CLit 5) (CLit 1);
   SGet (CGet (CGet (CLit 5))); SAge (CGet (CLit 1)); SHas (CGet (CLit 2));
   SPut (CGet (CLit 2)) (CGet (CLit 5)); SGet (CLit 7); SHas (CLit 1); SGet (CGet (CLit 2)); SGet (CGet (CLit 5)); SPut (CGet (CLit 5)) (CLit 0)].
Example C121_example :
  Forall (roomy 3 true) chain_program /\ Forall (roomy 3 false) chain_program /\
  snd (crun Nat.ltb true (mkCache 3 [] 0) chain_program)
  = [RUnit; RUnit; RUnit; RVal 7; RNum 1; RBool false; RUnit; RVal 1; RBool false; RVal 1; RThrow ERuntime; RUnit].
Proof.
  split; [|split]; [unfold chain_program; repeat constructor; unfold is_get; simpl; lia ..|].
  vm_compute. reflexivity.
Qed.

(** Exactly: on every cache that a program can reach, and whatever references it holds *)
Theorem C121_exact_partial :
  forall (T : Type) (ltb : T -> T -> bool), SWO ltb ->
  forall (c : cache T T) (r1 r2 : vref T) (x y : T), reachable ltb c ->
  read_vref r1 c = Ret x c -> read_vref r2 c = Ret y c ->
  (contains ltb c x -> put_refs ltb r1 r2 c = Exc ERuntime c) /\
  (~ contains ltb c x -> ~ evicted c r1 -> ~ evicted c r2 -> put_refs ltb r1 r2 c = put ltb x (VVal y) false c) /\
  (~ contains ltb c x -> evicted c r1 \/ evicted c r2 -> put_refs ltb r1 r2 c = Ub UbDangling).
Proof. exact @references_exact. Qed.
Print Assumptions C121_exact_partial.
Definition chain_cache : cache nat nat := mkCache 2 [mkNode 0 1 0%Z 2; mkNode 1 3 1%Z 4] 2.
Example C121_example_exact :
  reachable Nat.ltb chain_cache /\ read_vref (VNode 0) chain_cache = Ret 2 chain_cache /\
  ~ evicted chain_cache (VNode 0) /\ evicted chain_cache (VNode 1) /\
  put_refs Nat.ltb (VNode 0) (VNode 0) chain_cache = Ret tt (mkCache 2 [mkNode 0 1 1%Z 2; mkNode 2 2 0%Z 2] 3) /\
  put_refs Nat.ltb (VNode 0) (VNode 1) chain_cache = Ub UbDangling /\
  put_refs Nat.ltb (VNode 1) (VNode 0) chain_cache = Ub UbDangling.
Proof.
  split; [exists 2%Z, (mkCache 2 [] 0), [OPut 1 2; OPut 3 4; OGet 1]; eexists; split; [lia|]; split; [reflexivity|vm_compute; reflexivity]|].
  split; [reflexivity|]. split.
  - intros (_ & n & [<- | [<- | []]] & Ha & Hage); simpl in *; discriminate.
  - split; [split; [reflexivity|exists (mkNode 1 3 1%Z 4); simpl; auto]|]. repeat split; vm_compute; reflexivity.
Qed.
