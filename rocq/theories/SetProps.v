(** SetProps.v -- the properties C24-C29 of the sets of container.hpp.  Statements only; the lemmas
    are in SetProofs.v. *)
From Verif Require Import Base StdOrd SetModel SetSpec SetProofs.

(** ** C24: programs over set variables, aliased arguments included *)
Theorem C24_set_programs_refine_sets :
  forall (T : Type) (ltb : T -> T -> bool), SWO ltb ->
  forall ops : list (sop T), Forall no_member_restrict ops ->
  exists st', srun ltb ops (fun _ => []) = Ret tt st' /\
    forall v,
      (forall x, contains ltb (st' v) x = spec_srun ltb ops (fun _ _ => false) v x) /\
      (exists l, make_list ltb (st' v) = Some l /\ increasing ltb l /\
                 forall x, in_list ltb l x = spec_srun ltb ops (fun _ _ => false) v x).
Proof. exact @set_histories. Qed.
Print Assumptions C24_set_programs_refine_sets.

Example C24_example :
  let ops := [SFromList 0 [5; 3; 5; 1]; SCopy 1 0; SInsert 1 4; SAdjoin 0 1; SAdjoin 0 0; SRemove 0 3;
              SJoin 2 0 1; SRemoveSet 1 0; SDifference 3 2 1; SRemoveList 2 [5; 9]] in
  Forall no_member_restrict ops /\
  exists st', srun Nat.ltb ops (fun _ => []) = Ret tt st' /\
    map st' [0; 1; 2; 3] = [[1; 4; 5]; [3]; [1; 3; 4]; [1; 4; 5]].
Proof. split; [repeat constructor|]. eexists. split; [vm_compute; reflexivity|vm_compute; reflexivity]. Qed.
(** elements compared by a strict weak order whose equivalence is not equality: the first is kept *)
Example C24_example_weak_order :
  exists st', srun mod10_ltb [SFromList 0 [15; 3; 5]; SInsert 0 23; SRemove 0 33] (fun _ => []) = Ret tt st' /\
    st' 0 = [15].
Proof. eexists. split; vm_compute; reflexivity. Qed.

(** ** C25: intended statement
      subset s1 s2 = true <-> s1 included in s2, and the same for s1.subset(s2).
    The free function is right; the member function tests the reverse inclusion. *)
Theorem C25_member_subset_refuted :
  exists s1 s2 : list nat, increasing Nat.ltb s1 /\ increasing Nat.ltb s2 /\
    (forall x, contains Nat.ltb s1 x = true -> contains Nat.ltb s2 x = true) /\
    member_subset Nat.ltb s1 s2 = false /\ member_subset Nat.ltb s2 s1 = true /\
    contains Nat.ltb s2 2 = true /\ contains Nat.ltb s1 2 = false.
Proof.
  exists [1], [1; 2]. split; [repeat constructor|]. split; [repeat constructor|].
  split; [apply subset_iff; [exact swo_nat|reflexivity]|]. repeat split.
Qed.
Print Assumptions C25_member_subset_refuted.

(** what both functions decide; missing: the member function has its operands exchanged *)
Theorem C25_subset_partial :
  forall (T : Type) (ltb : T -> T -> bool), SWO ltb ->
  forall s1 s2 : list T,
    (subset ltb s1 s2 = true <-> forall x, contains ltb s1 x = true -> contains ltb s2 x = true) /\
    (member_subset ltb s1 s2 = true <-> forall x, contains ltb s2 x = true -> contains ltb s1 x = true).
Proof. intros T ltb HO s1 s2. exact (conj (subset_iff ltb HO s1 s2) (member_subset_iff ltb HO s1 s2)). Qed.
Print Assumptions C25_subset_partial.

Example C25_example :
  subset Nat.ltb [1; 4] [1; 2; 4] = true /\ subset Nat.ltb [1; 2; 4] [1; 4] = false /\
  member_subset Nat.ltb [1; 2; 4] [1; 4] = true.
Proof. repeat split. Qed.

(** ** C26: intended statement: all of the functions named in the property, r.restrict(s) included.
    The member function restrict removes the common elements instead of keeping them; it is right only
    for the empty set. *)
Theorem C26_member_restrict_refuted :
  forall (T : Type) (ltb : T -> T -> bool), SWO ltb ->
  forall (st : nat -> list T) (r s : nat), (forall v, increasing ltb (st v)) ->
  exists st', sstep ltb (SMemberRestrict r s) st = Ret tt st' /\
    ((forall x, contains ltb (st' r) x = contains ltb (st r) x && contains ltb (st s) x) <-> st r = []).
Proof. exact @member_restrict_right_iff. Qed.
Print Assumptions C26_member_restrict_refuted.

(** the other functions, on any store of sets and with any variables equal; missing: r.restrict(s) *)
Theorem C26_intersection_difference_partial :
  forall (T : Type) (ltb : T -> T -> bool), SWO ltb ->
  forall (st : nat -> list T) (d r s : nat) (l : list T), (forall v, increasing ltb (st v)) ->
    (forall o, In o [SFreeRestrict r s; SIntersection d r s] ->
       exists st', sstep ltb o st = Ret tt st' /\
         forall x, contains ltb (st' (match o with SFreeRestrict _ _ => r | _ => d end)) x
                   = contains ltb (st r) x && contains ltb (st s) x) /\
    (exists st', sstep ltb (SIntersectionList d r l) st = Ret tt st' /\
         forall x, contains ltb (st' d) x = contains ltb (st r) x && in_list ltb l x) /\
    (forall o, In o [SFreeRemove r s; SRemoveSet r s; SDifference d r s] ->
       exists st', sstep ltb o st = Ret tt st' /\
         forall x, contains ltb (st' (match o with SDifference _ _ _ => d | _ => r end)) x
                   = contains ltb (st r) x && negb (contains ltb (st s) x)).
Proof. exact @intersection_ops. Qed.
Print Assumptions C26_intersection_difference_partial.

Theorem C26_member_restrict_partial :
  forall (T : Type) (ltb : T -> T -> bool), SWO ltb ->
  forall (st : nat -> list T) (r s : nat), (forall v, increasing ltb (st v)) ->
  exists st', sstep ltb (SMemberRestrict r s) st = Ret tt st' /\
    forall x, contains ltb (st' r) x = contains ltb (st r) x && negb (contains ltb (st s) x).
Proof. exact @member_restrict_spec. Qed.
Print Assumptions C26_member_restrict_partial.

Definition set_sample (v : nat) : list nat := match v with 0 => [1; 2; 3] | 1 => [2; 3; 4] | _ => [] end.
Example C26_example :
  (forall v, increasing Nat.ltb (set_sample v)) /\
  (exists st', sstep Nat.ltb (SFreeRestrict 0 1) set_sample = Ret tt st' /\ st' 0 = [2; 3]) /\
  (exists st', sstep Nat.ltb (SFreeRemove 0 0) set_sample = Ret tt st' /\ st' 0 = []) /\
  (exists st', sstep Nat.ltb (SDifference 5 0 1) set_sample = Ret tt st' /\ st' 5 = [1]) /\
  (exists st', sstep Nat.ltb (SMemberRestrict 0 1) set_sample = Ret tt st' /\ st' 0 = [1]).
Proof.
  split; [intros [|[|v]]; repeat constructor|].
  repeat split; eexists; split; vm_compute; reflexivity.
Qed.

(** ** C27: [l] stands for the iterated collection, a set or a list *)
Theorem C27_disjoint_decides :
  forall (T : Type) (ltb : T -> T -> bool), SWO ltb ->
  forall s1 l : list T,
    (member_disjoint ltb s1 l = true <-> ~ exists x, contains ltb s1 x = true /\ in_list ltb l x = true) /\
    (disjoint ltb s1 l = true <-> ~ exists x, contains ltb s1 x = true /\ in_list ltb l x = true) /\
    (disjoint_list ltb s1 l = true <-> ~ exists x, contains ltb s1 x = true /\ in_list ltb l x = true).
Proof. exact @disjoint_all. Qed.
Print Assumptions C27_disjoint_decides.
Example C27_example :
  member_disjoint Nat.ltb [1; 3] [2; 4] = true /\ disjoint Nat.ltb [1; 3] [2; 3] = false /\
  disjoint_list Nat.ltb [1; 3] [4; 4; 1] = false.
Proof. repeat split. Qed.

(** ** C28 *)
Theorem C28_unique_and_duplicate :
  forall (T : Type) (ltb : T -> T -> bool), SWO ltb ->
  forall lst : list T,
    (unique_elements ltb lst = true <-> ~ exists x, occurs_twice ltb lst x) /\
    increasing ltb (duplicate_elements ltb lst) /\
    (forall x, contains ltb (duplicate_elements ltb lst) x = true <-> occurs_twice ltb lst x) /\
    (duplicate_elements ltb lst = [] <-> unique_elements ltb lst = true).
Proof. exact @duplicates_iff. Qed.
Print Assumptions C28_unique_and_duplicate.
Example C28_example :
  duplicate_elements Nat.ltb [3; 1; 3; 2; 1; 3] = [1; 3] /\ unique_elements Nat.ltb [3; 1; 2] = true /\
  duplicate_elements mod10_ltb [3; 1; 13] = [13].
Proof. repeat split. Qed.

(** ** C29 *)
Theorem C29_conversions :
  forall (T : Type) (ltb : T -> T -> bool), SWO ltb ->
    (forall s, increasing ltb s -> make_list ltb s = Some s) /\
    (forall l, increasing ltb (make_set ltb l) /\ forall x, contains ltb (make_set ltb l) x = in_list ltb l x) /\
    (forall s, increasing ltb s -> option_map (make_set ltb) (make_list ltb s) = Some s).
Proof. exact @conversions. Qed.
Print Assumptions C29_conversions.
Example C29_example :
  make_set Nat.ltb [3; 1; 3; 2] = [1; 2; 3] /\ make_list Nat.ltb [1; 2; 3] = Some [1; 2; 3].
Proof. repeat split. Qed.
