(** SetKeepProps.v -- C168: which of several equivalent elements the set functions keep.
    The elements may be told apart although neither is less than the other (keys compared by a part
    of their data).  Statements only; the lemmas are in SetKeepProofs.v. *)
From Verif Require Import Base StdOrd SetModel SetSpec SetKeepSpec SetKeepProofs.

(** ** C168: functions of two sets take the elements of the first; join adds those of the second
    that are equivalent to none of the first *)
Theorem C168_two_sets_partial :
  forall (T : Type) (ltb : T -> T -> bool), SWO ltb ->
  forall s1 s2 : list T, increasing ltb s1 -> increasing ltb s2 ->
    (exists r, join ltb s1 s2 = Some r /\ increasing ltb r /\
      forall x, In x r <-> In x s1 \/ (In x s2 /\ absent ltb s1 x)) /\
    (exists r, intersection ltb s1 s2 = Some r /\ increasing ltb r /\
      forall x, In x r <-> In x s1 /\ present ltb s2 x) /\
    (exists r, difference ltb s1 s2 = Some r /\ increasing ltb r /\
      forall x, In x r <-> In x s1 /\ absent ltb s2 x).
Proof. exact @two_sets_keep. Qed.
Print Assumptions C168_two_sets_partial.

(** a set made from a list takes the earliest of equivalent elements *)
Theorem C168_from_list_partial :
  forall (T : Type) (ltb : T -> T -> bool), SWO ltb ->
  forall (l : list T) (x : T), In x (set_of_list ltb l) <-> earliest ltb l x.
Proof. exact @from_list_keeps. Qed.
Print Assumptions C168_from_list_partial.

(** duplicate_elements returns, of each class of equivalent elements, the second *)
Theorem C168_duplicates_partial :
  forall (T : Type) (ltb : T -> T -> bool), SWO ltb ->
  forall (l : list T) (x : T), In x (duplicate_elements ltb l) <-> second ltb l x.
Proof. exact @duplicates_keep. Qed.
Print Assumptions C168_duplicates_partial.

(** intersection of a set and a list takes the elements of the list, which is the second argument *)
Theorem C168_list_refuted :
  forall (T : Type) (ltb : T -> T -> bool), SWO ltb ->
  forall (s1 l : list T) (x : T),
    In x (intersection_list ltb s1 l []) <-> earliest ltb l x /\ present ltb s1 x.
Proof. exact @intersection_list_keeps. Qed.
Print Assumptions C168_list_refuted.

(** so intersection(s,l) and intersection(s,Set(l)) have the same elements only if each element of
    the set that is equivalent to one of the list is itself the earliest such in the list *)
Theorem C168_overloads_refuted :
  forall (T : Type) (ltb : T -> T -> bool), SWO ltb ->
  forall s l : list T, increasing ltb s ->
    exists r, intersection ltb s (set_of_list ltb l) = Some r /\
      ((forall x, In x r <-> In x (intersection_list ltb s l [])) <->
       (forall x, In x s -> present ltb l x -> earliest ltb l x)).
Proof. exact @intersections_differ. Qed.
Print Assumptions C168_overloads_refuted.

(** All programs over set variables, aliased arguments included: which elements the variables hold.
    The member function restrict is left out, as in C24. *)
Theorem C168_programs_partial :
  forall (T : Type) (ltb : T -> T -> bool), SWO ltb ->
  forall ops : list (sop T), Forall no_member_restrict ops ->
  exists st', srun ltb ops (fun _ => []) = Ret tt st' /\
    forall v, increasing ltb (st' v) /\
      forall x, In x (st' v) <-> rset_run ltb ops (fun _ _ => None) v x = Some x.
Proof. exact @representatives. Qed.
Print Assumptions C168_programs_partial.
Example C168_programs_example :
  let ops := [SFromList 0 [13; 7; 3; 21]; SCopy 1 0; SInsert 1 1; SRemove 1 17; SInsert 1 27; SAdjoin 1 1;
              SJoin 2 1 0; SIntersection 3 0 1; SIntersectionList 4 0 [37; 3; 7]; SFreeRemove 0 0] in
  Forall no_member_restrict ops /\
  exists st', srun mod10_ltb ops (fun _ => []) = Ret tt st' /\
    map st' [0; 1; 2; 3; 4] = [[]; [21; 13; 27]; [21; 13; 27]; [21; 13; 7]; [3; 37]] /\
    rset_run mod10_ltb ops (fun _ _ => None) 2 7 = Some 27.
Proof. split; [repeat constructor|]. eexists. split; [vm_compute; reflexivity|]. split; vm_compute; reflexivity. Qed.

(** numbers compared by their last digit *)
Example C168_example :
  SWO mod10_ltb /\ increasing mod10_ltb [11; 3; 25] /\ increasing mod10_ltb [1; 13; 7] /\
  join mod10_ltb [11; 3; 25] [1; 13; 7] = Some [11; 3; 25; 7] /\
  intersection mod10_ltb [11; 3; 25] [1; 13; 7] = Some [11; 3] /\
  difference mod10_ltb [11; 3; 25] [1; 13; 7] = Some [25] /\
  set_of_list mod10_ltb [7; 13; 1; 3; 21; 23] = [1; 13; 7] /\
  duplicate_elements mod10_ltb [7; 13; 1; 3; 21; 23] = [21; 3].
Proof.
  split; [exact swo_mod10|].
  split; [repeat (constructor; [|repeat constructor]); constructor|].
  split; [repeat (constructor; [|repeat constructor]); constructor|].
  vm_compute. repeat split.
Qed.
Example C168_overloads_example :
  intersection mod10_ltb [3; 25] (set_of_list mod10_ltb [13; 7]) = Some [3] /\
  intersection_list mod10_ltb [3; 25] [13; 7] [] = [13] /\
  present mod10_ltb [13; 7] 3 /\ ~ earliest mod10_ltb [13; 7] 3.
Proof.
  split; [vm_compute; reflexivity|]. split; [vm_compute; reflexivity|].
  split; [exists 13; split; [left; reflexivity|vm_compute; reflexivity]|].
  intros (pre & post & He & _).
  destruct pre as [|a [|b [|c pre]]]; simpl in He; try discriminate; injection He; intros; discriminate.
Qed.
