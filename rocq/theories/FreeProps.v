(** FreeProps.v -- C149: the functions that are not members take what the members take.  Statements only; the lemmas are in FreeProofs.v. *)
From Verif Require Import Base StdOrd SetModel SetSpec OverModel ConvModel ConvSpec FreeModel FreeProofs.
Local Open Scope Z_scope.

(** ** C149
    intended, for a Set<T> s, a List<T> l and all types X of x: contains(s,x), subset(s,x), disjoint(s,x), join(s,x), remove(s,x) and catenate(l,x)
    compile if s.contains(x), s.subset(x), s.disjoint(x), s.adjoin(x), s.remove(x) and l.append(x) do, and do the same (but for subset, see C25) *)
(** holds for disjoint and subset *)
Theorem C149_disjoint_partial :
  forall (T X : ctype) (l : list val) (x : val), free_disjoint (HSet T) X l x = member_disjoint_call T X l x.
Proof. exact disjoint_alike. Qed.
Print Assumptions C149_disjoint_partial.
Theorem C149_subset_partial :
  forall (T X : ctype) (l : list val) (x : val), free_subset (HSet T) X l x = None <-> member_subset_call T X l x = None.
Proof. exact subset_alike. Qed.
Print Assumptions C149_subset_partial.
(** the other functions compile for exactly these types *)
Theorem C149_exact_partial :
  forall (T X : ctype) (l : list val) (x : val),
  (free_contains (HSet T) X l x <> None <-> X = T) /\ (free_join (HSet T) X l x <> None <-> X = HSet T) /\
  (free_remove_call (HSet T) X l x <> None <-> bound X (StdSet T) <> None) /\
  (free_catenate (HList T) X l x <> None <-> X = T \/ X = HList T).
Proof. exact takes. Qed.
Print Assumptions C149_exact_partial.
(** for contains exactly if x has the type T, not if it converts to T *)
Theorem C149_contains_partial :
  forall (T : ctype) (l : list val) (x : val), free_contains (HSet T) T l x = contains_arg T T x l.
Proof. exact contains_same. Qed.
Print Assumptions C149_contains_partial.
Theorem C149_contains_refuted :
  forall (T X : ctype) (l : list val) (x : val), X <> T -> conv T X <> None ->
  contains_arg T X x l <> None /\ free_contains (HSet T) X l x = None.
Proof. exact contains_less. Qed.
Print Assumptions C149_contains_refuted.
(** for join exactly if x is a Set<T>, not if it is a std::set<T> *)
Theorem C149_join_partial :
  forall (T : ctype) (l : list val) (x : val), free_join (HSet T) (HSet T) l x = member_adjoin_call T (HSet T) l x.
Proof. exact join_same. Qed.
Print Assumptions C149_join_partial.
Theorem C149_join_refuted :
  forall (T : ctype) (l : list val) (x : val), member_adjoin_call T (StdSet T) l x <> None /\ free_join (HSet T) (StdSet T) l x = None.
Proof. exact join_less. Qed.
Print Assumptions C149_join_refuted.
(** for remove exactly if x is a set of T, not if it is an element *)
Theorem C149_remove_partial :
  forall (T X : ctype) (l : list val) (x : val), increasing val_ltb l -> bound X (StdSet T) <> None ->
  exists l', free_remove_call (HSet T) X l x = Some (Some l') /\ remove_arg T X x l = Left l'.
Proof. exact remove_same. Qed.
Print Assumptions C149_remove_partial.
Theorem C149_remove_refuted :
  forall (T X : ctype) (l : list val) (x : val), as_vector X = None \/ bound X T <> None -> conv T X <> None ->
  remove_arg T X x l <> DoesNotCompile /\ free_remove_call (HSet T) X l x = None.
Proof. exact remove_less. Qed.
Print Assumptions C149_remove_refuted.
(** for catenate exactly if x is a T or a List<T>, not if it is a std::vector<T> or converts to T *)
Theorem C149_catenate_partial :
  forall (T : ctype) (l : list val) (x : val),
  free_catenate (HList T) T l x = member_append_call T T l x /\ free_catenate (HList T) (HList T) l x = member_append_call T (HList T) l x.
Proof. exact (fun T l x => conj (catenate_item T l x) (catenate_list T l x)). Qed.
Print Assumptions C149_catenate_partial.
Theorem C149_catenate_refuted :
  forall (T X : ctype) (l : list val) (x : val), X <> T -> X <> HList T -> conv T X <> None \/ bound X (StdVector T) <> None ->
  member_append_call T X l x <> None /\ free_catenate (HList T) X l x = None.
Proof. exact catenate_less. Qed.
Print Assumptions C149_catenate_refuted.

Example C149_example :
  let l := [VNum 1; VNum 2; VNum 5] in let v := VSeq [VNum 5; VNum 2] in let s := VSeq [VNum 2; VNum 5] in
  (* a Set<int> s; a set, a List, a number; a Set<String> and a std::string *)
  free_disjoint (HSet Num) (HSet Num) l s = Some false /\ free_disjoint (HSet Num) (HList Num) l v = Some false /\ free_disjoint (HSet Num) Num l (VNum 2) = None /\
  free_subset (HSet Num) (StdSet Num) l s = Some false /\ member_subset_call Num (StdSet Num) l s = Some true /\
  free_contains (HSet Num) Num l (VNum 2) = Some true /\ free_contains (HSet HString) StdString [v] v = None /\ contains_arg HString StdString v [v] = Some true /\
  free_join (HSet Num) (HSet Num) l (VSeq [VNum 3]) = Some (Some [VNum 1; VNum 2; VNum 3; VNum 5]) /\
  free_join (HSet Num) (StdSet Num) l s = None /\ member_adjoin_call Num (StdSet Num) l (VSeq [VNum 3]) = Some (Some [VNum 1; VNum 2; VNum 3; VNum 5]) /\
  free_remove_call (HSet Num) (StdSet Num) l s = Some (Some [VNum 1]) /\ free_remove_call (HSet Num) Num l (VNum 2) = None /\ remove_arg Num Num (VNum 2) l = Left [VNum 1; VNum 5] /\
  (* a List<int> and a List<List<int>> *)
  free_catenate (HList Num) Num l (VNum 7) = Some [VNum 1; VNum 2; VNum 5; VNum 7] /\ free_catenate (HList Num) (HList Num) l v = Some [VNum 1; VNum 2; VNum 5; VNum 5; VNum 2] /\
  free_catenate (HList Num) (StdVector Num) l v = None /\ member_append_call Num (StdVector Num) l v = Some [VNum 1; VNum 2; VNum 5; VNum 5; VNum 2] /\
  free_catenate (HList (HList Num)) (HList Num) [v] v = Some [v; v] /\ free_catenate (HList (HList Num)) (StdVector Num) [v] v = None /\ member_append_call (HList Num) (StdVector Num) [v] v = Some [v; v].
Proof. vm_compute. repeat split. Qed.
Example C149_hypotheses : conv HString StdString <> None /\ increasing val_ltb [VNum 1; VNum 2] /\ bound (StdSet Num) (StdSet Num) <> None /\ as_vector Num = None /\
  conv Num Num <> None.
Proof. repeat split; try discriminate. repeat constructor. Qed.
