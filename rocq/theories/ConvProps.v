(** ConvProps.v -- the properties C144 and C145: Set::remove of what converts, conversions of vectors and lists.  Statements only; the lemmas
    are in ConvProofs.v. *)
From Verif Require Import Base StdOrd SetModel SetSpec OverModel ConvModel ConvSpec ConvProofs.
Local Open Scope Z_scope.

(** ** C144: s.remove(x) removes from a Set<T> just the element that s.contains(x) finds, if x is of the type T or a class derived from it, or is
    no vector or list ...
    Missing: vectors and lists that T can be made from, where it is false. *)
Theorem C144_value_partial :
  forall (T X : ctype) (x : val) (l : list val), increasing val_ltb l -> compiles (contains_arg T X x l) ->
  as_vector X = None \/ bound X T <> None ->
  exists l', remove_arg T X x l = Left l' /\ without T X [x] l l' /\ contains_arg T X x l' = Some false.
Proof. exact value_removed. Qed.
Print Assumptions C144_value_partial.
(** ... for a vector or list x that does not convert to T it removes what s.contains finds for the items, if their class is not a base of T ... *)
Theorem C144_items_partial :
  forall (T X u : ctype) (r : rank) (x : val) (l : list val), increasing val_ltb l ->
  as_vector X = Some (u, r) -> bound X T = None -> derived T u = false -> compiles (contains_arg T u x l) ->
  exists l', remove_arg T X x l = Left l' /\ without T u (items x) l l'.
Proof. exact items_removed. Qed.
Print Assumptions C144_items_partial.
(** ... and for a set of elements of type T it removes these. *)
Theorem C144_set_partial :
  forall (T X : ctype) (x : val) (l : list val), increasing val_ltb l -> bound X (StdSet T) <> None ->
  exists l', remove_arg T X x l = Left l' /\ increasing val_ltb l' /\ forall y, In y l' <-> In y l /\ ~ In y (items x).
Proof. exact set_removed. Qed.
Print Assumptions C144_set_partial.
(** From a set of lists no vector with other than one element is removed; the lists of one element of it are ... *)
Theorem C144_lists_refuted :
  forall (t : ctype) (x : val) (l : list val), increasing val_ltb l -> length (items x) <> 1%nat ->
  contains_arg (HList t) (StdVector t) x l = Some true ->
  exists l', remove_arg (HList t) (StdVector t) x l = Left l' /\ contains_arg (HList t) (StdVector t) x l' = Some true /\
    forall a, In a (items x) -> ~ In (VSeq [a]) l'.
Proof. exact list_stays. Qed.
Print Assumptions C144_lists_refuted.
(** ... for a set of sets and a vector remove does not compile, though contains does ... *)
Theorem C144_sets_refuted :
  forall (t : ctype) (x : val) (l : list val), conv (HSet t) t = None -> derived (HSet t) t = false ->
  compiles (contains_arg (HSet t) (StdVector t) x l) /\ remove_arg (HSet t) (StdVector t) x l = DoesNotCompile.
Proof. exact set_refused. Qed.
Print Assumptions C144_sets_refuted.
(** ... and items of a class that T is derived from, like std::string for String, make the behaviour undefined, though contains takes each. *)
Theorem C144_base_refuted :
  forall (T u X : ctype) (r : rank) (x : val) (l : list val) (a : val), derived T u = true -> as_vector X = Some (u, r) -> items x <> [] ->
  compiles (contains_arg T u a l) /\ remove_arg T X x l = Undefined.
Proof. exact downcast. Qed.
Print Assumptions C144_base_refuted.
Definition lists : list val := [VSeq [VNum 1]; VSeq [VNum 1; VNum 2]; VSeq [VNum 2]; VSeq [VNum 2; VNum 5]].
Example C144_example :
  let v := VSeq [VNum 1; VNum 2] in
  forallb (fun p => val_ltb (fst p) (snd p)) (combine lists (tl lists)) = true /\
  contains_arg (HList Num) (StdVector Num) v lists = Some true /\
  remove_arg (HList Num) (StdVector Num) v lists = Left [VSeq [VNum 1; VNum 2]; VSeq [VNum 2; VNum 5]] /\
  remove_arg (HList Num) (HList Num) v lists = Left [VSeq [VNum 1]; VSeq [VNum 2]; VSeq [VNum 2; VNum 5]] /\
  remove_arg (HList Num) Num (VNum 2) lists = Left [VSeq [VNum 1]; VSeq [VNum 1; VNum 2]; VSeq [VNum 2; VNum 5]] /\
  remove_arg (StdVector Num) (HList Num) v lists = Left [VSeq [VNum 1]; VSeq [VNum 2]; VSeq [VNum 2; VNum 5]] /\
  remove_arg (HList Num) (HSet (HList Num)) (VSeq [VSeq [VNum 2]; VSeq [VNum 7]]) lists = Left [VSeq [VNum 1]; VSeq [VNum 1; VNum 2]; VSeq [VNum 2; VNum 5]] /\
  remove_arg (HList Num) (HList (HList Num)) (VSeq [v; VSeq [VNum 7]]) lists = Left [VSeq [VNum 1]; VSeq [VNum 2]; VSeq [VNum 2; VNum 5]] /\
  remove_arg (HList Num) (HList (StdVector Num)) (VSeq [v; VSeq [VNum 7]]) lists = Undefined /\
  remove_arg HString (StdVector StdString) (VSeq [v]) lists = Undefined /\ remove_arg HString StdString v lists = Left [VSeq [VNum 1]; VSeq [VNum 2]; VSeq [VNum 2; VNum 5]] /\
  remove_arg (HSet Num) (StdVector Num) v lists = DoesNotCompile /\ contains_arg (HSet Num) (StdVector Num) (VSeq [VNum 2; VNum 1; VNum 2]) lists = Some true.
Proof. vm_compute. repeat split. Qed.
Example C144_increasing : increasing val_ltb lists.
Proof. repeat constructor. Qed.

(** ** C145: a std::vector<t> and a List<t> with the same elements convert to the same values of the same types, except to List<List<t>>, ...
    Missing: that type, where it is false. *)
Theorem C145_same_partial :
  forall (T t : ctype) (v : val), T <> HList (HList t) -> convert T (StdVector t) v = convert T (HList t) v.
Proof. exact same_conv. Qed.
Print Assumptions C145_same_partial.
(** ... a Set of other elements gets what each element converts to, in order ... *)
Theorem C145_set_partial :
  forall (t X u : ctype) (f : rank * (val -> val)) (x : val), bound X (HSet t) = None -> elements_of X = Some u -> conv t u = Some f ->
  exists l, convert (HSet t) X x = Some (VSeq l) /\ increasing val_ltb l /\ forall y, In y l <-> exists a, In a (items x) /\ convert t u a = Some y.
Proof. exact to_set. Qed.
Print Assumptions C145_set_partial.
(** ... and to List<List<t>> the vector becomes a list of lists of one element, and the list the one element of a list. *)
Theorem C145_lists_refuted :
  forall (t : ctype) (v : val), convert (HList (HList t)) (StdVector t) v = Some (VSeq (map (fun a => VSeq [a]) (items v))) /\
  convert (HList (HList t)) (HList t) v = Some (VSeq [v]).
Proof. exact differ_conv. Qed.
Print Assumptions C145_lists_refuted.
Example C145_example :
  let v := VSeq [VNum 3; VNum 1; VNum 3] in
  convert (HSet Num) (StdVector Num) v = Some (VSeq [VNum 1; VNum 3]) /\ convert (HSet (HList Num)) (HList Num) v = Some (VSeq [VSeq [VNum 1]; VSeq [VNum 3]]) /\
  convert (HList (StdVector Num)) (HList Num) v = Some (VSeq [v]) /\ convert (HList Num) (StdVector Num) v = Some v /\ convert (StdVector Num) (HList Num) v = Some v /\
  convert (HList HString) (StdVector StdString) (VSeq [v]) = Some (VSeq [v]) /\ convert (HList StdString) (StdVector Num) v = None /\
  convert (HList (HList Num)) (StdVector Num) v = Some (VSeq [VSeq [VNum 3]; VSeq [VNum 1]; VSeq [VNum 3]]) /\
  convert (HList (HList Num)) (HList Num) v = Some (VSeq [VSeq [VNum 3; VNum 1; VNum 3]]).
Proof. vm_compute. repeat split. Qed.
