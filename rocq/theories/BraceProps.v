(** BraceProps.v -- the property C128: functions of List and Set called with braced lists.  Statements only; the lemmas are in
    BraceProofs.v. *)
From Verif Require Import Base StdOrd SetModel SetSpec OverModel BraceModel BraceSpec BraceProofs.

(** ** C128
    intended: for values x1,...,xn that convert to T without narrowing, l.append({x1,...,xn}), catenate(l,{x1,...,xn}) and
    l.concatenate({x1,...,xn}) append these n values to a List<T>; s.remove({x1,...,xn}) removes them from a Set<T>,
    s.adjoin({x1,...,xn}) adds them, s.subset({x1,...,xn}) and s.disjoint({x1,...,xn}) test them; for every n:
      fits conv T xs -> append_braces ... T xs l = Runs (l ++ members cast T xs)    and so on *)
(** append and remove: it holds for numbers, unless the braces are empty or hold a single object of a class; and for objects,
    unless their class could be made from the braces *)
Theorem C128_append_partial :
  forall (conv : ty -> ty -> bool) (brace_conv : ty -> list ty -> bool) (V : Type) (cast : ty -> ty -> V -> V) (dflt : ty -> V)
    (build : ty -> list V -> V) (count : ty -> V -> nat) T xs l,
  fits conv T xs -> plain brace_conv T xs ->
  append_braces conv brace_conv cast dflt build count T xs l = Runs (l ++ members cast T xs).
Proof. exact (@append_plain). Qed.
Print Assumptions C128_append_partial.

Theorem C128_remove_partial :
  forall (conv : ty -> ty -> bool) (brace_conv : ty -> list ty -> bool) (V : Type) (ltb : V -> V -> bool), SWO ltb ->
  forall (cast : ty -> ty -> V -> V) (dflt : ty -> V) (build : ty -> list V -> V) T xs l,
  fits conv T xs -> plain brace_conv T xs -> increasing ltb l ->
  exists r, remove_braces conv brace_conv ltb cast dflt build T xs l = Runs (Some r) /\ increasing ltb r /\
    forall x, contains ltb r x = contains ltb l x && negb (in_list ltb (members cast T xs) x).
Proof. exact (@remove_plain). Qed.
Print Assumptions C128_remove_partial.

(** empty braces are the number zero: append({}) appends it, for every list, and remove({}) removes it, for every set *)
Theorem C128_append_empty_refuted :
  forall (conv : ty -> ty -> bool) (brace_conv : ty -> list ty -> bool) (V : Type) (cast : ty -> ty -> V -> V) (dflt : ty -> V)
    (build : ty -> list V -> V) (count : ty -> V -> nat) T l,
  is_class T = false -> append_braces conv brace_conv cast dflt build count T [] l = Runs (l ++ [dflt T]).
Proof. exact (@append_empty). Qed.
Print Assumptions C128_append_empty_refuted.

Theorem C128_remove_empty_refuted :
  forall (conv : ty -> ty -> bool) (brace_conv : ty -> list ty -> bool) (V : Type) (ltb : V -> V -> bool), SWO ltb ->
  forall (cast : ty -> ty -> V -> V) (dflt : ty -> V) (build : ty -> list V -> V) T l,
  is_class T = false -> increasing ltb l ->
  exists r, remove_braces conv brace_conv ltb cast dflt build T [] l = Runs (Some r) /\
    forall x, contains ltb r x = contains ltb l x && negb (eqvb ltb (dflt T) x).
Proof. exact (@remove_empty). Qed.
Print Assumptions C128_remove_empty_refuted.

(** braces that a conversion by a user-defined function makes into a T are ambiguous *)
Theorem C128_ambiguous_refuted :
  forall (conv : ty -> ty -> bool) (brace_conv : ty -> list ty -> bool) (V : Type) (ltb : V -> V -> bool) (cast : ty -> ty -> V -> V)
    (dflt : ty -> V) (build : ty -> list V -> V) (count : ty -> V -> nat) T xs l,
  fits conv T xs -> torn brace_conv T xs ->
  append_braces conv brace_conv cast dflt build count T xs l = Rejected /\
  remove_braces conv brace_conv ltb cast dflt build T xs l = Rejected.
Proof.
  exact (fun conv brace_conv V ltb cast dflt build count T xs l HF HT =>
    conj (append_torn conv brace_conv cast dflt build count T xs l HF HT) (remove_torn conv brace_conv ltb cast dflt build T xs l HF HT)).
Qed.
Print Assumptions C128_ambiguous_refuted.

(** concatenate, adjoin and subset have one overload: it holds for all braces *)
Theorem C128_concatenate_partial :
  forall (conv : ty -> ty -> bool) (V : Type) (cast : ty -> ty -> V -> V) (count : ty -> V -> nat) T xs l,
  fits conv T xs -> concatenate_braces conv cast count T xs l = Runs (l ++ members cast T xs).
Proof. exact (@concatenate_fits). Qed.
Print Assumptions C128_concatenate_partial.

Theorem C128_adjoin_partial :
  forall (conv : ty -> ty -> bool) (V : Type) (ltb : V -> V -> bool), SWO ltb ->
  forall (cast : ty -> ty -> V -> V) T xs l, fits conv T xs -> increasing ltb l ->
  exists r, adjoin_braces conv ltb cast T xs l = Runs (Some r) /\ increasing ltb r /\
    forall x, contains ltb r x = contains ltb l x || in_list ltb (members cast T xs) x.
Proof. exact (@adjoin_fits). Qed.
Print Assumptions C128_adjoin_partial.

Theorem C128_subset_partial :
  forall (conv : ty -> ty -> bool) (V : Type) (ltb : V -> V -> bool), SWO ltb ->
  forall (cast : ty -> ty -> V -> V) T xs l, fits conv T xs ->
  exists b, subset_braces conv ltb cast T xs l = Runs b /\
    (b = true <-> forall x, in_list ltb (members cast T xs) x = true -> contains ltb l x = true).
Proof. exact (@subset_fits). Qed.
Print Assumptions C128_subset_partial.

(** disjoint does not compile for any *)
Theorem C128_disjoint_refuted :
  forall (conv : ty -> ty -> bool) (V : Type) (ltb : V -> V -> bool) (cast : ty -> ty -> V -> V) (count : ty -> V -> nat) T xs l,
  fits conv T xs -> disjoint_braces conv ltb cast count T xs l = Rejected.
Proof. exact (@disjoint_rejected). Qed.
Print Assumptions C128_disjoint_refuted.

(** numbers; and class 0, strings, made from character pointers (class 1), or from two of them *)
Example C128_example :
  let conv X T := ty_eqb X (TClass 1) && ty_eqb T (TClass 0) in
  let bconv T Xs := match T, Xs with TClass 0, [] | TClass 0, [TClass 1] | TClass 0, [TClass 1; TClass 1] => true | _, _ => false end in
  let cast (X T : ty) (n : nat) := n in
  let dflt (T : ty) := 0 in
  let build (T : ty) (l : list nat) := 100 in
  let count (T : ty) (n : nat) := n in
  let append := append_braces conv bconv cast dflt build count in
  let remove := remove_braces conv bconv Nat.ltb cast dflt build in
  fits conv TDouble [(TFloat, 3); (TDouble, 4)] /\ plain bconv TDouble [(TFloat, 3); (TDouble, 4)] /\
  append TDouble [(TFloat, 3); (TDouble, 4)] [7] = Runs [7; 3; 4] /\
  append TInt [(TInt, 5)] [7] = Runs [7; 5] /\
  append TInt [] [7] = Runs [7; 0] /\
  append TInt [(TDouble, 1); (TInt, 2)] [7] = Rejected /\
  append (TClass 0) [(TClass 1, 5); (TClass 1, 6); (TClass 1, 7)] [7] = Runs [7; 5; 6; 7] /\
  append (TClass 0) [(TClass 1, 5); (TClass 1, 6)] [7] = Rejected /\
  append (TClass 0) [(TSize, 2); (TClass 1, 6)] [7] = Runs [7; 6; 6] /\
  append (TClass 0) [(TClass 0, 5)] [7] = Runs [7; 5] /\
  remove TInt [(TInt, 2); (TInt, 1)] [0; 1; 2; 3] = Runs (Some [0; 3]) /\
  remove TInt [] [0; 1; 2; 3] = Runs (Some [1; 2; 3]) /\
  disjoint_braces conv Nat.ltb cast count TInt [(TInt, 2); (TInt, 1)] [0; 3] = Rejected /\
  subset_braces conv Nat.ltb cast TInt [(TInt, 2); (TInt, 1)] [0; 1; 2] = Runs true /\
  adjoin_braces conv Nat.ltb cast TInt [(TInt, 2); (TInt, 1)] [0; 3] = Runs (Some [0; 1; 2; 3]) /\
  concatenate_braces conv cast count TInt [] [0; 3] = Runs [0; 3].
Proof.
  cbv zeta. split; [repeat constructor; eexists; reflexivity|]. split; [split; [discriminate|]; intros X x H; discriminate|].
  vm_compute. repeat split.
Qed.
