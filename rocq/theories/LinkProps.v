(** LinkProps.v -- C162: append and concatenate of LinkedList.  Statements only; the lemmas are in LinkProofs.v. *)
From Verif Require Import Base OverModel LinkModel LinkSpec LinkProofs.

(** ** C162
    intended, for a List<T> and for a LinkedList<T> l: l.append(x) compiles and adds x if x converts to T, l.append(m) and l.concatenate(m) add the
    elements of m if m is such a list *)
(** List: for all values that convert, and for List<T> and std::vector<T> *)
Theorem C162_list :
  forall (conv : ty -> ty -> bool) (V : Type) (cast : ty -> ty -> V -> V) (T X : ty) (v : V) (l after : list V),
  list_append conv cast T (Value X) (Single v) l = Some after <-> converts conv X T /\ extended [cast X T v] l after.
Proof. exact @list_value. Qed.
Print Assumptions C162_list.
Theorem C162_list_sequence :
  forall (conv : ty -> ty -> bool) (V : Type) (cast : ty -> ty -> V -> V) (T : ty) (c : class) (U : ty) (vs l after : list V),
  (list_append conv cast T (Sequence c U) (Several vs) l = Some after <-> (c = StdVector \/ c = HList) /\ U = T /\ extended vs l after) /\
  list_concatenate cast T (Sequence c U) (Several vs) l = list_append conv cast T (Sequence c U) (Several vs) l.
Proof. exact @list_sequence. Qed.
Print Assumptions C162_list_sequence.
(** LinkedList: exactly for the values that convert, but not for numbers that convert only because the class T says so: those also convert to
    a LinkedList<T> with that number of elements *)
Theorem C162_linked_partial :
  forall (conv : ty -> ty -> bool) (V : Type) (cast : ty -> ty -> V -> V) (T X : ty) (v : V) (l after : list V),
  linked_append conv cast T (Value X) (Single v) l = Some after <->
  converts conv X T /\ ~ (arithmetic X /\ only_declared conv X T) /\ extended [cast X T v] l after.
Proof. exact @linked_value. Qed.
Print Assumptions C162_linked_partial.
Theorem C162_linked_refuted :
  forall (conv : ty -> ty -> bool) (V : Type) (cast : ty -> ty -> V -> V) (T X : ty) (v : V) (l : list V),
  arithmetic X -> only_declared conv X T ->
  linked_append conv cast T (Value X) (Single v) l = None /\ list_append conv cast T (Value X) (Single v) l = Some (l ++ [cast X T v]).
Proof. exact @linked_declared. Qed.
Print Assumptions C162_linked_refuted.
(** no list whatever can be added to a LinkedList, not even one of the same type: std::list has no operator[] *)
Theorem C162_linked_sequence_refuted :
  forall (conv : ty -> ty -> bool) (V : Type) (cast : ty -> ty -> V -> V) (T : ty) (c : class) (U : ty) (vs l : list V),
  linked_append conv cast T (Sequence c U) (Several vs) l = None.
Proof. exact @linked_sequence. Qed.
Print Assumptions C162_linked_sequence_refuted.
Theorem C162_concatenate_refuted :
  forall (conv : ty -> ty -> bool) (V : Type) (cast : ty -> ty -> V -> V) (T : ty) (a : argument) (x : content V) (l : list V),
  linked_concatenate conv cast T a x l = None.
Proof. exact @linked_concatenation. Qed.
Print Assumptions C162_concatenate_refuted.

(** class 0 takes an int, class 1 converts to int; a value is a number *)
Definition example_conv (X T : ty) : bool :=
  match X, T with TInt, TClass 0 | TClass 1, TInt => true | _, _ => false end.
Example C162_example :
  let cast (X T : ty) (v : nat) := match T with TBool => min 1 v | _ => v end in
  let append T X v := linked_append example_conv cast T (Value X) (Single v) [5; 6] in
  (* LinkedList<int>, LinkedList<bool>, LinkedList<class 0>, with an int, a double, objects of class 0 and 1 *)
  append TInt TInt 3 = Some [5; 6; 3] /\ append TBool TDouble 7 = Some [5; 6; 1] /\ append (TClass 0) (TClass 0) 3 = Some [5; 6; 3] /\
  append TInt (TClass 1) 3 = Some [5; 6; 3] /\ append (TClass 0) TInt 3 = None /\ append (TClass 0) TDouble 3 = None /\
  list_append example_conv cast (TClass 0) (Value TInt) (Single 3) [5; 6] = Some [5; 6; 3] /\
  list_append example_conv cast TInt (Sequence HList TInt) (Several [7; 8]) [5; 6] = Some [5; 6; 7; 8] /\
  list_append example_conv cast TInt (Sequence HList TBool) (Several [7; 8]) [5; 6] = None /\
  linked_append example_conv cast TInt (Sequence HLinked TInt) (Several [7; 8]) [5; 6] = None.
Proof. vm_compute. repeat split. Qed.
Example C162_hypotheses : arithmetic TInt /\ only_declared example_conv TInt (TClass 0) /\ converts example_conv TDouble TBool.
Proof.
  repeat split; try (intros n; discriminate); try discriminate.
  - intros [_ H]. exact (H 0 eq_refl).
  - apply C_arithmetic; intros n; discriminate.
Qed.
