(** MakeProps.v -- the properties C115 (make_array and make_list of a sequence), C116 (Map::insert) and C118 (calls of apply).
    Statements only; the lemmas are in MakeProofs.v. *)
From Verif Require Import Base OverModel MakeModel MakeProofs.

(** ** C115
    intended: for every sequence s, make_array(s) and make_list(s) contain the elements of s:
      make_array (Seq k l) = Made (Seq KArray l) /\ make_list (Seq k l) = Made (Seq KList l) *)
Theorem C115_make_array_partial :
  forall l, make_array (Seq KVector l) = Made (Seq KArray l) /\ make_array (Seq KArray l) = Made (Seq KArray l).
Proof. exact make_array_exact. Qed.
Print Assumptions C115_make_array_partial.

Theorem C115_make_list_partial :
  forall l, make_list (Seq KVector l) = Made (Seq KList l) /\ make_list (Seq KSet l) = Made (Seq KList l).
Proof. exact make_list_exact. Qed.
Print Assumptions C115_make_list_partial.

Theorem C115_single_value :
  forall z, make_array (Num z) = Made (Seq KArray [Num z]) /\ make_list (Num z) = Made (Seq KList [Num z]).
Proof. exact make_value. Qed.
Print Assumptions C115_single_value.

(** for a List, and every other class of sequences, the result has one element, the sequence itself *)
Theorem C115_make_array_refuted :
  forall k l, k <> KVector -> k <> KArray -> make_array (Seq k l) = Made (Seq KArray [Seq k l]).
Proof. exact make_array_one_element. Qed.
Print Assumptions C115_make_array_refuted.

Theorem C115_make_list_refuted :
  forall k l, k <> KVector -> k <> KSet -> k <> KArray -> make_list (Seq k l) = Made (Seq KList [Seq k l]).
Proof. exact make_list_one_element. Qed.
Print Assumptions C115_make_list_refuted.

Theorem C115_make_list_array_refuted :
  forall l, make_list (Seq KArray l) = NoCompile.
Proof. exact make_list_array. Qed.
Print Assumptions C115_make_list_array_refuted.

Example C115_example :
  make_array (Seq KVector [Num 1; Num 2]) = Made (Seq KArray [Num 1; Num 2]) /\
  make_array (Seq KList [Num 1; Num 2]) = Made (Seq KArray [Seq KList [Num 1; Num 2]]) /\
  make_list (Seq KList [Num 1; Num 2]) = Made (Seq KList [Seq KList [Num 1; Num 2]]) /\
  make_list (Seq KSet [Num 1; Num 2]) = Made (Seq KList [Num 1; Num 2]) /\
  make_list (Seq KStdSet [Num 1; Num 2]) = Made (Seq KList [Seq KStdSet [Num 1; Num 2]]).
Proof. repeat split. Qed.

(** ** C116
    intended: for every k that converts to K and v that converts to T, m.insert(k,v) and m.insert({k,v}) insert the
    converted pair *)
Theorem C116_two_arguments_partial :
  forall (conv : ty -> ty -> bool) (V : Type) (cast : ty -> ty -> V -> V) K T A B k v,
  implicit conv A K <> None -> implicit conv B T <> None -> A <> B \/ (A = K /\ B = T) ->
  insert_two conv cast K T A B k v = Inserted (cast A K k) (cast B T v).
Proof. exact @insert_two_converts. Qed.
Print Assumptions C116_two_arguments_partial.

(** k and v of one type that is not both the key and the value type: does not compile *)
Theorem C116_same_type_refuted :
  forall (conv : ty -> ty -> bool) (V : Type) (cast : ty -> ty -> V -> V) K T A k v,
  ~ (A = K /\ A = T) -> insert_two conv cast K T A A k v = InsertFails.
Proof. exact @insert_two_same. Qed.
Print Assumptions C116_same_type_refuted.

(** braces never compile *)
Theorem C116_braces_refuted :
  forall (conv : ty -> ty -> bool) (V : Type) (cast : ty -> ty -> V -> V) K T A B k v,
  insert_braces conv cast K T A B k v = InsertFails.
Proof. exact @insert_braces_fails. Qed.
Print Assumptions C116_braces_refuted.

(** class 1 is the class of strings, class 2 that of string literals *)
Definition literal_conv (X T : ty) : bool := match X, T with TClass 2, TClass 1 => true | _, _ => false end.
Example C116_example :
  let two := insert_two literal_conv (fun _ _ v => v : Z) in
  two TInt TInt TInt TInt 1%Z 2%Z = Inserted 1%Z 2%Z /\                          (* Map<int,int>: m.insert(1,2) *)
  two TInt TDouble TInt TDouble 1%Z 2%Z = Inserted 1%Z 2%Z /\
  two TInt TDouble TInt TInt 1%Z 2%Z = InsertFails /\                            (* Map<int,double>: m.insert(1,2) *)
  two (TClass 1) TInt (TClass 2) TInt 1%Z 2%Z = Inserted 1%Z 2%Z /\              (* Map<String,int>: m.insert("a",2) *)
  two (TClass 1) (TClass 1) (TClass 2) (TClass 2) 1%Z 2%Z = InsertFails /\       (* Map<String,String>: m.insert("a","b") *)
  insert_braces literal_conv (fun _ _ v => v : Z) TInt TInt TInt TInt 1%Z 2%Z = InsertFails.
Proof. vm_compute. repeat split. Qed.

(** ** C118
    intended: apply(f,l) gives the list of results of f for every list l *)
Theorem C118_const_partial :
  forall (A B : Type) (f : A -> B) qualified l, apply_call f qualified ConstObject l = Some (map f l).
Proof. exact apply_const. Qed.
Print Assumptions C118_const_partial.

Theorem C118_qualified_partial :
  forall (A B : Type) (f : A -> B) c l, apply_call f true c l = Some (map f l).
Proof. exact apply_qualified. Qed.
Print Assumptions C118_qualified_partial.

(** for a list that is not const, or a temporary, std::apply is chosen, which does not compile *)
Theorem C118_unqualified_refuted :
  forall (A B : Type) (f : A -> B) c l, c <> ConstObject -> apply_call f false c l = None.
Proof. exact apply_object. Qed.
Print Assumptions C118_unqualified_refuted.

Example C118_example :
  apply_call (Nat.mul 2) false ConstObject [1; 2; 3] = Some [2; 4; 6] /\
  apply_call (Nat.mul 2) false Object [1; 2; 3] = None /\
  apply_call (Nat.mul 2) true Object [1; 2; 3] = Some [2; 4; 6].
Proof. repeat split. Qed.
