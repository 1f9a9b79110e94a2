(** OverProps.v -- the properties C112 and C113: what the constructors of List, Array and LinkedList make of a value, and of
    a number and a value.  Statements only; the lemmas are in OverProofs.v. *)
From Verif Require Import Base OverModel OverSpec OverProofs.

(** ** C112
    intended: for every x that converts to T,
      list_direct conv cast dflt count T X x = Elements [cast X T x] *)
(** it holds if x already has the type T, and T is not size_t, and if it is promoted to T *)
Theorem C112_own_type_partial :
  forall (conv : ty -> ty -> bool) (V : Type) (cast : ty -> ty -> V -> V) (dflt : ty -> V) (count : ty -> V -> nat) T x,
  T <> TSize -> list_direct conv cast dflt count T T x = Elements [cast T T x].
Proof. exact @direct_same. Qed.
Print Assumptions C112_own_type_partial.

Theorem C112_promoted_partial :
  forall (conv : ty -> ty -> bool) (V : Type) (cast : ty -> ty -> V -> V) (dflt : ty -> V) (count : ty -> V -> nat) T X x,
  promotes X T = true -> list_direct conv cast dflt count T X x = Elements [cast X T x].
Proof. exact @direct_promoted. Qed.
Print Assumptions C112_promoted_partial.

(** which types are promoted to which *)
Theorem C112_promotions_partial : forall X T, promotes X T = true <-> promotion X T.
Proof. exact promotes_spec. Qed.
Print Assumptions C112_promotions_partial.

(** it holds for initialisation by [=] and for arguments, between arithmetic types and for x of type T; and for braces,
    wherever they compile *)
Theorem C112_implicit_partial :
  forall (conv : ty -> ty -> bool) (V : Type) (cast : ty -> ty -> V -> V) T X x,
  is_class X = false -> is_class T = false \/ X = T ->
  list_implicit conv cast T X x = Elements [cast X T x].
Proof. exact @implicit_standard. Qed.
Print Assumptions C112_implicit_partial.

Theorem C112_implicit_own_type_partial :
  forall (conv : ty -> ty -> bool) (V : Type) (cast : ty -> ty -> V -> V) T x,
  list_implicit conv cast T T x = Elements [cast T T x].
Proof. exact @implicit_same_type. Qed.
Print Assumptions C112_implicit_own_type_partial.

Theorem C112_braces_partial :
  forall (conv : ty -> ty -> bool) (V : Type) (cast : ty -> ty -> V -> V) (dflt : ty -> V) (count : ty -> V -> nat) T X x,
  implicit conv X T <> None ->
  list_braces conv cast dflt count T X x = if narrows X T then DoesNotCompile else Elements [cast X T x].
Proof. exact @braces_form. Qed.
Print Assumptions C112_braces_partial.

(** braces compile unless the conversion narrows: some value of the type of x is not a value of T, or the kinds of number differ *)
Theorem C112_narrowing_partial : forall X T, narrows X T = true <-> narrowing X T.
Proof. exact narrows_spec. Qed.
Print Assumptions C112_narrowing_partial.

(** it fails for every class that has a constructor from numbers: the number is taken as the size *)
Theorem C112_class_refuted :
  forall (conv : ty -> ty -> bool) (V : Type) (cast : ty -> ty -> V -> V) (dflt : ty -> V) (count : ty -> V -> nat) T X x,
  is_class T = true -> is_class X = false ->
  list_direct conv cast dflt count T X x = Elements (repeat (dflt T) (count X x)).
Proof. exact @direct_class. Qed.
Print Assumptions C112_class_refuted.

(** and for a number of type size_t, whatever the arithmetic type of the elements *)
Theorem C112_size_refuted :
  forall (conv : ty -> ty -> bool) (V : Type) (cast : ty -> ty -> V -> V) (dflt : ty -> V) (count : ty -> V -> nat) T x,
  is_class T = false -> T <> TSize ->
  list_direct conv cast dflt count T TSize x = Elements (repeat (dflt T) (count TSize x)).
Proof. exact @direct_size. Qed.
Print Assumptions C112_size_refuted.

(** it does not compile for size_t itself, nor for any other arithmetic conversion *)
Theorem C112_own_size_refuted :
  forall (conv : ty -> ty -> bool) (V : Type) (cast : ty -> ty -> V -> V) (dflt : ty -> V) (count : ty -> V -> nat) x,
  list_direct conv cast dflt count TSize TSize x = DoesNotCompile.
Proof. exact @direct_size_size. Qed.
Print Assumptions C112_own_size_refuted.

Theorem C112_conversion_refuted :
  forall (conv : ty -> ty -> bool) (V : Type) (cast : ty -> ty -> V -> V) (dflt : ty -> V) (count : ty -> V -> nat) T X x,
  is_class T = false -> is_class X = false -> X <> T -> X <> TSize -> promotes X T = false ->
  list_direct conv cast dflt count T X x = DoesNotCompile.
Proof. exact @direct_ambiguous. Qed.
Print Assumptions C112_conversion_refuted.

(** values are integers; class 0 is a class of numbers that int converts to, class 1 a class of strings *)
Definition number_conv (X T : ty) : bool := match X, T with TInt, TClass 0 => true | _, _ => false end.
Example C112_example :
  let direct := list_direct number_conv (fun _ _ v => v) (fun _ => 0%Z) (fun _ v => Z.to_nat v) in
  let braces := list_braces number_conv (fun _ _ v => v) (fun _ => 0%Z) (fun _ v => Z.to_nat v) in
  let implicit := list_implicit number_conv (fun _ _ v => v : Z) in
  direct TInt TInt 3%Z = Elements [3%Z] /\                      (* List<int>(3) *)
  direct TInt TSize 3%Z = Elements [0; 0; 0]%Z /\               (* List<int>(s.size()) *)
  direct TDouble TInt 3%Z = DoesNotCompile /\                   (* List<double>(3) *)
  direct (TClass 0) TInt 3%Z = Elements [0; 0; 0]%Z /\          (* List<Number>(3) *)
  braces (TClass 0) TInt 3%Z = Elements [3]%Z /\                (* List<Number>{3} *)
  braces (TClass 1) TSize 3%Z = Elements [0; 0; 0]%Z /\         (* List<String>{s.size()} *)
  implicit (TClass 0) TInt 3%Z = DoesNotCompile /\              (* List<Number> l=3; *)
  implicit TDouble TSize 3%Z = Elements [3]%Z /\
  direct TInt TBool 1%Z = Elements [1]%Z.
Proof. vm_compute. repeat split. Qed.

(** the language rules for numbers *)
Example C112_example_promotions :
  filter (fun p => promotes (fst p) (snd p))
    (list_prod [TBool; TChar; TInt; TUInt; TLong; TSize; TFloat; TDouble] [TBool; TChar; TInt; TUInt; TLong; TSize; TFloat; TDouble]) =
  [(TBool, TInt); (TChar, TInt); (TFloat, TDouble)].
Proof. reflexivity. Qed.
Example C112_example_narrowing :
  map (fun T => filter (fun X => negb (narrows X T)) [TBool; TChar; TInt; TUInt; TLong; TSize; TFloat; TDouble])
    [TBool; TChar; TInt; TUInt; TLong; TSize; TFloat; TDouble] =
  [[TBool]; [TBool; TChar]; [TBool; TChar; TInt]; [TBool; TUInt]; [TBool; TChar; TInt; TUInt; TLong]; [TBool; TUInt; TSize];
   [TFloat]; [TFloat; TDouble]].
Proof. reflexivity. Qed.

(** ** C113
    intended: for every n that converts to size_t and x that converts to T, the result is n copies of x *)
Theorem C113_list :
  forall (conv : ty -> ty -> bool) (V : Type) (cast : ty -> ty -> V -> V) (count : ty -> V -> nat) T A X n x,
  implicit conv A TSize <> None -> implicit conv X T <> None ->
  list_fill conv cast count T A X n x = Elements (repeat (cast X T x) (count A n)).
Proof. exact @list_fill_copies. Qed.
Print Assumptions C113_list.

Theorem C113_array_partial :
  forall (conv gen : ty -> ty -> bool) (V : Type) (cast : ty -> ty -> V -> V) (count : ty -> V -> nat)
         (generated : ty -> ty -> V -> nat -> V) T A X n x,
  implicit conv A TSize <> None -> implicit conv X T <> None ->
  (A <> X \/ (A = TSize /\ T = TSize)) -> (gen X T = true -> X = T) ->
  array_fill conv gen cast count generated T A X n x = Elements (repeat (cast X T x) (count A n)).
Proof. exact @array_fill_copies. Qed.
Print Assumptions C113_array_partial.

(** n and x of the same type, other than size_t for an Array of size_t: does not compile *)
Theorem C113_array_same_type_refuted :
  forall (conv gen : ty -> ty -> bool) (V : Type) (cast : ty -> ty -> V -> V) (count : ty -> V -> nat)
         (generated : ty -> ty -> V -> nat -> V) T A n x,
  (gen A T = true -> is_class A = true) -> ~ (A = TSize /\ T = TSize) ->
  array_fill conv gen cast count generated T A A n x = DoesNotCompile.
Proof. exact @array_fill_same. Qed.
Print Assumptions C113_array_same_type_refuted.

(** x of another class than T that can be called with an index: it is called *)
Theorem C113_array_generator_refuted :
  forall (conv gen : ty -> ty -> bool) (V : Type) (cast : ty -> ty -> V -> V) (count : ty -> V -> nat)
         (generated : ty -> ty -> V -> nat -> V) T A X n x,
  gen X T = true -> X <> T -> A <> X -> implicit conv A TSize <> None ->
  array_fill conv gen cast count generated T A X n x = Elements (map (generated X T x) (seq 0 (count A n))).
Proof. exact @array_fill_generates. Qed.
Print Assumptions C113_array_generator_refuted.

Theorem C113_linked_partial :
  forall (conv : ty -> ty -> bool) (V : Type) (cast : ty -> ty -> V -> V) (count : ty -> V -> nat) T A n x,
  implicit conv A TSize <> None -> implicit conv A T <> None -> ~ (A = TUInt /\ T = TUInt) ->
  linked_fill conv cast count T A A n x = Elements (repeat (cast A T x) (count A n)).
Proof. exact @linked_fill_copies. Qed.
Print Assumptions C113_linked_partial.

(** n and x of different types: does not compile *)
Theorem C113_linked_refuted :
  forall (conv : ty -> ty -> bool) (V : Type) (cast : ty -> ty -> V -> V) (count : ty -> V -> nat) T A X n x,
  A <> X \/ (A = TUInt /\ X = TUInt /\ T = TUInt) ->
  linked_fill conv cast count T A X n x = DoesNotCompile.
Proof. exact @linked_fill_fails. Qed.
Print Assumptions C113_linked_refuted.

(** make_list(t) and make_array(t) contain just t, except that make_array does not compile for an unsigned int *)
Theorem C113_make_list :
  forall (conv : ty -> ty -> bool) (V : Type) (cast : ty -> ty -> V -> V) (count : ty -> V -> nat) T one t,
  count TUInt one = 1 -> make_list conv cast count T one t = Elements [cast T T t].
Proof. exact @make_list_one. Qed.
Print Assumptions C113_make_list.

Theorem C113_make_array_partial :
  forall (conv gen : ty -> ty -> bool) (V : Type) (cast : ty -> ty -> V -> V) (count : ty -> V -> nat)
         (generated : ty -> ty -> V -> nat -> V) T one t,
  T <> TUInt -> count TUInt one = 1 -> make_array conv gen cast count generated T one t = Elements [cast T T t].
Proof. exact @make_array_one. Qed.
Print Assumptions C113_make_array_partial.

Theorem C113_make_array_refuted :
  forall (conv gen : ty -> ty -> bool) (V : Type) (cast : ty -> ty -> V -> V) (count : ty -> V -> nat)
         (generated : ty -> ty -> V -> nat -> V) one t,
  (forall X T, gen X T = true -> is_class X = true) ->
  make_array conv gen cast count generated TUInt one t = DoesNotCompile.
Proof. exact @make_array_unsigned. Qed.
Print Assumptions C113_make_array_refuted.

Definition square_gen (X T : ty) : bool := match X, T with TClass 2, TInt => true | _, _ => false end.
Example C113_example :
  let array := array_fill number_conv square_gen (fun _ _ v => v) (fun _ v => Z.to_nat v) (fun _ _ _ i => (Z.of_nat i * Z.of_nat i)%Z) in
  let lst := list_fill number_conv (fun _ _ v => v) (fun _ v => Z.to_nat v) in
  let linked := linked_fill number_conv (fun _ _ v => v) (fun _ v => Z.to_nat v) in
  array TInt TUInt TInt 2%Z 7%Z = Elements [7; 7]%Z /\          (* Array<int>(2u,7) *)
  array TInt TInt TInt 2%Z 7%Z = DoesNotCompile /\              (* Array<int>(2,7) *)
  array TSize TSize TSize 2%Z 7%Z = Elements [7; 7]%Z /\
  array TDouble TInt TDouble 2%Z 7%Z = Elements [7; 7]%Z /\
  array TInt TInt (TClass 2) 3%Z 7%Z = Elements [0; 1; 4]%Z /\  (* Array<int>(3,square) *)
  array (TClass 0) TUInt TInt 2%Z 7%Z = Elements [7; 7]%Z /\
  array (TClass 1) TUInt TInt 2%Z 7%Z = DoesNotCompile /\
  lst TInt TInt TInt 2%Z 7%Z = Elements [7; 7]%Z /\
  linked TInt TInt TInt 2%Z 7%Z = Elements [7; 7]%Z /\
  linked TInt TUInt TInt 2%Z 7%Z = DoesNotCompile /\
  linked TDouble TInt TInt 2%Z 7%Z = Elements [7; 7]%Z.
Proof. vm_compute. repeat split. Qed.
