(** InitProps.v -- C148: a container made from a braced list contains the members.  Statements only; the lemmas are in InitProofs.v. *)
From Verif Require Import Base StdOrd SetSpec OverModel InitModel InitSpec InitProofs.

(** ** C148
    intended, for every container C and all members xs: if they convert to T without loss then C<T>{xs} contains them, and otherwise it does
    not compile *)
(** holds for List and Array, if the members convert *)
Theorem C148_sequences_partial :
  forall conv gen {V} cast dflt count generated fits T (xs : list (member V)), convertible conv T xs ->
  (lossless fits T xs -> list_init conv cast dflt count fits T xs = Elements (members cast T xs) /\
                         array_init conv gen cast dflt count generated fits T xs = Elements (members cast T xs)) /\
  (~ lossless fits T xs -> list_init conv cast dflt count fits T xs = DoesNotCompile /\
                           array_init conv gen cast dflt count generated fits T xs = DoesNotCompile).
Proof. exact @sequences. Qed.
Print Assumptions C148_sequences_partial.
(** for Set, if moreover they are not all of one type other than T *)
Theorem C148_sets_partial :
  forall conv {V} ltb, SWO ltb -> forall cast fits T (xs : list (member V)), convertible conv T xs -> (forall X, all_of X xs -> X = T) ->
  (lossless fits T xs -> exists l, set_init conv ltb cast fits T xs = Elements l /\ set_of_members ltb cast T xs l) /\
  (~ lossless fits T xs -> set_init conv ltb cast fits T xs = DoesNotCompile).
Proof. exact @sets. Qed.
Print Assumptions C148_sets_partial.

(** members that are all of one type X are converted to the elements of a Set without a word, whatever is lost, where a List does not compile *)
Theorem C148_set_refuted :
  forall conv {V} ltb, SWO ltb -> forall cast dflt count fits T X (xs : list (member V)),
  all_of X xs -> convertible conv T xs -> ~ lossless fits T xs ->
  list_init conv cast dflt count fits T xs = DoesNotCompile /\
  exists l, set_init conv ltb cast fits T xs = Elements l /\ set_of_members ltb cast T xs l.
Proof. exact (fun conv V ltb HO cast dflt count fits => set_silent conv (fun _ _ => false) ltb HO cast dflt count (fun _ _ v _ => v) fits). Qed.
Print Assumptions C148_set_refuted.
(** a number that does not convert to T is the number of elements *)
Theorem C148_number_refuted :
  forall conv gen {V} cast dflt count generated fits T (x : member V),
  implicit conv (m_type x) T = None -> implicit conv (m_type x) TSize <> None -> safe fits TSize x ->
  let l := repeat (dflt T) (count (m_type x) (m_value x)) in
  list_init conv cast dflt count fits T [x] = Elements l /\ array_init conv gen cast dflt count generated fits T [x] = Elements l.
Proof. exact @one_count. Qed.
Print Assumptions C148_number_refuted.
(** also in front of an element, which is repeated *)
Theorem C148_copies_refuted :
  forall conv gen {V} cast dflt count generated fits T (n x : member V),
  implicit conv (m_type n) T = None -> implicit conv (m_type n) TSize <> None -> safe fits TSize n ->
  implicit conv (m_type x) T <> None -> safe fits T x -> gen (m_type x) T = false ->
  let l := repeat (cast (m_type x) T (m_value x)) (count (m_type n) (m_value n)) in
  list_init conv cast dflt count fits T [n; x] = Elements l /\ array_init conv gen cast dflt count generated fits T [n; x] = Elements l.
Proof. exact @two_count. Qed.
Print Assumptions C148_copies_refuted.
(** a LinkedList takes one member for the number of elements, whatever T is *)
Theorem C148_linked_one_refuted :
  forall conv {V} cast dflt count fits T (x : member V), implicit conv (m_type x) TUInt <> None -> safe fits TUInt x ->
  linked_init conv cast dflt count fits T [x] = Elements (repeat (dflt T) (count (m_type x) (m_value x))).
Proof. exact @linked_one. Qed.
Print Assumptions C148_linked_one_refuted.
(** the first of two of the same type too, also if something is lost by converting them *)
Theorem C148_linked_two_refuted :
  forall conv {V} cast dflt count fits T X (n x : member V), m_type n = X -> m_type x = X ->
  implicit conv X TSize <> None -> implicit conv X T <> None -> ~ (X = TUInt /\ T = TUInt) ->
  linked_init conv cast dflt count fits T [n; x] = Elements (repeat (cast X T (m_value x)) (count X (m_value n))).
Proof. exact @linked_two. Qed.
Print Assumptions C148_linked_two_refuted.
(** and neither two of different types nor more than two *)
Theorem C148_linked_more_refuted :
  forall conv {V} cast dflt count fits T (x y : member V),
  (m_type x <> m_type y -> linked_init conv cast dflt count fits T [x; y] = DoesNotCompile) /\
  forall z xs, linked_init conv cast dflt count fits T (x :: y :: z :: xs) = DoesNotCompile.
Proof. exact (fun conv V cast dflt count fits T x y => conj (linked_mixed conv cast dflt count fits T x y) (linked_more conv cast dflt count fits T x y)). Qed.
Print Assumptions C148_linked_more_refuted.

(** values are counted in halves: 3 stands for 1.5; the class 0 is a string, which no number converts to *)
Definition halves (X T : ty) (v : Z) : Z := if is_float T then v else (2 * (v / 2))%Z.
Definition whole (X : ty) (v : Z) : nat := Z.to_nat (v / 2).
Definition keeps (X T : ty) (v : Z) : bool := (halves X T v =? v)%Z.
Definition lit (T : ty) (v : Z) : member Z := mkMember T v true.
Definition var (T : ty) (v : Z) : member Z := mkMember T v false.
Example C148_example :
  let none := fun _ _ : ty => false in
  let lists := list_init none halves (fun _ => 0%Z) whole keeps in
  let arrays := array_init none none halves (fun _ => 0%Z) whole (fun _ _ v _ => v) keeps in
  let sets := set_init none Z.ltb halves keeps in
  let linked := linked_init none halves (fun _ => 0%Z) whole keeps in
  (* {1,2} and {1.5,1.5,0.5}, for int and double *)
  lists TInt [lit TInt 2; lit TInt 4] = Elements [2; 4]%Z /\ arrays TDouble [lit TInt 2; lit TDouble 3] = Elements [2; 3]%Z /\
  arrays TDouble [var TInt 2; lit TDouble 3] = DoesNotCompile /\ lists TInt [lit TDouble 3; lit TDouble 3; lit TDouble 1] = DoesNotCompile /\
  sets TDouble [lit TDouble 3; lit TDouble 3; lit TDouble 1] = Elements [1; 3]%Z /\
  sets TInt [lit TDouble 3; lit TDouble 3; lit TDouble 1] = Elements [0; 2]%Z /\ sets TInt [lit TInt 6; lit TDouble 3] = DoesNotCompile /\
  (* strings: {3}; {3,s} *)
  lists (TClass 0) [lit TInt 6] = Elements [0; 0; 0]%Z /\ arrays (TClass 0) [lit TInt 6; var (TClass 0) 8] = Elements [8; 8; 8]%Z /\
  lists (TClass 0) [var TInt 6] = DoesNotCompile /\
  (* {3}, {3,4}, {3,4,5} and {3u,4u} for LinkedList *)
  linked TInt [lit TInt 6] = Elements [0; 0; 0]%Z /\ linked TInt [var TInt 6; var TInt 8] = Elements [8; 8; 8]%Z /\
  linked TInt [lit TInt 6; lit TInt 8; lit TInt 10] = DoesNotCompile /\ linked TUInt [lit TUInt 6; lit TUInt 8] = DoesNotCompile /\
  linked TInt [lit TDouble 5; lit TDouble 3] = Elements [2; 2]%Z.
Proof. vm_compute. repeat split. Qed.
Example C148_hypotheses :
  let xs := [lit TDouble 3; lit TDouble 1] in
  all_of TDouble xs /\ convertible (fun _ _ => false) TInt xs /\ ~ lossless keeps TInt xs /\ lossless keeps TDouble xs /\
  (forall X, all_of X [lit TInt 2; lit TDouble 3] -> X = TDouble) /\ SWO Z.ltb.
Proof.
  cbv zeta. split. { split; [discriminate|]. intros x [<-|[<-|[]]]; reflexivity. }
  split. { intros x [<-|[<-|[]]]; discriminate. }
  split. { intros H. destruct (H _ (or_introl eq_refl)) as [E|(_ & E & _)]; discriminate E. }
  split. { intros x [<-|[<-|[]]]; left; reflexivity. }
  split. { intros X [_ H]. exact (eq_sym (H _ (or_intror (or_introl eq_refl)))). }
  exact swo_Z.
Qed.
