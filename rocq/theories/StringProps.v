(** StringProps.v -- the properties C104 (to_string) and C105 (c_str).  Statements only; the lemmas are in StringProofs.v. *)
From Verif Require Import Base StreamModel StlioModel StlioSpec WordModel StringModel StringSpec StringProofs.

(** ** C104: to_string(x) is the text that os << x appends to a stream without format flags of its own; the text of a
    pair or list is made of the texts of its parts.

    Intended, for all values and streams:
      o_text (print v o) = o_text o ++ to_string v
      to_string (VPair x y) = chars "(" ++ to_string x ++ chars "," ++ to_string y ++ chars ")".
    Both are false in exactly the following cases.  On a stream with boolalpha, every value that prints a bool before any
    word: *)
Theorem C104_insertion_refuted :
  forall (v : value) (o : ostream), exposes_bool (pieces v) -> o_boolalpha o = true ->
  o_text (print v o) <> o_text o ++ to_string v.
Proof. exact insert_refuted. Qed.
Print Assumptions C104_insertion_refuted.
Theorem C104_insertion_partial :
  forall (v : value) (o : ostream), ~ exposes_bool (pieces v) \/ o_boolalpha o = false ->
  o_text (print v o) = o_text o ++ to_string v.
Proof. exact insert_ok. Qed.
Print Assumptions C104_insertion_partial.
(** to_str is another name *)
Theorem C104_to_str_partial : forall v : value, to_str v = to_string v.
Proof. exact to_str_same. Qed.
Print Assumptions C104_to_str_partial.
(** every pair whose first part prints a word and whose second one a bool before any word: *)
Theorem C104_pair_refuted :
  forall x y : value, prints_word (pieces x) -> exposes_bool (pieces y) ->
  to_string (VPair x y) <> chars "(" ++ to_string x ++ chars "," ++ to_string y ++ chars ")".
Proof. exact pair_refuted. Qed.
Print Assumptions C104_pair_refuted.
Theorem C104_pair_partial :
  forall x y : value, ~ prints_word (pieces x) \/ ~ exposes_bool (pieces y) ->
  to_string (VPair x y) = chars "(" ++ to_string x ++ chars "," ++ to_string y ++ chars ")".
Proof. exact pair_ok. Qed.
Print Assumptions C104_pair_partial.
(** lists and sets, if no item prints a word or no item prints a bool before a word *)
Theorem C104_list_partial :
  forall l : list value,
  Forall (fun v => ~ prints_word (pieces v)) l \/ Forall (fun v => ~ exposes_bool (pieces v)) l ->
  to_string (VVector l) = chars "[" ++ separated (chars ",") (map to_string l) ++ chars "]" /\
  to_string (VLinked l) = chars "[" ++ separated (chars ",") (map to_string l) ++ chars "]" /\
  to_string (VSet l) = chars "{" ++ separated (chars ",") (map to_string l) ++ chars "}".
Proof. exact list_ok. Qed.
Print Assumptions C104_list_partial.
(** lists of integers can be read from their to_string *)
Theorem C104_read_back_partial :
  forall (lo hi : Z) (v : list Z) (s : istream) (rest : text), Forall (fun z => lo <= z <= hi)%Z v ->
  i_good s = true -> i_boolalpha s = false -> i_after s = to_string (VVector (map VInt v)) ++ rest ->
  exists s', read_vector (read_int lo hi) s = Ret v s' /\ i_good s' = true /\ i_after s' = rest.
Proof. exact strings_read_back. Qed.
Print Assumptions C104_read_back_partial.

Definition a_value : value :=
  VMap [(VInt 1, VVector [VText (chars "ab"); VText []]); (VInt (-2), VSet []); (VInt 3, VPair (VWord [true; false]) (VInt 4))].
Example C104_insertion_example :
  ~ exposes_bool (pieces a_value) /\ to_string a_value = chars "{ 1:[ab,], -2:{}, 3:(10,4) }" /\
  exposes_bool (pieces (VVector [VBool true])) /\ to_string (VVector [VBool true]) = chars "[1]" /\
  o_text (print (VVector [VBool true]) (mkO [] true)) = chars "[true]".
Proof.
  split; [|split; [vm_compute; reflexivity|split; [|split; vm_compute; reflexivity]]].
  - intros H. cbn in H. repeat match goal with H : exposes_bool _ |- _ => inversion H; subst; clear H end.
  - apply exp_chars. apply exp_here.
Qed.
Example C104_pair_example :
  prints_word (pieces (VWord [true; false])) /\ exposes_bool (pieces (VBool true)) /\
  to_string (VPair (VWord [true; false]) (VBool true)) = chars "(10,true)" /\
  to_string (VPair (VBool true) (VWord [true; false])) = chars "(1,10)" /\ to_string (VBool true) = chars "1".
Proof.
  split; [exists [true; false]; split; [discriminate | left; reflexivity]|]. split; [constructor|].
  repeat split; vm_compute; reflexivity.
Qed.
Example C104_list_example :
  Forall (fun v => ~ exposes_bool (pieces v)) [VWord [true]; VInt 5] /\
  to_string (VVector [VWord [true]; VInt 5]) = chars "[1,5]".
Proof.
  split; [|vm_compute; reflexivity]. repeat constructor; intros H; cbn in H;
  repeat match goal with H : exposes_bool _ |- _ => inversion H; subst; clear H end.
Qed.
Example C104_read_back_example :
  i_after (of_text (chars "[7,-12] x")) = to_string (VVector (map VInt [7; -12]%Z)) ++ chars " x" /\
  exists s', read_vector (read_int (-100) 100) (of_text (chars "[7,-12] x")) = Ret [7; -12]%Z s' /\ i_after s' = chars " x".
Proof. split; [vm_compute; reflexivity|]. eexists. split; vm_compute; reflexivity. Qed.

(** ** C105: the pointer that c_str(s) returns can be read, and gives the text of s, as long as s is neither changed nor
    destroyed.

    Intended: the next theorem for strings of either class and for results of to_string as long as they are used.  It holds
    for variables of class String (up to the first NUL of the text: a const char* knows no length): *)
Theorem C105_string_partial :
  forall (pre : list cop) (p k : nat) (t : text) (q : list cop) (l : list (option text)) (s : cst),
  holds k pre HelperString t -> (forall o, In o q -> ~ disturbs k o /\ ~ rebinds p o) ->
  crun (pre ++ CBind p k :: q) cinit = Ret l s ->
  crun ((pre ++ CBind p k :: q) ++ [CRead p]) cinit = Ret (l ++ [Some (until_nul t)]) s /\
  (nul_free t -> until_nul t = t).
Proof. exact (fun pre p k t q l s H N E => conj (pointer_valid pre p k t q l s H N E) (until_nul_all t)). Qed.
Print Assumptions C105_string_partial.
(** and for every string while the statement with the call lasts; *)
Theorem C105_at_once_partial :
  forall (pre : list cop) (k : nat) (c : string_class) (t : text) (v : value) (l : list (option text)) (s : cst),
  crun pre cinit = Ret l s ->
  (holds k pre c t -> crun (pre ++ [CUse k]) cinit = Ret (l ++ [Some (until_nul t)]) s) /\
  crun (pre ++ [CUseValue v]) cinit = Ret (l ++ [Some (until_nul (to_string v))]) s.
Proof.
  exact (fun pre k c t v l s E => conj (fun H => used_at_once pre k c t l s H E) (value_used_at_once pre v l s E)).
Qed.
Print Assumptions C105_at_once_partial.
(** it is false for every variable of class std::string, which is converted: the pointer is into the converted copy, which is
    gone, and reading it undefined, whatever the program does in between; *)
Theorem C105_std_string_refuted :
  forall (pre : list cop) (p k : nat) (t : text) (q : list cop) (l : list (option text)) (s : cst),
  holds k pre StdString t -> (forall o, In o q -> ~ rebinds p o) ->
  crun (pre ++ CBind p k :: q) cinit = Ret l s ->
  crun ((pre ++ CBind p k :: q) ++ [CRead p]) cinit = Ub UbDangling.
Proof. exact pointer_std. Qed.
Print Assumptions C105_std_string_refuted.
(** and for c_str(to_string(x)) kept in a variable. *)
Theorem C105_to_string_refuted :
  forall (pre : list cop) (p : nat) (v : value) (q : list cop) (l : list (option text)) (s : cst),
  (forall o, In o q -> ~ rebinds p o) ->
  crun (pre ++ CBindValue p v :: q) cinit = Ret l s ->
  crun ((pre ++ CBindValue p v :: q) ++ [CRead p]) cinit = Ub UbDangling.
Proof. exact pointer_value. Qed.
Print Assumptions C105_to_string_refuted.

Definition two_strings : list cop :=
  [CNew 0 HelperString (chars "xy"); CNew 1 StdString (chars "std"); CSet 0 (chars "new")].
Example C105_holds : holds 0 two_strings HelperString (chars "new") /\ holds 1 two_strings StdString (chars "std").
Proof.
  split.
  - apply (holds_set 0 [CNew 0 HelperString (chars "xy"); CNew 1 StdString (chars "std")] HelperString (chars "xy")).
    apply (holds_keep 0 [CNew 0 HelperString (chars "xy")]); [apply (holds_new 0 [])|]. cbn. discriminate.
  - apply (holds_keep 1 [CNew 0 HelperString (chars "xy"); CNew 1 StdString (chars "std")]); [|cbn; discriminate].
    apply (holds_new 1 [CNew 0 HelperString (chars "xy")]).
Qed.
Example C105_example :
  (exists s, crun (two_strings ++ [CBind 5 0; CSet 1 []; CUse 1; CRead 5; CUseValue (VInt 7)]) cinit =
     Ret [None; None; None; None; None; Some []; Some (chars "new"); Some (chars "7")] s) /\
  crun (two_strings ++ [CBind 5 1; CRead 5]) cinit = Ub UbDangling /\
  crun (two_strings ++ [CBind 5 0; CSet 0 (chars "z"); CRead 5]) cinit = Ub UbDangling /\
  crun (two_strings ++ [CBindValue 5 (VInt 7); CRead 5]) cinit = Ub UbDangling.
Proof. split; [eexists; vm_compute; reflexivity|]. repeat split; vm_compute; reflexivity. Qed.
