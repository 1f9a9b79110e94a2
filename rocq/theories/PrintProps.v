(** PrintProps.v -- the property C117: containers of things that print, print.  Statements only; the lemmas are in
    PrintProofs.v. *)
From Verif Require Import Base PrintModel PrintSpec PrintProofs.

(** ** C117
    intended: every type built from printable types prints:  forall t, prints (Client true) t = true *)
(** it holds for exactly the types without misplaced standard containers and without tuples of standard types *)
Theorem C117_exact_partial :
  forall t,
  prints (Client true) t = true <->
  (forall ts, occurs (PTuple ts) t -> exists u, In u ts /\ mentions_helper u) /\
  (forall p s, occurs p t -> In s (components p) -> std_container s -> mentions_helper s \/ may_hold p s).
Proof. exact client_prints. Qed.
Print Assumptions C117_exact_partial.

(** a client that does not use the namespace Helper *)
Theorem C117_unqualified_partial :
  forall t,
  prints (Client false) t = true <-> prints (Client true) t = true /\ (std_container t -> mentions_helper t).
Proof. exact client_prints_unseen. Qed.
Print Assumptions C117_unqualified_partial.

(** so whatever consists of pairs and of the containers of Helper only, prints everywhere *)
Theorem C117_helper_containers_partial :
  forall t sees_helper,
  (forall s, occurs s t -> ~ std_container s /\ (forall ts, s <> PTuple ts)) -> prints (Client sees_helper) t = true.
Proof. exact helper_containers_print. Qed.
Print Assumptions C117_helper_containers_partial.

(** it fails for all tuples of numbers, strings and standard containers *)
Theorem C117_tuple_refuted :
  forall c ts, (forall u, In u ts -> ~ mentions_helper u) -> prints c (PTuple ts) = false.
Proof. exact plain_tuple_fails. Qed.
Print Assumptions C117_tuple_refuted.

(** and for every standard container in a pair, an Array, a LinkedList, or a container whose operator comes earlier *)
Theorem C117_order_refuted :
  forall c p s,
  In s (components p) -> std_container s -> ~ mentions_helper s -> ~ may_hold p s -> prints c p = false.
Proof. exact misplaced_fails. Qed.
Print Assumptions C117_order_refuted.

Example C117_example :
  prints (Client true) (PVector (PVector PNum)) = true /\
  prints (Client false) (PVector (PVector PNum)) = false /\
  prints (Client true) (PVector (PStdSet PNum)) = false /\              (* std::vector<std::set<int>> *)
  prints (Client true) (PList (PStdMap PNum PNum)) = false /\           (* List<std::map<int,int>> *)
  prints (Client false) (PList (PMap PNum (PVector PNum))) = true /\
  prints (Client true) (PStdSet (PVector PNum)) = true /\
  prints (Client true) (PPair PNum (PVector PNum)) = false /\           (* std::pair<int,std::vector<int>> *)
  prints (Client false) (PPair PNum (PVector (POwn true))) = true /\
  prints (Client true) (PMap PNum (PStdMap PNum (PStdList PNum))) = true /\
  prints (Client true) (PLinked (PStdList PNum)) = false /\
  prints (Client true) (PArray (PVector PNum)) = false /\
  prints (Client true) (PTuple [PNum; PNum]) = false /\                 (* std::tuple<int,int> *)
  prints (Client false) (PTuple [PNum; PSet PNum]) = true /\
  prints (Client true) (PTuple []) = false.
Proof. vm_compute. repeat split. Qed.
