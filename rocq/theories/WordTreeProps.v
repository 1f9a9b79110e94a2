(** WordTreeProps.v -- C160: in the order of binary words, words with a common prefix are consecutive. *)
From Verif Require Import Base StdOrd WordModel WordProofs WordTreeProofs.

(** C160: a word comes before all longer words it is a prefix of. *)
Theorem C160_prefix_first :
  forall p u : word, is_prefix p u = Ret true tt -> word_less u p = Ret false tt.
Proof. exact first_of_tree. Qed.
Print Assumptions C160_prefix_first.

(** C160: what lies between two words with the prefix p has the prefix p. *)
Theorem C160_consecutive :
  forall p u v w : word, is_prefix p u = Ret true tt -> is_prefix p w = Ret true tt ->
  word_less v u = Ret false tt -> word_less w v = Ret false tt -> is_prefix p v = Ret true tt.
Proof. exact convex. Qed.
Print Assumptions C160_consecutive.

(** C160: if neither of p and q is a prefix of the other, everything below p compares with everything below q as p does with q. *)
Theorem C160_apart :
  forall p q u v : word, is_prefix p q = Ret false tt -> is_prefix q p = Ret false tt -> word_less p q = Ret true tt ->
  is_prefix p u = Ret true tt -> is_prefix q v = Ret true tt -> word_less u v = Ret true tt.
Proof. exact apart. Qed.
Print Assumptions C160_apart.

(** C160: hence in a Set<BinaryWord>, which is gone through in ascending order, they are a segment. *)
Theorem C160_segment :
  forall (p : word) (l : list word), StronglySorted (fun a b => word_less a b = Ret true tt) l ->
  exists a b c, l = a ++ b ++ c /\ Forall (fun w => is_prefix p w = Ret false tt) a /\
    Forall (fun w => is_prefix p w = Ret true tt) b /\ Forall (fun w => is_prefix p w = Ret false tt) c.
Proof. exact segment. Qed.
Print Assumptions C160_segment.

(** 0 < 00 < 01 < 011 < 1: below 01 are 01 and 011 *)
Example C160_example :
  StronglySorted (fun a b => word_less a b = Ret true tt) [[false]; [false; false]; [false; true]; [false; true; true]; [true]] /\
  map (is_prefix [false; true]) [[false]; [false; false]; [false; true]; [false; true; true]; [true]] =
    [Ret false tt; Ret false tt; Ret true tt; Ret true tt; Ret false tt] /\
  is_prefix [false; false] [false; true] = Ret false tt /\ word_less [false; false] [false; true] = Ret true tt /\
  word_less [false; false; true; true] [false; true; false] = Ret true tt.
Proof. split; [repeat constructor|]. repeat split. Qed.
