(** ImageProps.v -- C163: apply(f,s) for a Set s.  Statements only; the lemmas are in ImageProofs.v. *)
From Verif Require Import Base StdOrd SetModel ListSpec ImageModel ImageSpec ImageProofs.

(** ** C163
    intended: apply(f,s) calls f once for every element of s, in order, and returns the set of the results; if a call of f does not return, nor does apply *)
(** violated by every f whose results may not stand for sets, such as numbers and strings: the call does not compile *)
Theorem C163_compiles_refuted :
  forall (S T R : Type) (ltb : R -> R -> bool) (ways : list way) (as_set : R -> list R) (f : T -> M S R) (l : list T),
  image ltb ways as_set f l = None <-> ~ stands_for_a_set ways.
Proof. exact image_compiles. Qed.
Print Assumptions C163_compiles_refuted.
(** if they may, the calls are as intended, but the result is the union of those sets *)
Theorem C163_union_partial :
  forall (S T R : Type) (ltb : R -> R -> bool) (ways : list way) (as_set : R -> list R) (f : T -> M S R) (l : list T) (s : S),
  SWO ltb -> (forall r, ascending ltb (as_set r)) -> stands_for_a_set ways ->
  exists m, image ltb ways as_set f l = Some m /\
            outcome f l s (fun rs r => ascending ltb r /\ forall x, among ltb x r <-> exists y, In y rs /\ among ltb x (as_set y)) (m s).
Proof. exact image_runs. Qed.
Print Assumptions C163_union_partial.
(** which is the set of the results if each stands for the set of itself *)
Theorem C163_image_partial :
  forall (S T R : Type) (ltb : R -> R -> bool) (ways : list way) (as_set : R -> list R) (f : T -> M S R) (l : list T) (s : S),
  SWO ltb -> (forall r, as_set r = [r]) -> stands_for_a_set ways ->
  exists m, image ltb ways as_set f l = Some m /\
            outcome f l s (fun rs r => ascending ltb r /\ forall x, among ltb x r <-> among ltb x rs) (m s).
Proof. exact image_singletons. Qed.
Print Assumptions C163_image_partial.
(** and lacks results that are not members of the sets they stand for *)
Theorem C163_image_refuted :
  forall (S T R : Type) (ltb : R -> R -> bool) (ways : list way) (as_set : R -> list R) (f : T -> M S R) (x : T) (s s' : S) (r : R),
  SWO ltb -> (forall r, ascending ltb (as_set r)) -> stands_for_a_set ways -> f x s = Ret r s' -> ~ among ltb r (as_set r) ->
  exists m l, image ltb ways as_set f [x] = Some m /\ m s = Ret l s' /\ ~ among ltb r l.
Proof. exact image_loses. Qed.
Print Assumptions C163_image_refuted.

(** results n that stand for {n}, and for {1,...,n-1}; a function that logs its calls and throws for 0 *)
Definition example_f (x : nat) (log : list nat) : res (list nat) nat := if x =? 0 then Exc (EUser 3) log else Ret (x / 2) (log ++ [x]).
Definition run_image (ways : list way) (as_set : nat -> list nat) (l : list nat) : option (res (list nat) (list nat)) :=
  option_map (fun m => m []) (image Nat.ltb ways as_set example_f l).
Example C163_example :
  let op := [HasOperator true ToStdSet; HasOperator false ToSet] in
  run_image [] (fun n => [n]) [2; 3; 8] = None /\ run_image [HasOperator true ToStdSet; HasOperator false ToInitList] (fun n => [n]) [2; 3; 8] = None /\
  run_image op (fun n => [n]) [2; 3; 8] = Some (Ret [1; 4] [2; 3; 8]) /\ run_image op (fun n => [n]) [2; 0; 8] = Some (Exc (EUser 3) [2]) /\
  run_image [DerivedFromSet] (fun n => seq 1 (n - 1)) [2; 6; 8] = Some (Ret [1; 2; 3] [2; 6; 8]).
Proof. vm_compute. repeat split. Qed.
Example C163_hypotheses :
  SWO Nat.ltb /\ (forall r, ascending Nat.ltb (seq 1 (r - 1))) /\ stands_for_a_set [DerivedFromSet] /\ ~ stands_for_a_set [HasOperator true ToStdSet] /\
  example_f 8 [] = Ret 4 [8] /\ ~ among Nat.ltb 4 (seq 1 (4 - 1)).
Proof.
  split; [| split; [| split; [| split; [| split]]]].
  - constructor; unfold eqvb; intros a; try (intros b c); rewrite ?andb_true_iff, ?negb_true_iff, ?Nat.ltb_lt, ?Nat.ltb_ge, ?Nat.ltb_irrefl; try lia; reflexivity.
  - intros r i j a b L A B. apply Nat.ltb_lt.
    assert (G : forall len st i a, nth_error (seq st len) i = Some a -> a = st + i).
    { intros len. induction len as [| len IH]; intros st k y H; [destruct k; discriminate H |]. destruct k as [| k]; cbn in H.
      - injection H as <-. lia.
      - apply IH in H. lia. }
    apply G in A, B. lia.
  - left. left. reflexivity.
  - intros [[H | []] | [[H | []] | [H | []]]]; discriminate H.
  - reflexivity.
  - intros (y & H & A & B). apply Nat.ltb_ge in A, B. cbn in H. lia.
Qed.
