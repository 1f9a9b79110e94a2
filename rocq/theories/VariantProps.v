(** VariantProps.v -- the properties C49-C51 of CodedVariant and the type lists.  Statements only; the
    lemmas are in VariantProofs.v. *)
From Verif Require Import Base VariantModel VariantProofs.

(** ** C49: accept is the call of the visitor with the alternative, for every visitor (which may have
    effects, return or throw).  holds_alternative compares codes; among the alternatives that is
    equality of types. *)
Theorem C49_visits_own_alternative :
  forall (T S R : Type) (code_of : T -> Z) (v : T -> M S R) (alts : list T) (t : T),
  NoDup (map code_of alts) -> length alts <= 16 -> In t alts ->
  accept code_of v alts (variant_of code_of t) = Some (v t) /\
  forall u, (holds_alternative code_of u (variant_of code_of t) = true <-> code_of u = code_of t) /\
            (In u alts -> (holds_alternative code_of u (variant_of code_of t) = true <-> u = t)).
Proof. exact @accept_alternative. Qed.
Print Assumptions C49_visits_own_alternative.

(** seventeen alternatives or more do not compile *)
Theorem C49_limit_is_sixteen :
  forall (T S R : Type) (code_of : T -> Z) (v : T -> M S R) (alts : list T) (code : Z),
  16 < length alts -> coded_visit code_of v alts code = None.
Proof. exact @coded_visit_too_many. Qed.
Print Assumptions C49_limit_is_sixteen.

Example C49_example :
  let alts := [3; 1; 4; 15; 9; 2; 6]%Z in
  NoDup (map (fun t => t) alts) /\
  option_map (fun m => m [0%Z]) (accept (fun t => t) (fun t l => Ret (2 * t)%Z (t :: l)) alts (variant_of (fun t => t) 15%Z)) =
    Some (Ret 30 [15; 0])%Z.
Proof.
  split; [|vm_compute; reflexivity]. apply nodupb_NoDup. reflexivity.
Qed.
(** sixteen alternatives, each visited *)
Example C49_example_sixteen :
  let alts := map Z.of_nat (seq 0 16) in
  map (fun t => option_map (fun m => m tt) (accept (fun t => t) (fun t s => Ret t s) alts (variant_of (fun t => t) t))) alts =
  map (fun t => Some (Ret t tt)) alts.
Proof. vm_compute. reflexivity. Qed.

(** ** C50 *)
Theorem C50_unknown_code_aborts :
  forall (T S R : Type) (code_of : T -> Z) (v : T -> M S R) (alts : list T) (code : Z),
  NoDup (map code_of alts) -> length alts <= 16 -> ~ In code (map code_of alts) ->
  accept code_of v alts (variant_of_code code) = Some (fun _ => Abort).
Proof. exact @accept_other. Qed.
Print Assumptions C50_unknown_code_aborts.
Example C50_example :
  option_map (fun m => m tt) (accept (fun t => t) (fun t s => Ret t s) [3; 1; 4]%Z (variant_of_code 5)) = Some Abort.
Proof. reflexivity. Qed.

(** ** C51 *)
Theorem C51_type_lists :
  forall (T : Type) (eqb : T -> T -> bool), (forall a b, eqb a b = true <-> a = b) ->
  forall (t : T) (ts : list T),
  (is_one_of eqb t ts = true <-> In t ts) /\
  (are_all_same eqb ts = true <-> forall a b, In a ts -> In b ts -> a = b) /\
  (forall n, index_of eqb t ts = Some n <-> (nth_error ts n = Some t /\ forall m, m < n -> nth_error ts m <> Some t)) /\
  (index_of eqb t ts = None <-> ~ In t ts).
Proof. exact @type_lists. Qed.
Print Assumptions C51_type_lists.
Example C51_example :
  is_one_of Nat.eqb 3 [1; 3; 2] = true /\ is_one_of Nat.eqb 5 [1; 3; 2] = false /\
  are_all_same Nat.eqb [4; 4; 4] = true /\ are_all_same Nat.eqb [4; 4; 5] = false /\
  index_of Nat.eqb 3 [1; 3; 2; 3] = Some 1 /\ index_of Nat.eqb 7 [1; 3; 2] = None /\
  (forall a b, Nat.eqb a b = true <-> a = b).
Proof. repeat split; try reflexivity; apply Nat.eqb_eq; assumption. Qed.
