(** Base.v -- outcome monad, machine integers and list utilities shared by all models. *)
From Coq Require Export List ZArith Lia Bool Arith.
Export ListNotations.

(** ** C++ outcomes *)

(** The exceptions the modelled code can throw.  [EUser n] stands for an exception raised by
    user-supplied code (a copy constructor, a callback, ...). *)
Inductive exn : Type :=
| ERuntime       (* std::runtime_error *)
| EOutOfRange    (* std::out_of_range *)
| EBadAlloc      (* std::bad_alloc *)
| ELength        (* std::length_error *)
| EIosFailure    (* std::ios_base::failure *)
| EBadCast       (* std::bad_cast *)
| EUser (n : nat).

(** Reasons for undefined behaviour, kept apart only to make witnesses readable. *)
Inductive ub_reason : Type :=
| UbEraseEnd          (* erase(end()) *)
| UbDangling          (* access to an object whose lifetime has ended *)
| UbUninit            (* use of an indeterminate value or a raw cell *)
| UbOutOfBounds       (* access outside a block *)
| UbDoubleFree        (* release of storage that is not allocated *)
| UbNull              (* null pointer dereference *)
| UbOverflow          (* signed overflow *)
| UbBadDowncast       (* static_cast to a class the object does not have *)
| UbConstWrite.       (* modification of an object defined const *)

(** Result of running a C++ function in a state of type [S]. *)
Inductive res (S A : Type) : Type :=
| Ret (a : A) (s : S)          (* normal return *)
| Exc (e : exn) (s : S)        (* exception, with the state at the throw point *)
| Ub (r : ub_reason)           (* undefined behaviour *)
| Abort                        (* abort() or failed assert() *)
| Fuel.                        (* loop fuel exhausted: not a C++ outcome *)
Arguments Ret {S A} a s.
Arguments Exc {S A} e s.
Arguments Ub {S A} r.
Arguments Abort {S A}.
Arguments Fuel {S A}.

Definition M (S A : Type) : Type := S -> res S A.

Definition ret {S A} (a : A) : M S A := fun s => Ret a s.
Definition throw {S A} (e : exn) : M S A := fun s => Exc e s.
Definition undefined {S A} (r : ub_reason) : M S A := fun _ => Ub r.
Definition bind {S A B} (m : M S A) (k : A -> M S B) : M S B :=
  fun s => match m s with
           | Ret a s' => k a s'
           | Exc e s' => Exc e s'
           | Ub r => Ub r
           | Abort => Abort
           | Fuel => Fuel
           end.
Definition getS {S} : M S S := fun s => Ret s s.
Definition putS {S} (s : S) : M S unit := fun _ => Ret tt s.

Declare Scope monad_scope.
Delimit Scope monad_scope with M.
Notation "x <- m ;; k" := (bind m (fun x => k))
  (at level 100, m at next level, right associativity) : monad_scope.
Notation "m ;;; k" := (bind m (fun _ => k))
  (at level 100, right associativity) : monad_scope.

(** ** Machine integers: values are kept in [Z], wrapping is explicit. *)
Definition wrap64 (z : Z) : Z := (z mod 2 ^ 64)%Z.
Definition wrap32 (z : Z) : Z := (z mod 2 ^ 32)%Z.
(** conversion to a signed 32-bit int (C++20: modulo 2^32, two's complement) *)
Definition to_int32 (z : Z) : Z :=
  let w := wrap32 z in if (w <? 2 ^ 31)%Z then w else (w - 2 ^ 32)%Z.

Lemma wrap64_small z : (0 <= z < 2 ^ 64)%Z -> wrap64 z = z.
Proof. intros H. unfold wrap64. apply Z.mod_small. exact H. Qed.
Lemma wrap32_small z : (0 <= z < 2 ^ 32)%Z -> wrap32 z = z.
Proof. intros H. unfold wrap32. apply Z.mod_small. exact H. Qed.
Lemma wrap64_range z : (0 <= wrap64 z < 2 ^ 64)%Z.
Proof. unfold wrap64. apply Z.mod_pos_bound. reflexivity. Qed.
Lemma wrap32_range z : (0 <= wrap32 z < 2 ^ 32)%Z.
Proof. unfold wrap32. apply Z.mod_pos_bound. reflexivity. Qed.

(** ** List utilities *)
Fixpoint upd {A} (i : nat) (x : A) (l : list A) : list A :=
  match l, i with
  | [], _ => []
  | _ :: t, O => x :: t
  | h :: t, S j => h :: upd j x t
  end.

Lemma upd_length {A} i (x : A) l : length (upd i x l) = length l.
Proof. revert i; induction l as [|h t IH]; intros [|i]; simpl; auto. Qed.

Lemma nth_error_upd_eq {A} i (x : A) l : i < length l -> nth_error (upd i x l) i = Some x.
Proof. revert i; induction l as [|h t IH]; intros [|i] H; simpl in *; try lia; auto.
       apply IH; lia. Qed.

Lemma nth_error_upd_neq {A} i j (x : A) l : i <> j -> nth_error (upd i x l) j = nth_error l j.
Proof. revert i j; induction l as [|h t IH]; intros [|i] [|j] H; simpl; auto; try congruence. Qed.

Lemma nth_error_upd {A} i j (x : A) l :
  nth_error (upd i x l) j = if Nat.eqb i j then (if Nat.ltb i (length l) then Some x else None)
                            else nth_error l j.
Proof.
  destruct (Nat.eqb_spec i j) as [->|Hne].
  - destruct (Nat.ltb_spec j (length l)) as [Hlt|Hge].
    + apply nth_error_upd_eq; assumption.
    + apply nth_error_None. rewrite upd_length. assumption.
  - apply nth_error_upd_neq; assumption.
Qed.

Lemma upd_app_mid {A} (l1 l2 : list A) x y :
  upd (length l1) y (l1 ++ x :: l2) = l1 ++ y :: l2.
Proof. induction l1 as [|h t IH]; simpl; congruence. Qed.

Lemma nth_error_app_mid {A} (l1 l2 : list A) x :
  nth_error (l1 ++ x :: l2) (length l1) = Some x.
Proof. rewrite nth_error_app2 by lia. rewrite Nat.sub_diag. reflexivity. Qed.

Lemma nth_error_ext {A} (l1 l2 : list A) :
  (forall i, nth_error l1 i = nth_error l2 i) -> l1 = l2.
Proof.
  revert l2; induction l1 as [|a t IH]; intros [|b u] H.
  - reflexivity.
  - specialize (H 0); discriminate.
  - specialize (H 0); discriminate.
  - f_equal.
    + specialize (H 0); simpl in H; congruence.
    + apply IH. intros i. exact (H (S i)).
Qed.

(** ** Stores: named variables holding values *)
Definition set_var {A} (st : nat -> A) (d : nat) (a : A) : nat -> A :=
  fun v => if Nat.eqb v d then a else st v.
Lemma set_var_eq {A} (st : nat -> A) d a : set_var st d a d = a.
Proof. unfold set_var. rewrite Nat.eqb_refl. reflexivity. Qed.
Lemma set_var_neq {A} (st : nat -> A) d a v : v <> d -> set_var st d a v = st v.
Proof. intros H. unfold set_var. destruct (Nat.eqb_spec v d); [contradiction|reflexivity]. Qed.
