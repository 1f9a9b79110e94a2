(** FillProps.v -- the properties C124 and C125: a.fill(x), and Array<T>(first,last).  Statements only; the lemmas are in
    FillProofs.v. *)
From Verif Require Import Base ArrayModel ArraySpec OverModel FillModel FillProofs.

(** ** C124
    intended: for every x of a type X that converts to T, a.fill(x) compiles, and makes every element of a the value of x
    converted to T:
      exists m, fill_call ... T X a x = Runs m /\
      forall s l, holds s a l -> no_failure s -> exists s', m s = Ret tt s' /\ holds s' a (repeat (cast X T x) (length l)) *)
(** it holds if x has the type of the elements *)
Theorem C124_own_type_partial :
  forall (conv : ty -> ty -> bool) (points_at : ty -> option ty) (assigns : ty -> ty -> bool) (V : Type)
    (cast : ty -> ty -> V -> V) (sequence : ty -> V -> list V) T a x,
  exists m, fill_call conv points_at assigns cast sequence T T a x = Runs m /\
  forall (s : st V) l, holds s a l -> no_failure s -> exists s', m s = Ret tt s' /\ holds s' a (repeat (cast T T x) (length l)).
Proof. exact (fun conv points_at assigns V cast sequence => fill_value conv points_at assigns cast sequence). Qed.
Print Assumptions C124_own_type_partial.

(** it does not compile for any other type that is not an iterator, though the type converts to T *)
Theorem C124_other_types_refuted :
  forall (conv : ty -> ty -> bool) (points_at : ty -> option ty) (assigns : ty -> ty -> bool) (V : Type)
    (cast : ty -> ty -> V -> V) (sequence : ty -> V -> list V) T X a x,
  X <> T -> points_at X = None -> fill_call conv points_at assigns cast sequence T X a x = Rejected.
Proof. exact (fun conv points_at assigns V cast sequence => fill_not_value conv points_at assigns cast sequence). Qed.
Print Assumptions C124_other_types_refuted.

(** an x that is also an iterator is never taken as a value: the elements become what x points at and what follows, and
    where that ends before the array does, behaviour is undefined *)
Theorem C124_pointers_refuted :
  forall (conv : ty -> ty -> bool) (points_at : ty -> option ty) (assigns : ty -> ty -> bool) (V : Type)
    (cast : ty -> ty -> V -> V) (sequence : ty -> V -> list V) T X Y a x,
  X <> T -> points_at X = Some Y -> assigns Y T = true ->
  exists m, fill_call conv points_at assigns cast sequence T X a x = Runs m /\
  forall (s : st V) l, holds s a l -> no_failure s ->
    (length l <= length (sequence X x) ->
     exists s', m s = Ret tt s' /\ holds s' a (map (cast Y T) (firstn (length l) (sequence X x)))) /\
    (length (sequence X x) < length l -> m s = Ub UbOutOfBounds).
Proof. exact (fun conv points_at assigns V cast sequence => fill_sequence conv points_at assigns cast sequence). Qed.
Print Assumptions C124_pointers_refuted.

(** Array<std::string> a; a.fill("xy"), where std::string is class 0 and char const* is class 1.  A value is a text; the
    characters after "xy" are the terminating zero and no more *)
Definition demo_conv (X T : ty) : bool := match X, T with TClass 1, TClass 0 => true | _, _ => false end.
Definition demo_points (X : ty) : option ty := match X with TClass 1 => Some TChar | _ => None end.
Definition demo_assigns (Y T : ty) : bool := match Y, T with TChar, TClass 0 => true | _, _ => ty_eqb Y T end.
Definition demo_cast (X T : ty) (v : list nat) : list nat := v.
Definition demo_sequence (X : ty) (v : list nat) : list (list nat) :=
  match X with TClass 1 => map (fun c => [c]) (v ++ [0]) | _ => [] end.
Notation demo_fill := (fill_call demo_conv demo_points demo_assigns demo_cast demo_sequence (TClass 0)).
Definition strings (n : nat) : st (list nat) :=
  mkSt [Arr n (Some 0)] [mkBlk (32 * Z.of_nat n)%Z (repeat (Some []) n) false] n 0 None.
Definition after (c : compiled (list nat)) (s : st (list nat)) : option (res (st (list nat)) unit) :=
  match c with Runs m => Some (m s) | Rejected => None end.
Example C124_example_own : exists s', after (demo_fill (TClass 0) 0 [120; 121]) (strings 4) = Some (Ret tt s') /\
  holds s' 0 [[120; 121]; [120; 121]; [120; 121]; [120; 121]].
Proof. eexists. split; [vm_compute; reflexivity|]. reflexivity. Qed.
Example C124_example_literal : demo_conv (TClass 1) (TClass 0) = true /\
  (exists s', after (demo_fill (TClass 1) 0 [120; 121]) (strings 3) = Some (Ret tt s') /\ holds s' 0 [[120]; [121]; [0]]) /\
  holds (strings 4) 0 [[]; []; []; []] /\
  after (demo_fill (TClass 1) 0 [120; 121]) (strings 4) = Some (Ub UbOutOfBounds).
Proof.
  split; [reflexivity|]. split; [eexists; split; [vm_compute; reflexivity|reflexivity]|]. split; [reflexivity|]. vm_compute. reflexivity.
Qed.
(** Array<double> a; a.fill(1) *)
Example C124_example_number : implicit demo_conv TInt TDouble = Some Conversion /\
  fill_call demo_conv demo_points demo_assigns demo_cast demo_sequence TDouble TInt 0 [1] = Rejected.
Proof. split; reflexivity. Qed.

(** ** C125
    intended: for iterators of any type X whose elements convert to T, Array<T> d(first,last) holds the elements from first to
    last, and for iterators whose elements do not convert it does not compile *)
(** it holds for iterators of any type but T *)
Theorem C125_range_partial :
  forall (conv : ty -> ty -> bool) (points_at : ty -> option ty) (builds : ty -> ty -> bool) (V : Type) (sz : Z), (0 < sz)%Z ->
  forall (cast : ty -> ty -> V -> V) (sequence : ty -> V -> list V) T X Y d x n,
  X <> T -> points_at X = Some Y -> builds Y T = true ->
  exists m, range_call conv points_at builds sz cast sequence T X d x n = Runs m /\
  forall (s : st V), new_var s d -> no_failure s -> allocatable sz n -> n <= length (sequence X x) ->
    exists s', m s = Ret tt s' /\ holds s' d (map (cast Y T) (firstn n (sequence X x))).
Proof. exact (fun conv points_at builds V sz H cast sequence => range_sequence conv points_at builds sz H cast sequence). Qed.
Print Assumptions C125_range_partial.

(** if the elements of the array are themselves iterators of that type, they all become copies of first, whether or not what
    first points at converts to T *)
Theorem C125_range_refuted :
  forall (conv : ty -> ty -> bool) (points_at : ty -> option ty) (builds : ty -> ty -> bool) (V : Type) (sz : Z), (0 < sz)%Z ->
  forall (cast : ty -> ty -> V -> V) (sequence : ty -> V -> list V) T Y d x n, points_at T = Some Y ->
  exists m, range_call conv points_at builds sz cast sequence T T d x n = Runs m /\
  forall (s : st V), new_var s d -> no_failure s -> allocatable sz n ->
    exists s', m s = Ret tt s' /\ holds s' d (repeat (cast T T x) n).
Proof. exact (fun conv points_at builds V sz H cast sequence => range_own_type conv points_at builds sz H cast sequence). Qed.
Print Assumptions C125_range_refuted.

(** Array<std::string> and Array<char const*> from the characters of "xyz" *)
Example C125_example :
  (exists s', after (range_call demo_conv demo_points demo_assigns 32 demo_cast demo_sequence (TClass 0) (TClass 1) 0 [120; 121; 122] 2) (init 1)
     = Some (Ret tt s') /\ holds s' 0 [[120]; [121]]) /\
  demo_assigns TChar (TClass 1) = false /\
  (exists s', after (range_call demo_conv demo_points demo_assigns 8 demo_cast demo_sequence (TClass 1) (TClass 1) 0 [120; 121; 122] 2) (init 1)
     = Some (Ret tt s') /\ holds s' 0 [[120; 121; 122]; [120; 121; 122]]).
Proof.
  split; [eexists; split; [vm_compute; reflexivity|reflexivity]|]. split; [reflexivity|].
  eexists; split; [vm_compute; reflexivity|reflexivity].
Qed.
