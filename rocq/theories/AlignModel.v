(** AlignModel.v -- where the elements of arrays are: include/array.hpp:55-56 and the constructors and members that use them (78-167),
    SharedArray 223-232.  Definitions only.

    - Addresses are integers.  Which address an allocation function returns is its own choice: the theorems quantify over it.
    - A type has a size and an alignment, a power of two that divides the size [basic.align]. *)
From Verif Require Import Base.
Open Scope Z_scope.

Record element := mkE { e_size : Z; e_align : Z }.
(** __STDCPP_DEFAULT_NEW_ALIGNMENT__: 16 with the compilers this library is built with on 64 bits *)
Definition default_alignment : Z := 16.
(** what [new.delete.single] guarantees of operator new(bytes), and of operator new(bytes,alignment) *)
Definition plain_new (p : Z) : Prop := 0 < p /\ (default_alignment | p).
Definition aligned_new (a p : Z) : Prop := 0 < p /\ (a | p).

(** 55: uninitialized_new calls operator new(n*sizeof(T)), whatever T is *)
Definition array_new (t : element) (p : Z) : Prop := plain_new p.
(** new (_ptr+i) T(...), 83-214: the i-th element *)
Definition element_address (t : element) (p i : Z) : Z := p + i * e_size t.
(** 232: new T[n] calls the aligned function for types that need more than the default [expr.new]; the elements begin behind the number of
    elements, for which a multiple of the alignment is reserved (Itanium ABI 2.7); 0 if none is stored *)
Definition cookie (t : element) (stores_count : bool) : Z := if stores_count then Z.max 8 (e_align t) else 0.
Definition shared_new (t : element) (p : Z) : Prop :=
  if e_align t <=? default_alignment then plain_new p else aligned_new (e_align t) p.
Definition shared_address (t : element) (stores_count : bool) (p i : Z) : Z := p + cookie t stores_count + i * e_size t.
(** the constructions, first to last, stop at the first address at which no object of the type may be *)
Inductive built := Built | Misaligned (i : nat).
Fixpoint construct_from (t : element) (address : Z -> Z) (i n : nat) : built :=
  match n with
  | O => Built
  | S n' => if address (Z.of_nat i) mod e_align t =? 0 then construct_from t address (S i) n' else Misaligned i
  end.
Definition array_built (t : element) (p : Z) (n : nat) : built := construct_from t (element_address t p) 0 n.
Definition shared_built (t : element) (stores_count : bool) (p : Z) (n : nat) : built := construct_from t (shared_address t stores_count p) 0 n.
