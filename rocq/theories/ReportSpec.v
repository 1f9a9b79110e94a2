(** ReportSpec.v -- what a failing cast should write. *)
From Verif Require Import Base StreamModel MaskModel OutModel OutSpec HandleModel HandleSpec ReportModel.

(** the line: the function, the object as it prints itself, the types *)
Definition line (f : text) (obj : list text) (static dynamic target : text) : list text :=
  [chars "Error in "; f; chars ":"; chars " cannot convert "] ++ obj ++
  [chars " of static type "; static; chars " and dynamic type "; dynamic; chars " to type "; target; [ascii_of_nat 10]].

Section Spec.
  Context {V Ty : Type} (dyn : V -> Ty) (subobjs : Ty -> Ty -> list nat) (writable : Ty) (E : env).
  (** the pieces by which the object prints itself: those of its _write function if it has the interface
      WritableInterface, and "object" otherwise *)
  Definition prints_as (wr : V -> M sink unit) (v : V) (obj : list text) : Prop :=
    (unique_base dyn subobjs v writable /\ forall a, exists b, sends E a b (wr v) obj) \/
    (~ unique_base dyn subobjs v writable /\ obj = [chars "object"]).
  (** the cast fails, the stream having got [ps] *)
  Definition fails_with (r : res sink nat) (s : sink) (ps : list text) : Prop :=
    exists t s', shown E (s_width s) ps t /\ r = Exc EBadCast s' /\ s_good s' = true /\ s_text s' = s_text s ++ t.
End Spec.
(** a stream that throws no exceptions *)
Definition quiet (E : env) : Prop := m_eof (e_mask E) = false /\ m_fail (e_mask E) = false /\ m_bad (e_mask E) = false.
