(** ReportModel.v -- what dynamic_handle_cast and dynamic_handle_extract (include/handle.hpp:123-169) write to
    std::cerr: the part of these functions left out in HandleModel.v, as computations on the streams of OutModel.v.

    - Objects have a value in [V] and a dynamic type; classes are given by their public base subobjects as in
      HandleModel.v; [name] is type_info::name() of a class.
    - [wr v] is the virtual function _write of the object with value [v]: any computation on the stream.
    - Simplified: flushing (std::flush, std::endl, unitbuf) does nothing; a buffer that fails does so when it gets the
      characters.  std::endl writes its character as a formatted insertion does when no width is set; the only
      width is used up by the first insertion.  The handle is not null. *)
From Verif Require Import Base StreamModel OutModel HandleModel.
Local Open Scope monad_scope.

(** Standard (Itanium C++ ABI): the types whose type_info::name() is written, and their names *)
Inductive named (Ty : Type) := Class (t : Ty) | PointerToConst (t : Ty).
Arguments Class {Ty} t.
Arguments PointerToConst {Ty} t.

Section Report.
  Context {V Ty : Type} (dyn : V -> Ty) (subobjs : Ty -> Ty -> list nat) (wrapper : Ty -> Ty) (inner : Ty -> nat)
          (name : Ty -> text) (writable : Ty) (wr : V -> M sink unit) (E : env).

  Definition type_name (t : named Ty) : text :=
    match t with Class t => name t | PointerToConst t => chars "PK" ++ name t end.

  (** handle.hpp:123-127 *)
  Definition write_error (f : text) (w : option (M sink unit)) (i c t : text) : M sink unit :=
    insert E (chars "Error in ") ;;; insert E f ;;; insert E (chars ":") ;;;
    insert E (chars " cannot convert ") ;;;
    (match w with Some write => write | None => insert E (chars "object") end) ;;;
    insert E (chars " of static type ") ;;; insert E c ;;; insert E (chars " and dynamic type ") ;;; insert E i ;;;
    insert E (chars " to type ") ;;; insert E t ;;; insert E [ascii_of_nat 10].

  (** handle.hpp:140, 151, 166: dynamic_cast<const WritableInterface*>(i) *)
  Definition as_writable (v : V) : option (M sink unit) :=
    match HandleModel.dynamic_cast subobjs (dyn v) writable with Some _ => Some (wr v) | None => None end.

  (** handle.hpp:129-143.  [bi] is the interface of the handle given, [d] the handle class asked for and [di] its
      interface; typeid of the dereferenced pointer i is the dynamic type, and typeid(i) the type of the pointer, const BI* *)
  Definition cast_report (bi d di : Ty) (v : V) : M sink nat :=
    match HandleModel.dynamic_cast subobjs (dyn v) di with
    | Some o => ret o
    | None =>
        write_error (chars "dynamic_handle_cast") (as_writable v) (type_name (Class (dyn v))) (type_name (PointerToConst bi))
          (type_name (Class d)) ;;; throw EBadCast
    end.
  (** handle.hpp:145-154 and 160-169 *)
  Definition extract_report (bi t : Ty) (v : V) : M sink nat :=
    match extract_from subobjs wrapper inner (dyn v) t with
    | Some o => ret o
    | None =>
        write_error (chars "dynamic_handle_extract") (as_writable v) (type_name (Class (dyn v))) (type_name (PointerToConst bi))
          (type_name (Class t)) ;;; throw EBadCast
    end.
End Report.
