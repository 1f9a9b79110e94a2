(** ReportProps.v -- the property C146 of failing casts.  Statements only; the proofs are in ReportProofs.v. *)
From Verif Require Import Base StreamModel MaskModel OutModel OutSpec HandleModel HandleSpec ReportModel ReportSpec ReportProofs.
Local Open Scope monad_scope.

(** ** C146: what std::cerr gets, for all classes, objects, types asked for, texts and widths.  A cast that succeeds
    writes nothing; one that fails throws std::bad_cast after writing one line, which names the function, the object
    as it prints itself, its dynamic type and the type asked for -- *)
Theorem C146_reported_partial :
  forall (V Ty : Type) (dyn : V -> Ty) (subobjs : Ty -> Ty -> list nat) (wrapper : Ty -> Ty) (inner : Ty -> nat)
    (name : Ty -> text) (writable : Ty) (wr : V -> M sink unit) (E : env) (bi d di : Ty) (v : V) (obj : list text) (s : sink),
  takes_all E -> s_good s = true -> prints_as dyn subobjs writable E wr v obj ->
  let cast := cast_report dyn subobjs name writable wr E bi d di v s in
  let extract := extract_report dyn subobjs wrapper inner name writable wr E bi d v s in
  ((unique_base dyn subobjs v di -> exists o, cast = Ret o s) /\
   (~ unique_base dyn subobjs v di -> fails_with E cast s
      (line (chars "dynamic_handle_cast") obj (chars "PK" ++ name bi) (name (dyn v)) (name d)))) /\
  ((unique_base_or_wrapper dyn subobjs wrapper v d -> exists o, extract = Ret o s) /\
   (~ unique_base_or_wrapper dyn subobjs wrapper v d -> fails_with E extract s
      (line (chars "dynamic_handle_extract") obj (chars "PK" ++ name bi) (name (dyn v)) (name d)))).
Proof.
  exact (fun V Ty dyn subobjs wrapper inner name writable wr E bi d di v obj s HE Hg Hp =>
    conj (cast_reported dyn subobjs name writable wr E bi d di v obj s HE Hg Hp)
         (extract_reported dyn subobjs wrapper inner name writable wr E bi d v obj s HE Hg Hp)).
Qed.
Print Assumptions C146_reported_partial.

(** -- but never its static type: in its place stands the name of a pointer type, for every failing cast. *)
Theorem C146_static_type_refuted :
  forall (V Ty : Type) (dyn : V -> Ty) (subobjs : Ty -> Ty -> list nat) (wrapper : Ty -> Ty) (inner : Ty -> nat)
    (name : Ty -> text) (writable : Ty) (wr : V -> M sink unit) (E : env) (bi d di : Ty) (v : V) (obj : list text) (s : sink),
  takes_all E -> s_good s = true -> prints_as dyn subobjs writable E wr v obj ->
  (~ unique_base dyn subobjs v di -> ~ fails_with E (cast_report dyn subobjs name writable wr E bi d di v s) s
     (line (chars "dynamic_handle_cast") obj (name bi) (name (dyn v)) (name d))) /\
  (~ unique_base_or_wrapper dyn subobjs wrapper v d ->
     ~ fails_with E (extract_report dyn subobjs wrapper inner name writable wr E bi d v s) s
     (line (chars "dynamic_handle_extract") obj (name bi) (name (dyn v)) (name d))).
Proof. exact @not_named. Qed.
Print Assumptions C146_static_type_refuted.

(** Whatever the state of std::cerr and of its buffer: if it throws no exceptions and _write returns, the exception is
    std::bad_cast; *)
Theorem C146_any_stream_partial :
  forall (V Ty : Type) (dyn : V -> Ty) (subobjs : Ty -> Ty -> list nat) (wrapper : Ty -> Ty) (inner : Ty -> nat)
    (name : Ty -> text) (writable : Ty) (wr : V -> M sink unit) (E : env) (bi d di : Ty) (v : V) (s : sink),
  quiet E -> (unique_base dyn subobjs v writable -> forall s, exists s', wr v s = Ret tt s') ->
  (~ unique_base dyn subobjs v di -> exists s', cast_report dyn subobjs name writable wr E bi d di v s = Exc EBadCast s') /\
  (~ unique_base_or_wrapper dyn subobjs wrapper v d ->
     exists s', extract_report dyn subobjs wrapper inner name writable wr E bi d v s = Exc EBadCast s').
Proof. exact @quiet_cast. Qed.
Print Assumptions C146_any_stream_partial.

(** and a failing cast returns in no case; *)
Theorem C146_never_returns_partial :
  forall (V Ty : Type) (dyn : V -> Ty) (subobjs : Ty -> Ty -> list nat) (wrapper : Ty -> Ty) (inner : Ty -> nat)
    (name : Ty -> text) (writable : Ty) (wr : V -> M sink unit) (E : env) (bi d di : Ty) (v : V) (s s' : sink) (o : nat),
  (~ unique_base dyn subobjs v di -> cast_report dyn subobjs name writable wr E bi d di v s <> Ret o s') /\
  (~ unique_base_or_wrapper dyn subobjs wrapper v d -> extract_report dyn subobjs wrapper inner name writable wr E bi d v s <> Ret o s').
Proof. exact @failing_never_returns. Qed.
Print Assumptions C146_never_returns_partial.

(** but the exception is another one than std::bad_cast whenever the object's own _write throws, or std::cerr does. *)
Theorem C146_write_throws_refuted :
  forall (V Ty : Type) (dyn : V -> Ty) (subobjs : Ty -> Ty -> list nat) (wrapper : Ty -> Ty) (inner : Ty -> nat)
    (name : Ty -> text) (writable : Ty) (wr : V -> M sink unit) (E : env) (bi d di : Ty) (v : V) (s : sink) (e : exn),
  takes_all E -> s_good s = true -> unique_base dyn subobjs v writable -> (forall s, exists s', wr v s = Exc e s') ->
  (~ unique_base dyn subobjs v di -> exists s', cast_report dyn subobjs name writable wr E bi d di v s = Exc e s') /\
  (~ unique_base_or_wrapper dyn subobjs wrapper v d ->
     exists s', extract_report dyn subobjs wrapper inner name writable wr E bi d v s = Exc e s').
Proof. exact @write_throws. Qed.
Print Assumptions C146_write_throws_refuted.
Theorem C146_stream_throws_refuted :
  forall (V Ty : Type) (dyn : V -> Ty) (subobjs : Ty -> Ty -> list nat) (wrapper : Ty -> Ty) (inner : Ty -> nat)
    (name : Ty -> text) (writable : Ty) (wr : V -> M sink unit) (E : env) (bi d di : Ty) (v : V) (s : sink),
  m_bad (e_mask E) = true -> (forall o p, e_dev E o p = (0, None)) -> s_good s = true ->
  (~ unique_base dyn subobjs v di -> exists s', cast_report dyn subobjs name writable wr E bi d di v s = Exc EIosFailure s') /\
  (~ unique_base_or_wrapper dyn subobjs wrapper v d ->
     exists s', extract_report dyn subobjs wrapper inner name writable wr E bi d v s = Exc EIosFailure s').
Proof. exact @stream_throws. Qed.
Print Assumptions C146_stream_throws_refuted.

(** Classes 1I (an interface), 1A and 1B derived from it, the latter also from WritableInterface, whose type is 9; 7 is
    a handle class; the objects print their value. *)
Section Example.
  Let dyn (v : nat) := if Nat.ltb v 100 then 1 else 2.
  Let subobjs (D T : nat) : list nat :=
    if Nat.eqb D T then [0] else if Nat.eqb T 0 then [0] else if (Nat.eqb D 2 && Nat.eqb T 9)%bool then [1] else [].
  Let name (t : nat) := match t with 0 => chars "1I" | 1 => chars "1A" | 2 => chars "1B" | _ => chars "1H" end.
  Let E := mkEnv no_mask true false " "%char false (fun _ p => (List.length p, None)).
  Let wr (v : nat) := insert_int E (Z.of_nat v).
  Let cerr := mkSink [] false 12 false false false.
  Example C146_example :
    (match cast_report dyn subobjs name 9 wr E 0 7 2 5 cerr with Exc e s => Some (e, s_text s) | _ => None end) =
      Some (EBadCast, chars "   Error in dynamic_handle_cast: cannot convert object of static type PK1I and dynamic type 1A to type 1H"
                      ++ [ascii_of_nat 10]) /\
    (match extract_report dyn subobjs (fun t => t + 20) (fun _ => 0) name 9 wr E 0 1 123 cerr with Exc e s => Some (e, s_text s) | _ => None end) =
      Some (EBadCast, chars "   Error in dynamic_handle_extract: cannot convert 123 of static type PK1I and dynamic type 1B to type 1A"
                      ++ [ascii_of_nat 10]) /\
    cast_report dyn subobjs name 9 wr E 0 7 2 123 cerr = Ret 0 cerr /\
    takes_all E /\ quiet E /\ prints_as dyn subobjs 9 E wr 5 [chars "object"] /\ prints_as dyn subobjs 9 E wr 123 [chars "123"].
  Proof.
    split; [vm_compute; reflexivity|]. split; [vm_compute; reflexivity|]. split; [reflexivity|].
    split; [intros o p [H|H]; cbn in H; [lia|congruence]|]. split; [repeat split|]. split.
    - right. split; [intros [o Ho]; discriminate Ho|reflexivity].
    - left. split; [exists 1; reflexivity|]. intros a. exists a. change [chars "123"] with [int_text (Z.of_nat 123)].
      apply (OutProofs.sends_insert E).
  Qed.
End Example.
