(** WriterProps.v -- properties C78 and C79 of include/writable.hpp. *)
From Verif Require Import Base StreamModel HandleModel WriterModel WriterSpec WriterProofs.
From Coq Require Import String.
Open Scope list_scope.

(** C78 (a writer's temporary prints the object by its writer as long as both exist): os << w(x) writes what the
    writer held by w writes for x, and nothing else happens. *)
Theorem C78_printed_at_once : forall (V T : Type) (wr : V -> T -> text) n sc p0 (s : wst V T) h t a v x,
  wrun wr p0 (winit n sc) = inl s -> writer_at s h a v -> w_objs s t = Some x ->
  wstep wr (WNow h t) s = Ret tt (printed s (wr v x)).
Proof. exact @prints_now. Qed.
(** A temporary that is kept prints, whatever is done to writers and objects in between, the present value of its object
    by the writer it was made from, if that writer is still held by some Writer variable and the object still
    exists; otherwise printing it is undefined. *)
Theorem C78_kept_temporary : forall (V T : Type) (wr : V -> T -> text) n sc p0 (s s1 s2 : wst V T) k h t u p,
  wrun wr p0 (winit n sc) = inl s -> wstep wr (WBind k h t) s = Ret u s1 ->
  Forall (no_rebinding k) p -> wrun wr p s1 = inl s2 ->
  exists a v, writer_at s h a v /\
    (forall x, owned s2 a -> w_objs s2 t = Some x -> wstep wr (WPrint k) s2 = Ret tt (printed s2 (wr v x))) /\
    (~ owned s2 a \/ w_objs s2 t = None -> wstep wr (WPrint k) s2 = Ub UbDangling).
Proof. exact @temporary_prints. Qed.
(** In particular, assigning to a Writer variable that does not share its writer leaves every temporary made
    from it dangling. *)
Theorem C78_assignment_dangles : forall (V T : Type) (wr : V -> T -> text) n sc p0 (s s1 s2 : wst V T) k h d t u u' a v,
  wrun wr p0 (winit n sc) = inl s -> writer_at s h a v ->
  (forall i, i <> h -> nth_error (vars (w_h s)) i <> Some (Ptr a)) ->
  wstep wr (WBind k h t) s = Ret u s1 -> d <> h -> wstep wr (WAssign h d) s1 = Ret u' s2 ->
  wstep wr (WPrint k) s2 = Ub UbDangling.
Proof. exact @assignment_dangles. Qed.
Definition demo (v x : nat) : text := if Nat.eqb v 1 then repeat "1"%char x else repeat "x"%char (v + x).
Definition shown (r : wst nat nat + ub_reason) : text + ub_reason := match r with inl s => inl (w_out s) | inr u => inr u end.
Example C78_example :
  (* the writer is shared by variable 1; the temporary survives the assignment and the destruction of variable 0 *)
  shown (wrun demo [WObj 0 (Some 2); WNew 0 1; WCopy 1 0; WNew 2 3; WNow 0 0; WBind 7 0 0; WAssign 0 2; WObj 0 (Some 4);
                    WPrint 7; WNow 0 0; WDestroy 0; WPrint 7] (winit 3 []))
  = inl (chars "111111xxxxxxx1111") /\
  (* not shared *)
  shown (wrun demo [WObj 0 (Some 2); WNew 0 1; WNew 2 3; WBind 7 0 0; WPrint 7; WAssign 0 2; WPrint 7] (winit 3 [])) = inr UbDangling /\
  shown (wrun demo [WObj 0 (Some 2); WNew 0 1; WBind 7 0 0; WObj 0 None; WPrint 7] (winit 3 [])) = inr UbDangling.
Proof. repeat split. Qed.
Print Assumptions C78_printed_at_once.
Print Assumptions C78_kept_temporary.
Print Assumptions C78_assignment_dangles.

(** C79 (every class with a _write function can be inserted into a stream):
      forall f, template_insert f = if can_be_written f then Writes else NotViable
    Refuted: IsWritable tries _write on a stream rvalue, to which ostream& does not bind, so that the templated
    operator<< is never viable for a class with the usual _write(ostream&) const. *)
Theorem C79_usual_write_refuted : can_be_written (Some usual) = true /\ template_insert (Some usual) = NotViable.
Proof. exact usual_not_writable. Qed.
(** The declarations for which the operator does what it should: no accessible _write; a const one whose parameter binds to
    lvalues and rvalues; and a non-const one taking ostream&, which cannot be applied. *)
Theorem C79_agreement_partial : forall f,
  template_insert f = (if can_be_written f then Writes else NotViable) <->
  match f with
  | Some f => wf_public f = true -> wf_param f = ByConstRef /\ wf_const f = true \/ wf_param f = ByForwarding /\ wf_const f = true \/
                                    wf_param f = ByLvalueRef /\ wf_const f = false
  | None => True
  end.
Proof. exact insert_agrees. Qed.
(** What the operator does for every declaration: it writes for an accessible const _write whose parameter binds to
    lvalues and rvalues, it is chosen and does not compile for the other accessible ones whose parameter binds to an
    rvalue, and it is not considered for the rest. *)
Theorem C79_table_partial : forall f,
  (template_insert f = Writes <->
   exists p, f = Some (mkWf true true p) /\ (p = ByConstRef \/ p = ByForwarding)) /\
  (template_insert f = HardError <->
   exists p c, f = Some (mkWf true c p) /\ (p = ByRvalueRef \/ c = false /\ (p = ByConstRef \/ p = ByForwarding))).
Proof. exact insert_table. Qed.
Example C79_example :
  template_insert (Some (mkWf true true ByForwarding)) = Writes /\ template_insert None = NotViable /\
  (* a non-const _write(const ostream&): chosen, but its body does not compile *)
  template_insert (Some (mkWf true false ByConstRef)) = HardError.
Proof. repeat split. Qed.
Print Assumptions C79_usual_write_refuted.
Print Assumptions C79_agreement_partial.
Print Assumptions C79_table_partial.
