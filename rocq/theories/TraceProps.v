(** TraceProps.v -- property C71 of src/stack_trace.cpp. *)
From Verif Require Import Base StreamModel TraceModel TraceSpec TraceProofs.
Open Scope list_scope.

(** C71 (stack_trace prints one line per frame and has defined behaviour):
      stack_trace() writes exactly one line per stack frame (at most 128) to standard error for every symbol
      table, without undefined behaviour; when disabled it writes nothing.
    Refuted: a frame in a known object file but without a symbol (a static function, a stripped file) whose
    string from backtrace_symbols is not a mangled name makes it insert a null pointer, on every platform
    and every stack that has such a frame. *)
Theorem C71_nameless_frame_refuted : forall P a s,
  symbols_ok P = true -> In a (firstn 128 (stack P)) -> dladdr P a = Some None -> demangle P (symbol P a) = None ->
  stack_trace_enabled P s = Ub UbNull.
Proof. exact (fun P a s => trace_unnamed P a s). Qed.
(** If a name is known for every frame that dladdr knows, there is one line for each frame, the first one
    for the innermost, up to 128; each line describes its frame. *)
Theorem C71_one_line_per_frame_partial : forall P s,
  symbols_ok P = true -> Forall (has_name P) (firstn 128 (stack P)) -> clean P ->
  exists ls, stack_trace_enabled P s = Ret tt (s ++ text_of ls) /\ length ls = Nat.min 128 (length (stack P)) /\
  Forall no_break ls /\
  forall k a t, nth_error (stack P) k = Some a -> nth_error ls k = Some t -> describes P k a t.
Proof. exact (fun P s => trace_clean P s). Qed.
(** ... and this condition is necessary *)
Theorem C71_defined_iff_named_partial : forall P s,
  symbols_ok P = true ->
  ((exists s', stack_trace_enabled P s = Ret tt s') <-> Forall (has_name P) (firstn 128 (stack P))).
Proof. exact (fun P s => trace_defined_iff P s). Qed.
Theorem C71_no_memory_partial : forall P s, symbols_ok P = false -> ndebug P = false -> stack_trace_enabled P s = Abort.
Proof. exact (fun P s => trace_no_memory P s). Qed.
Theorem C71_disabled : forall s, stack_trace_disabled s = Ret tt s.
Proof. exact (fun s => eq_refl). Qed.

Definition demo_platform (st : list Z) : platform := {|
  stack := st;
  symbol := fun a => if (a =? 1)%Z then chars "_Z1fv" else chars "./prog(+0x2f) [0x402f]";
  symbols_ok := true;
  dladdr := fun a => if (a =? 4)%Z then None else if (a =? 3)%Z then Some None else Some (Some (chars "main"));
  demangle := fun t => if list_eq_dec ascii_dec t (chars "_Z1fv") then Some (chars "f()") else None;
  pointer_text := fun a => chars "0x4";
  ndebug := false |}.
Example C71_example : stack_trace_enabled (demo_platform [1; 2; 4]%Z) [] = Ret tt (text_of [chars "f()"; chars "main"; chars "2 0x4"]).
Proof. reflexivity. Qed.
Ltac nb := unfold no_break; vm_compute; let H := fresh in intros H; repeat destruct H as [H|H]; first [discriminate H|contradiction].
Example C71_example_hypotheses : Forall (has_name (demo_platform [1; 2; 4]%Z)) (firstn 128 [1; 2; 4]%Z) /\ clean (demo_platform [1; 2; 4]%Z).
Proof.
  split; [repeat constructor; unfold has_name; cbn; discriminate|]. split; [|split].
  - intros a n. cbn. destruct (a =? 4)%Z, (a =? 3)%Z; intros H; inversion H; nb.
  - intros t d. unfold demo_platform, demangle. destruct (list_eq_dec ascii_dec t (chars "_Z1fv")); intros H; [|discriminate H].
    injection H as <-. nb.
  - intros a. nb.
Qed.
Example C71_example_refuted : stack_trace_enabled (demo_platform [1; 3; 4]%Z) [] = Ub UbNull.
Proof. reflexivity. Qed.
Print Assumptions C71_nameless_frame_refuted.
Print Assumptions C71_one_line_per_frame_partial.
Print Assumptions C71_defined_iff_named_partial.
Print Assumptions C71_no_memory_partial.
Print Assumptions C71_disabled.
