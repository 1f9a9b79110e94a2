(** TraceMemProps.v -- the property C132: stack_trace frees what it allocates.  Statements only; the lemmas are in TraceMemProofs.v. *)
From Verif Require Import Base StreamModel TraceModel TraceMemModel TraceMemSpec TraceMemProofs.
Open Scope list_scope.

(** ** C132
    intended: whatever the frames, the memory the demangler finds and the insertions that throw, stack_trace() leaves no block behind, and
    frees none twice:
      symbols_ok P = true -> Forall (known P) (firstn 128 (stack P)) ->
      exists s', nothing_left s s' /\ (stack_trace_memory P s = Ret tt s' \/ exists e, stack_trace_memory P s = Exc e s') *)
(** it holds whenever the function returns *)
Theorem C132_nothing_left_partial :
  forall P s s', stack_trace_memory P s = Ret tt s' -> nothing_left s s'.
Proof. exact trace_returns. Qed.
Print Assumptions C132_nothing_left_partial.

(** and it returns or an insertion throws: the strings are read only while they exist, and no block is freed twice *)
Theorem C132_defined_partial :
  forall P s, symbols_ok P = true -> Forall (known P) (firstn 128 (stack P)) ->
  (exists s', stack_trace_memory P s = Ret tt s' /\ nothing_left s s') \/
  (exists s', stack_trace_memory P s = Exc EIosFailure s').
Proof. exact trace_known. Qed.
Print Assumptions C132_defined_partial.

(** the text is as in C71 *)
Theorem C132_text_partial :
  forall P s, breaks s = [] -> nomem s = [] -> symbols_ok P = true ->
  match stack_trace_memory P s, stack_trace_enabled P (out s) with
  | Ret _ s', Ret _ t => out s' = t
  | Ub r, Ub r' => r = r'
  | _, _ => False
  end.
Proof. exact trace_text. Qed.
Print Assumptions C132_text_partial.

(** every exception leaves the strings of backtrace_symbols behind *)
Theorem C132_exception_refuted :
  forall P s e s', stack_trace_memory P s = Exc e s' -> symbols_ok P = true ->
  e = EIosFailure /\ left_over (Strings (map (symbol P) (firstn 128 (stack P)))) s s'.
Proof. exact trace_throws. Qed.
Print Assumptions C132_exception_refuted.

(** and there is one on every stack, if the stream throws at once *)
Theorem C132_first_insertion_refuted :
  forall P s a l bs, symbols_ok P = true -> stack P = a :: l -> known P a -> breaks s = true :: bs ->
  exists s', stack_trace_memory P s = Exc EIosFailure s' /\ left_over (Strings (map (symbol P) (firstn 128 (stack P)))) s s'.
Proof. exact trace_first_leaks. Qed.
Print Assumptions C132_first_insertion_refuted.

Definition memory_platform (st : list Z) : platform := {|
  stack := st;
  symbol := fun a => if (a =? 1)%Z then chars "_Z1fv" else chars "./prog(+0x2f) [0x402f]";
  symbols_ok := true;
  dladdr := fun a => if (a =? 4)%Z then None else Some (Some (chars "main"));
  demangle := fun t => if list_eq_dec ascii_dec t (chars "_Z1fv") then Some (chars "f()") else None;
  pointer_text := fun a => chars "0x4";
  ndebug := false |}.
(** three frames: two blocks, both freed; if the demangler has no memory, one; if the second insertion throws, both are left *)
Example C132_example :
  let P := memory_platform [1; 2; 4]%Z in
  (exists t, stack_trace_memory P (mkMS [] [] [] []) = Ret tt (mkMS [None; None] t [] [])) /\
  (exists t, stack_trace_memory P (mkMS [] [] [true] []) = Ret tt (mkMS [None] t [] [])) /\
  (exists b1 b2 t, stack_trace_memory P (mkMS [] [] [] [false; true]) = Exc EIosFailure (mkMS [Some b1; Some b2] t [] [])) /\
  Forall (known P) (firstn 128 (stack P)).
Proof.
  cbv zeta. split; [|split; [|split]].
  - eexists. vm_compute. reflexivity.
  - eexists. vm_compute. reflexivity.
  - do 3 eexists. vm_compute. reflexivity.
  - do 3 (constructor; [intro H; discriminate H|]). constructor.
Qed.
