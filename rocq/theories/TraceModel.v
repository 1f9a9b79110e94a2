(** TraceModel.v -- src/stack_trace.cpp (42-64, 72).

    The operating system and the C++ runtime are given by a record: the addresses on the call stack, the
    strings of backtrace_symbols, dladdr and the demangler.  A null char pointer is None.  The state is the
    text written to std::cerr.  The memory of the demangled name and of the symbols is
    in TraceMemModel.v. *)
From Verif Require Import Base StreamModel.
Open Scope list_scope.
Open Scope Z_scope.

Record platform := {
  stack : list Z;                          (* the addresses of the active frames *)
  symbol : Z -> text;                      (* the string of backtrace_symbols for an address *)
  symbols_ok : bool;                       (* backtrace_symbols finds memory for its result *)
  dladdr : Z -> option (option text);      (* None: failure; otherwise info.dli_sname *)
  demangle : text -> option text;          (* None: status<>0 *)
  pointer_text : Z -> text;                (* the representation of a void* *)
  ndebug : bool                            (* NDEBUG: assert does nothing *)
}.
Definition newline : text := [ascii_of_nat 10].

Section Model.
Context (P : platform).
Definition put (t : text) : M text unit := fun s => Ret tt (s ++ t).
(** inserting a char*: a null pointer violates the precondition of operator<< *)
Definition put_cstr (p : option text) : M text unit := match p with Some t => put t | None => undefined UbNull end.
Definition CALLSTACK_SIZE : nat := 128.

(** one iteration of the loop, 51-61 *)
Definition frame_line (i : nat) (a : Z) : M text unit :=
  (match dladdr P a with
   | Some sname =>
       (if symbols_ok P then put_cstr (match demangle P (symbol P a) with Some d => Some d | None => sname end)
        else undefined UbNull) ;;;
       put newline
   | None => put (int_text (Z.of_nat i)) ;;; put (chars " ") ;;; put (pointer_text P a) ;;; put newline
   end)%M.
Fixpoint frame_lines (i : nat) (l : list Z) : M text unit :=
  match l with
  | [] => ret tt
  | a :: l' => (frame_line i a ;;; frame_lines (S i) l')%M
  end.
(** stack_trace, 42-64; backtrace fills in the first CALLSTACK_SIZE frames; line 49 is
    assert(symbols != nullptr) *)
Definition stack_trace_enabled : M text unit :=
  let frames := firstn CALLSTACK_SIZE (stack P) in
  if symbols_ok P || ndebug P then frame_lines 0 frames else (fun _ => Abort).
(** 72 *)
Definition stack_trace_disabled : M text unit := ret tt.
End Model.
