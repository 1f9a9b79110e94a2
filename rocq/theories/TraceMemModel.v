(** TraceMemModel.v -- src/stack_trace.cpp:42-64 with the memory it allocates and frees.  Definitions only.

    - backtrace_symbols gives one block from malloc with all strings, or null; __cxa_demangle, called with no buffer, a block
      with the demangled name if its status is 0, and null otherwise, also when it finds no memory.
    - std::cerr may have an exception mask: every insertion may throw, as the schedule [breaks] says; after a throw nothing in the
      function runs, since there is no destructor that frees anything.
    - The platform is that of TraceModel.v. *)
From Verif Require Import Base StreamModel TraceModel.
Open Scope list_scope.
Open Scope nat_scope.

(** ** memory *)
Inductive block := Strings (l : list text) | Name (t : text).
Record mstate := mkMS {
  heap : list (option block);      (* blocks from malloc in order; None: freed *)
  out : text;                      (* what std::cerr got *)
  nomem : list bool;               (* true: the demangler finds no memory *)
  breaks : list bool               (* true: the insertion throws *)
}.
Definition malloc (b : block) : M mstate nat := fun s =>
  Ret (length (heap s)) (mkMS (heap s ++ [Some b]) (out s) (nomem s) (breaks s)).
(** free of a null pointer does nothing *)
Definition free (p : option nat) : M mstate unit := fun s =>
  match p with
  | None => Ret tt s
  | Some a => match nth_error (heap s) a with
              | Some (Some _) => Ret tt (mkMS (upd a None (heap s)) (out s) (nomem s) (breaks s))
              | _ => Ub UbDoubleFree
              end
  end.
Definition load (a : nat) : M mstate block := fun s =>
  match nth_error (heap s) a with Some (Some b) => Ret b s | _ => Ub UbDangling end.

(** ** std::cerr *)
Definition insert (t : text) : M mstate unit := fun s =>
  match breaks s with
  | true :: bs => Exc EIosFailure (mkMS (heap s) (out s) (nomem s) bs)
  | false :: bs => Ret tt (mkMS (heap s) (out s ++ t) (nomem s) bs)
  | [] => Ret tt (mkMS (heap s) (out s ++ t) (nomem s) [])
  end.

Section Model.
  Context (P : platform).

  (** 56: status and result *)
  Definition cxa_demangle (t : text) : M mstate (option nat) := fun s =>
    let s' := mkMS (heap s) (out s) (tl (nomem s)) (breaks s) in
    match hd false (nomem s), demangle P t with
    | false, Some d => (p <- malloc (Name d) ;; ret (Some p))%M s'
    | _, _ => Ret None s'
    end.
  (** what a char pointer points at: symbols[i], or the name *)
  Definition string_at (a i : nat) : M mstate text :=
    (b <- load a ;;
     match b with
     | Strings l => match nth_error l i with Some t => ret t | None => undefined UbOutOfBounds end
     | Name t => if i =? 0 then ret t else undefined UbOutOfBounds
     end)%M.

  (** 51-61; [symbols] is the pointer of line 48 *)
  Definition frame_memory (symbols : option nat) (i : nat) (a : Z) : M mstate unit :=
    match dladdr P a with
    | Some sname =>
        match symbols with
        | None => undefined UbNull
        | Some y =>
            (t <- string_at y i ;;
             demangled <- cxa_demangle t ;;
             match demangled with
             | Some d => n <- string_at d 0 ;; insert n
             | None => match sname with Some n => insert n | None => undefined UbNull end
             end ;;;
             insert newline ;;;
             free demangled)%M
        end
    | None => (insert (int_text (Z.of_nat i)) ;;; insert (chars " ") ;;; insert (pointer_text P a) ;;; insert newline)%M
    end.
  Fixpoint frames_memory (symbols : option nat) (i : nat) (l : list Z) : M mstate unit :=
    match l with
    | [] => ret tt
    | a :: l' => (frame_memory symbols i a ;;; frames_memory symbols (S i) l')%M
    end.
  (** 42-64 *)
  Definition stack_trace_memory : M mstate unit :=
    let frames := firstn CALLSTACK_SIZE (stack P) in
    (symbols <- (if symbols_ok P then p <- malloc (Strings (map (symbol P) frames)) ;; ret (Some p) else ret None) ;;
     match symbols with
     | None => if ndebug P then frames_memory symbols 0 frames ;;; free symbols else (fun _ => Abort)
     | Some _ => frames_memory symbols 0 frames ;;; free symbols
     end)%M.
End Model.
