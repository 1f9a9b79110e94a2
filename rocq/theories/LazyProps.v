(** LazyProps.v -- the properties C56-C58 of Lazy.  Statements only; the lemmas are in LazyProofs.v. *)
From Verif Require Import Base HandleModel HandleSpec LazyModel LazySpec LazyProofs.

(** ** C56: a Lazy called n times gives what [expected] says: the exceptions of the function until it first
    returns, then always the same object; and the outside state afterwards is the one left by
    those calls of the function only ([world_after]; n = 0: none). *)
Theorem C56_at_most_once :
  forall (O F E : Type) (call : F -> E -> outcome O * F * E), never_null call ->
  forall (n : nat) (f : F) (w : E),
  exists s', lrun call (LNew 0 f :: repeat (LCall 0) n) (linit 1 w) = (LUnit :: expected call n f w, inl s') /\
    env s' = world_after call n f w.
Proof. exact (fun O F E call H n f w => one_lazy call n f w H). Qed.
Print Assumptions C56_at_most_once.

(** And in the middle of any program, with any other Lazy objects: once a call has returned, every
    later call gives the same object and changes nothing, in particular not the outside state, however much
    happens in between -- unless the variable itself is assigned, moved from or destroyed. *)
Theorem C56_evaluated_for_good :
  forall (O F E : Type) (call : F -> E -> outcome O * F * E) (n : nat) (w : E) (p : list (lop F)) (l : list (lout O))
    (s : lst O F E) (d i : nat) (v : O) (s1 : lst O F E) (q : list (lop F)) (lq : list (lout O)) (s2 : lst O F E),
  lrun call p (linit n w) = (l, inl s) -> lstep call (LCall d) s = Ret (LObj i v) s1 ->
  Forall (fun o => replaces d o = false) q -> lrun call q s1 = (lq, inl s2) ->
  lstep call (LCall d) s2 = Ret (LObj i v) s2.
Proof. exact @evaluated_for_good. Qed.
Print Assumptions C56_evaluated_for_good.

(** a function that throws [f] times and counts its calls outside *)
Definition countdown (f : nat) (w : nat) : outcome nat * nat * nat :=
  match f with
  | 0 => (OutObj (100 + w), 0, w + 1)
  | S f' => (OutThrow (EUser f), f', w + 1)
  end.
Example countdown_never_null : never_null countdown.
Proof. intros [|f] w f' w'; discriminate. Qed.
Example C56_example :
  expected countdown 4 2 7 = [LExc (EUser 2); LExc (EUser 1); LObj 0 109; LObj 0 109] /\
  world_after countdown 4 2 7 = 10 /\
  fst (lrun countdown [LNew 0 2; LCall 0; LNew 1 0; LCall 1; LCall 0; LCall 0; LCall 1; LCall 0] (linit 2 0)) =
  [LUnit; LExc (EUser 2); LUnit; LObj 0 101; LExc (EUser 1); LObj 1 103; LObj 0 101; LObj 1 103].
Proof. repeat split; reflexivity. Qed.

(** ** C57: if a call ends with an exception, it is the one thrown by the function, no pointer has changed,
    and the next call calls the function again. *)
Theorem C57_throwing_is_retried :
  forall (O F E : Type) (call : F -> E -> outcome O * F * E) (n : nat) (w : E) (p : list (lop F)) (l : list (lout O))
    (s : lst O F E) (d : nat) (e : exn) (s1 : lst O F E),
  lrun call p (linit n w) = (l, inl s) -> lstep call (LCall d) s = Exc e s1 ->
  exists f f', nth_error (funs s) d = Some (Some f) /\
    call f (env s) = (OutThrow e, f', env s1) /\ ptrs s1 = ptrs s /\ funs s1 = upd d (Some f') (funs s) /\
    match call f' (env s1) with
    | (OutThrow e2, f2, w2) => lstep call (LCall d) s1 = Exc e2 (mkLst (ptrs s1) (upd d (Some f2) (funs s1)) w2)
    | (OutObj v, f2, w2) => exists s2, lstep call (LCall d) s1 = Ret (LObj (length (heap (ptrs s1))) v) s2 /\ env s2 = w2
    | (OutNull, _, _) => lstep call (LCall d) s1 = Ub UbNull
    end.
Proof. exact @throw_then_retry. Qed.
Print Assumptions C57_throwing_is_retried.
Example C57_example :
  exists s s1, lrun countdown [LNew 0 1] (linit 1 0) = ([LUnit], inl s) /\
    lstep countdown (LCall 0) s = Exc (EUser 1) s1 /\
    match lstep countdown (LCall 0) s1 with Ret x _ => x = LObj 0 101 | _ => False end.
Proof. do 2 eexists. repeat split; reflexivity. Qed.

(** ** C58: programs over any number of Lazy objects, copied, moved, assigned and destroyed, behave as [lsexec]
    says: a variable is pending, or has the i-th object; copies copy that state; objects remain valid
    while any variable has them; undefined behaviour occurs only where the program misuses variables or the function
    returns null; and objects no variable has are destroyed. *)
Theorem C58_copies :
  forall (O F E : Type) (call : F -> E -> outcome O * F * E) (n : nat) (w : E) (p : list (lop F)),
  match lrun call p (linit n w) with
  | (l, inl s') => exists m os hd, lsexec call (spinit n w) p l (mkSp m os hd (env s')) /\ no_leak (ptrs s')
  | (l, inr _) => lill_formed call (spinit n w) p l
  end.
Proof. exact @lazy_refines. Qed.
Print Assumptions C58_copies.
(** A copy made after evaluation has the object of the original and never calls the function, whatever happens
    afterwards to the original or to anything else. *)
Theorem C58_copy_of_evaluated :
  forall (O F E : Type) (call : F -> E -> outcome O * F * E) (n : nat) (w : E) (p : list (lop F)) (l : list (lout O))
    (s : lst O F E) (d k i : nat) (v : O) (s1 s2 : lst O F E) (q : list (lop F)) (lq : list (lout O)) (s3 : lst O F E),
  lrun call p (linit n w) = (l, inl s) -> lstep call (LCall k) s = Ret (LObj i v) s1 ->
  lstep call (LCopy d k) s1 = Ret LUnit s2 ->
  Forall (fun o => replaces d o = false) q -> lrun call q s2 = (lq, inl s3) ->
  lstep call (LCall d) s3 = Ret (LObj i v) s3.
Proof. exact @evaluated_copy. Qed.
Print Assumptions C58_copy_of_evaluated.
Example C58_example :
  fst (lrun countdown [LNew 0 0; LCopy 1 0; LCall 0; LCopy 2 0; LCall 1; LCall 2; LHold 0 2; LDestroy 0; LReadRef 0; LCall 2; LDestroy 2; LCall 1]
         (linit 3 0)) =
  [LUnit; LUnit; LObj 0 100; LUnit; LObj 1 101; LObj 0 100; LObj 0 100; LUnit; LObj 0 100; LObj 0 100; LUnit; LObj 1 101] /\
  snd (lrun countdown [LNew 0 0; LHold 0 0; LDestroy 0; LReadRef 0] (linit 1 0)) = inr UbDangling.
Proof. split; reflexivity. Qed.
