(** LazyThreadProps.v -- property C89 of Lazy objects called by several threads.  Statements only; the lemmas are in
    LazyThreadProofs.v. *)
From Verif Require Import Base HandleModel HandleSpec ThreadModel LazyModel LazySpec LazyThreadModel LazyThreadSpec LazyThreadProofs.

(** ** C89: several threads may call one Lazy (operator() is const): its function is evaluated at most once successfully,
    and all of them get the same object.  False of the code before the first evaluation. *)
(** Two threads call an unevaluated Lazy whose function counts its calls: both evaluate it, the object the first thread refers to is
    destroyed by the second, and the first thread reads a dangling reference. *)
Definition counting (f w : nat) : outcome nat * nat * nat := (OutObj (f + w), f, w + 1).
Definition one_lazy : lst nat nat nat :=
  match lrun counting [LNew 0 10] (linit 1 0) with (_, inl s) => s | _ => linit 1 0 end.
Theorem C89_evaluated_twice_refuted :
  (exists cfg, lcrun counting [0; 0; 1; 1; 0; 1; 0; 0; 0; 0; 0; 0; 1; 1; 1; 1; 1; 1; 1] (lfork one_lazy [[TCall 0; TReread]; [TCall 0]]) = inl cfg /\
     returned 0 (calls cfg) = [10; 11] /\
     map l_outs (lthreads cfg) = [[(TCall 0, LObj 0 10)]; [(TCall 0, LObj 1 11)]]) /\
  lcrun counting [0; 0; 1; 1; 0; 1; 0; 0; 0; 0; 0; 0; 1; 1; 1; 1; 1; 1; 1; 0; 0] (lfork one_lazy [[TCall 0; TReread]; [TCall 0]]) = inr UbDangling.
Proof. split; [eexists; vm_compute; repeat split; reflexivity|vm_compute; reflexivity]. Qed.
Print Assumptions C89_evaluated_twice_refuted.

(** Whenever two threads start with calling the same unevaluated Lazy, and its function will return, there is a data race on its pointer. *)
Theorem C89_two_callers_refuted :
  forall (O F E : Type) (call : F -> E -> outcome O * F * E) (n : nat) (w : E) (p : list (lop F)) (l : list (lout O)) (s0 : lst O F E)
    (d : nat) (f : F) (v : O) (f' : F) (w' : E) (ts : list (list top)) (i j : nat) (q q' : list top),
  lrun call p (linit n w) = (l, inl s0) ->
  nth_error (vars (ptrs s0)) d = Some Null -> nth_error (funs s0) d = Some (Some f) -> call f (env s0) = (OutObj v, f', w') ->
  i <> j -> nth_error ts i = Some (TCall d :: q) -> nth_error ts j = Some (TCall d :: q') ->
  exists sch cfg, lcrun call sch (lfork s0 ts) = inl cfg /\ race_at (LPtr d) cfg.
Proof. exact @two_callers. Qed.
Print Assumptions C89_two_callers_refuted.
Example C89_two_callers_example :
  nth_error (vars (ptrs one_lazy)) 0 = Some Null /\ nth_error (funs one_lazy) 0 = Some (Some 10) /\ counting 10 (env one_lazy) = (OutObj 10, 10, 1).
Proof. vm_compute. repeat split; reflexivity. Qed.

(** What holds: a Lazy is evaluated before the threads start, or only one of them calls it.  Whatever the interleaving: no undefined
    behaviour, no data race; all calls of one Lazy that return give the same object; every function returns at most once, and
    those of the Lazy objects evaluated before are not called; the exceptions a thread catches are those thrown by the function of its Lazy, in
    this order, and the object it gets is what the function returned; a reference once obtained keeps giving the object; and the statements are executed in order. *)
Theorem C89_one_caller_partial :
  forall (O F E : Type) (call : F -> E -> outcome O * F * E), never_null call ->
  forall (n : nat) (w : E) (p : list (lop F)) (l : list (lout O)) (s0 : lst O F E), lrun call p (linit n w) = (l, inl s0) ->
  forall (owner : nat -> option nat) (ts : list (list top)) (sch : list nat),
  (forall i q, nth_error ts i = Some q -> Forall (may_call call owner s0 i) q) ->
  exists cfg, lcrun call sch (lfork s0 ts) = inl cfg /\ ~ lrace cfg /\
    (forall i j t u d a v b x, nth_error (lthreads cfg) i = Some t -> nth_error (lthreads cfg) j = Some u ->
       In (TCall d, LObj a v) (l_outs t) -> In (TCall d, LObj b x) (l_outs u) -> a = b /\ v = x) /\
    (forall d, length (returned d (calls cfg)) <= 1) /\
    (forall d a v, evaluated call s0 d a v -> (forall o, ~ In (d, o) (calls cfg)) /\
       forall i t x, nth_error (lthreads cfg) i = Some t -> In (TCall d, x) (l_outs t) -> x = LObj a v) /\
    (forall i t d, nth_error (lthreads cfg) i = Some t -> owner d = Some i -> unevaluated s0 d ->
       caught d (l_outs t) = thrown d (calls cfg) /\
       forall a v, In (TCall d, LObj a v) (l_outs t) -> returned d (calls cfg) = [v]) /\
    (forall i t q, nth_error (lthreads cfg) i = Some t -> nth_error ts i = Some q ->
       rereads LUnit (l_outs t) /\ (exists q', map fst (l_outs t) ++ q' = q) /\ (lfinished t -> map fst (l_outs t) = q)).
Proof. exact @one_caller. Qed.
Print Assumptions C89_one_caller_partial.

(** The accesses of a call, executed without interruption, are the call of LazyModel. *)
Theorem C89_steps :
  forall (O F E : Type) (call : F -> E -> outcome O * F * E) (n : nat) (w : E) (p : list (lop F)) (l : list (lout O)) (s : lst O F E) (d : nat),
  lrun call p (linit n w) = (l, inl s) -> alone call 10 (AtTest d) s = lstep call (LCall d) s.
Proof. exact @alone_reachable. Qed.
Print Assumptions C89_steps.

(** Lazy 0 is evaluated before, 1 belongs to thread 0 (its function throws once), 2 to thread 1. *)
Definition throws_first (f w : nat) : outcome nat * nat * nat :=
  match f with 0 => (OutObj (100 + w), 0, w + 1) | S f' => (OutThrow (EUser f), f', w + 1) end.
Definition ex_lazies : lst nat nat nat :=
  match lrun throws_first [LNew 0 0; LCall 0; LNew 1 1; LNew 2 0] (linit 3 0) with (_, inl s) => s | _ => linit 3 0 end.
Definition ex_own (d : nat) : option nat := match d with 1 => Some 0 | 2 => Some 1 | _ => None end.
Definition ex_programs : list (list top) := [[TCall 0; TCall 1; TReread; TCall 1; TReread]; [TCall 2; TCall 0; TCall 2]].
Example C89_partial_example :
  never_null throws_first /\
  (forall i q, nth_error ex_programs i = Some q -> Forall (may_call throws_first ex_own ex_lazies i) q) /\
  match lcrun throws_first (concat (repeat [0; 1] 40)) (lfork ex_lazies ex_programs) with
  | inl cfg => map l_outs (lthreads cfg) =
      [[(TCall 0, LObj 0 100); (TCall 1, LExc (EUser 1)); (TReread, LObj 0 100); (TCall 1, LObj 2 103); (TReread, LObj 2 103)];
       [(TCall 2, LObj 1 101); (TCall 0, LObj 0 100); (TCall 2, LObj 1 101)]]
  | inr _ => False
  end.
Proof.
  split; [intros [|f] w f' w'; discriminate|]. split; [|vm_compute; reflexivity].
  assert (H0 : exists a v, evaluated throws_first ex_lazies 0 a v) by (exists 0, 100; reflexivity).
  assert (H1 : unevaluated ex_lazies 1) by (split; [reflexivity|exists 1; reflexivity]).
  assert (H2 : unevaluated ex_lazies 2) by (split; [reflexivity|exists 0; reflexivity]).
  intros [|[|i]] q E; [| |destruct i; discriminate]; injection E as <-; repeat apply Forall_cons; try apply Forall_nil; simpl; auto.
Qed.
