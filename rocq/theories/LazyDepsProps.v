(** LazyDepsProps.v -- property C90. *)
From Verif Require Import Base HandleModel LazyModel LazyDepsModel LazyDepsSpec LazyDepsProofs.

(** C90: Lazy objects whose functions call other Lazy objects, without cycles: every sequence of calls ends; a function that has
    returned an object is never called again, and only functions of Lazy objects that are needed are called; calls of the same
    Lazy return the same object once one has, and it still exists at the end. *)
Theorem C90_evaluated_once : forall (O E : Type) (body : nat -> code O E) (n : nat) (rank : nat -> nat), acyclic body n rank ->
  forall (fuel : nat) (ds : list nat) (w : E), (forall d, In d ds -> d < n /\ rank d < fuel) ->
  exists outs s', rrun fuel ds (rstart body n w) = (outs, inl s') /\ length outs = length ds /\
    final (r_log s') /\ stays (combine ds outs) /\
    (forall d a v, In (d, LObj a v) (combine ds outs) -> object s' a v /\ made d (r_log s') = [v]) /\
    (forall d o, In (d, o) (r_log s') -> exists d0, In d0 ds /\ needs body d0 d).
Proof. exact @acyclic_run. Qed.
Print Assumptions C90_evaluated_once.

(** C90: if moreover the functions only call Lazy objects and return, the equations have one solution, every call returns an object
    with that value, in whatever order the Lazy objects are called, and no function is called twice. *)
Theorem C90_order_irrelevant : forall (O E : Type) (body : nat -> code O E) (n : nat) (rank : nat -> nat), acyclic body n rank ->
  O -> (forall d, d < n -> pure (body d)) ->
  exists val, solves body n val /\ (forall val', solves body n val' -> forall d, d < n -> val' d = val d) /\
    forall fuel ds w, (forall d, In d ds -> d < n /\ rank d < fuel) ->
    exists outs s', rrun fuel ds (rstart body n w) = (outs, inl s') /\
      Forall2 (fun d x => exists a, x = LObj a (val d)) ds outs /\
      NoDup (map fst (r_log s')) /\ env (r_lst s') = w.
Proof. exact @pure_run. Qed.
Print Assumptions C90_order_irrelevant.

(** C90: Lazy objects that first call each other in a circle never return. *)
Theorem C90_cycle : forall (O E : Type) (body : nat -> code O E) (n : nat) (C : nat -> Prop),
  (forall d, C d -> d < n /\ asks_first C (body d)) ->
  forall (fuel d : nat) (w : E), C d -> rcall fuel d (rstart body n w) = Fuel.
Proof. exact @cycle. Qed.
Print Assumptions C90_cycle.

(** C90: for a function that calls no Lazy the call is that of LazyModel.v. *)
Theorem C90_same_call : forall (O E : Type) (fuel d : nat) (s : rst O E) (c : code O E),
  nth_error (funs (r_lst s)) d = Some (Some c) -> no_ask c -> agree (rcall (S fuel) d s) (lazy_call plain d (r_lst s)).
Proof. exact @plain_call. Qed.
Print Assumptions C90_same_call.
Theorem C90_same_start : forall (O E : Type) (body : nat -> code O E) (n : nat) (w : E),
  lrun plain (map (fun d => LNew d (body d)) (seq 0 n)) (linit n w) = (repeat LUnit n, inl (r_lst (rstart body n w))).
Proof. exact @constructed. Qed.
Print Assumptions C90_same_start.

(** C90, the limit: a function that, the first time it runs, calls its own Lazy.  The Lazy is evaluated twice, and the object its
    function has seen is destroyed. *)
Definition reentrant : nat -> code nat nat := fun _ =>
  Outside S (fun w => match w with
    | 0 => Ask 0 (fun x => match x with inl v => Return (10 + v) | inr e => Throw e end)
    | S _ => Return 1
    end).
Theorem C90_reentrant_twice : exists s', rrun 2 [0; 0] (rstart reentrant 1 0) = ([LObj 1 11; LObj 1 11], inl s') /\
  made 0 (r_log s') = [1; 11] /\ ~ exists v, object s' 0 v.
Proof.
  eexists. split; [vm_compute; reflexivity|]. split; [vm_compute; reflexivity|]. intros (v & c & Hc & _). vm_compute in Hc. discriminate.
Qed.
Print Assumptions C90_reentrant_twice.

(** A diamond: 0 asks 1 and 2, both ask 3; 1 counts its calls outside and fails the first time. *)
Definition diamond : nat -> code nat nat := fun d =>
  match d with
  | 0 => Ask 1 (fun x => match x with inr e => Throw e | inl v => Ask 2 (fun y => match y with inr e => Throw e | inl u => Return (v + u) end) end)
  | 1 => Outside S (fun w => match w with 0 => Throw ERuntime | S _ => Ask 3 (fun x => match x with inr e => Throw e | inl v => Return (S v) end) end)
  | 2 => Ask 3 (fun x => match x with inr e => Return 0 | inl v => Return (2 * v) end)
  | _ => Return 20
  end.
Definition diamond_rank (d : nat) : nat := 3 - d.
Example C90_diamond_acyclic : acyclic diamond 4 diamond_rank.
Proof.
  intros d Hd. destruct d as [|[|[|[|d]]]]; [| | | |lia]; simpl; unfold diamond_rank.
  - split; [lia|]. intros [v|e]; simpl; [|exact I]. split; [lia|]. intros [u|e]; simpl; exact I.
  - intros [|w]; simpl; [exact I|]. split; [lia|]. intros [v|e]; simpl; exact I.
  - split; [lia|]. intros [v|e]; simpl; exact I.
  - exact I.
Qed.
Example C90_diamond_run : exists s', rrun 4 [0; 2; 0; 3; 0] (rstart diamond 4 0) =
    ([LExc ERuntime; LObj 1 40; LObj 3 61; LObj 0 20; LObj 3 61], inl s') /\
  r_log s' = [(1, OutThrow ERuntime); (0, OutThrow ERuntime); (3, OutObj 20); (2, OutObj 40); (1, OutObj 21); (0, OutObj 61)].
Proof. eexists. split; vm_compute; reflexivity. Qed.
(** pure equations x0 = x1 + x2, x1 = x2 + 1, x2 = 5 *)
Definition sums : nat -> code nat unit := fun d =>
  match d with
  | 0 => Ask 1 (fun x => match x with inr e => Throw e | inl v => Ask 2 (fun y => match y with inr e => Throw e | inl u => Return (v + u) end) end)
  | 1 => Ask 2 (fun x => match x with inr e => Throw e | inl v => Return (S v) end)
  | _ => Return 5
  end.
Example C90_sums : acyclic sums 3 diamond_rank /\ (forall d, d < 3 -> pure (sums d)) /\
  solves sums 3 (fun d => match d with 0 => 11 | 1 => 6 | _ => 5 end) /\
  (exists s', rrun 4 [0; 1; 2] (rstart sums 3 tt) = ([LObj 2 11; LObj 1 6; LObj 0 5], inl s')) /\
  (exists s', rrun 4 [2; 1; 0] (rstart sums 3 tt) = ([LObj 0 5; LObj 1 6; LObj 2 11], inl s')).
Proof.
  split; [|split; [|split; [|split]]]; try (eexists; vm_compute; reflexivity).
  - intros d Hd. destruct d as [|[|[|d]]]; [| | |lia]; simpl; unfold diamond_rank.
    + split; [lia|]. intros [v|e]; simpl; [|exact I]. split; [lia|]. intros [u|e]; simpl; exact I.
    + split; [lia|]. intros [v|e]; simpl; exact I.
    + exact I.
  - intros d Hd. destruct d as [|[|[|d]]]; simpl; auto.
  - intros d Hd. destruct d as [|[|[|d]]]; [| | |lia]; reflexivity.
Qed.
(** 0 and 1 ask each other after 0 has acted outside; 2 is no part of the circle *)
Definition circle : nat -> code nat nat := fun d =>
  match d with
  | 0 => Outside S (fun _ => Ask 1 (fun _ => Return 7))
  | 1 => Ask 0 (fun _ => Return 8)
  | _ => Return 9
  end.
Example C90_circle : (forall d, d < 2 -> d < 3 /\ asks_first (fun k => k < 2) (circle d)) /\
  exists s', rrun 1 [2] (rstart circle 3 0) = ([LObj 0 9], inl s').
Proof.
  split; [|eexists; vm_compute; reflexivity]. intros d Hd. split; [lia|]. destruct d as [|[|d]]; [| |lia]; simpl; lia.
Qed.
Example C90_same_example : no_ask (Outside S (fun w => match w with 0 => Throw ERuntime | _ => Return w end)) /\
  agree (rcall 1 0 (rstart (fun _ => Outside S (fun w => match w with 0 => Throw ERuntime | _ => Return w end)) 1 3))
        (Ret (0, 3) (r_lst (match rcall 1 0 (rstart (fun _ => Outside S (fun w => match w with 0 => Throw ERuntime | _ => Return w end)) 1 3) with Ret _ s => s | _ => rstart (fun _ => Return 0) 0 0 end))).
Proof. split; [intros [|w]; exact I|vm_compute; auto]. Qed.
