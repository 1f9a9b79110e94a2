(** HandleMakeProps.v -- the properties C106 and C107 of making handles.  Statements only; the lemmas are in
    HandleMakeProofs.v. *)
From Verif Require Import Base HandleModel HandleSpec HandleMakeModel HandleMakeSpec HandleMakeProofs.

(** ** C106: a handle made from an object holds a copy of that object: of the same dynamic type and value.
    False of the code: an object passed by a reference to a copyable class it is derived from is sliced, on every
    such call.  The intended statement is that of the partial theorem without its last hypothesis. *)
Theorem C106_slicing_refuted :
  forall (V Ty : Type) (clone : V -> V) (dyn : V -> Ty) (subobjs : Ty -> Ty -> list nat) (wrapper : Ty -> Ty)
    (inner : Ty -> nat) (ty_eqb : Ty -> Ty -> bool) (iface : Ty) (traits_of : Ty -> traits)
    (part left : Ty -> V -> V) (vcopy vmove vleft : V -> V),
  (forall v, clone v = v) -> (forall a b, ty_eqb a b = true <-> a = b) -> proper dyn part vcopy vmove ->
  forall (s : hst V) (d : nat) (S : Ty) (c : category) (v : V),
  reachable clone dyn subobjs wrapper inner s -> nth_error (vars s) d = Some Dead -> hd false (sched s) = false ->
  compiles ty_eqb iface traits_of S c = true ->
  S <> dyn v -> S <> iface -> t_copyable (traits_of S) = true \/ c = RValue ->
  exists s' v' w, h_from ty_eqb iface traits_of part left vcopy vmove vleft d S c v s = Ret v' s' /\
    holds s' d w /\ dyn w = S /\ w <> v.
Proof. exact @made_sliced. Qed.
Print Assumptions C106_slicing_refuted.

(** What holds: an object passed as what it is, as the interface, or as an lvalue of a class that cannot be copied (an
    abstract one, say) is copied or moved whole, and an lvalue is left as it was. *)
Theorem C106_whole_object_partial :
  forall (V Ty : Type) (clone : V -> V) (dyn : V -> Ty) (subobjs : Ty -> Ty -> list nat) (wrapper : Ty -> Ty)
    (inner : Ty -> nat) (ty_eqb : Ty -> Ty -> bool) (iface : Ty) (traits_of : Ty -> traits)
    (part left : Ty -> V -> V) (vcopy vmove vleft : V -> V),
  (forall v, clone v = v) -> (forall a b, ty_eqb a b = true <-> a = b) -> proper dyn part vcopy vmove ->
  forall (s : hst V) (d : nat) (S : Ty) (c : category) (v : V),
  reachable clone dyn subobjs wrapper inner s -> nth_error (vars s) d = Some Dead -> hd false (sched s) = false ->
  compiles ty_eqb iface traits_of S c = true ->
  S = dyn v \/ S = iface \/ (t_copyable (traits_of S) = false /\ c <> RValue) ->
  exists s' v', h_from ty_eqb iface traits_of part left vcopy vmove vleft d S c v s = Ret v' s' /\
    holds s' d v /\ (c <> RValue -> v' = v).
Proof. exact @made_whole. Qed.
Print Assumptions C106_whole_object_partial.

(** Objects are pairs of a class and a number; class 0 is the interface, 1 abstract, 2 and 3 ordinary classes.  An object
    of class 3 passed as one of class 2, as the interface, as the abstract class, and as what it is. *)
Definition ex_traits (t : nat) : traits := match t with 0 | 1 => mkTraits false false | _ => mkTraits true true end.
Definition ex_part (t : nat) (v : nat * nat) : nat * nat := if Nat.eqb t (fst v) then v else (t, snd v).
Definition ex_from (t : nat) (c : category) : option (nat * nat) :=
  match h_from Nat.eqb 0 ex_traits ex_part (fun _ v => v) (fun v => v) (fun v => v) (fun v => v) 0 t c (3, 7) (hinit 1 []) with
  | Ret _ s => match heap s with [x] => Some (c_val x) | _ => None end
  | _ => None
  end.
Example C106_example :
  proper fst ex_part (fun v => v) (fun v => v) /\
  ex_from 2 LValue = Some (2, 7) /\ ex_from 2 RValue = Some (2, 7) /\ ex_from 0 LValue = Some (3, 7) /\
  ex_from 1 ConstLValue = Some (3, 7) /\ ex_from 3 RValue = Some (3, 7) /\ compiles Nat.eqb 0 ex_traits 1 RValue = false.
Proof.
  split; [|repeat split].
  split; auto; unfold ex_part.
  - intros S [t n]. simpl. destruct (Nat.eqb_spec S t); subst; reflexivity.
  - intros [t n]. simpl. rewrite Nat.eqb_refl. reflexivity.
Qed.

(** ** C107: make_handle<T>(args...) does what T(args...) does and holds the object made: arguments passed as rvalues
    are moved from.  False of the code: they are passed on as lvalues.  Whenever T(args...) changes an argument by moving
    from it, make_handle leaves that argument as it was; *)
Theorem C107_forwarding_refuted :
  forall (V A : Type) (build : @class_ctor V A) (s s' : hst V) (d : nat) (args : list (bool * A)) (v : V)
    (after : list A) (m : M (hst V) (list A)) (after' : list A),
  respects_lvalues build -> build args = Some (v, after) -> after <> map snd args ->
  make_handle build d args = Some m -> m s = Ret after' s' -> after' = map snd args /\ after' <> after.
Proof. exact @made_without_moving. Qed.
Print Assumptions C107_forwarding_refuted.

(** and of a class that can only be made from rvalues, make_handle makes none. *)
Theorem C107_move_only_refuted :
  forall (V A : Type) (build : @class_ctor V A) (d : nat) (args : list (bool * A)),
  (forall args', (forall r a, In (r, a) args' -> r = false) -> args' <> [] -> build args' = None) -> args <> [] ->
  make_handle build d args = None.
Proof. exact @made_not_at_all. Qed.
Print Assumptions C107_move_only_refuted.

(** What holds: with lvalues it does what T(args...) does; *)
Theorem C107_lvalues_partial :
  forall (V Ty A : Type) (clone : V -> V) (dyn : V -> Ty) (subobjs : Ty -> Ty -> list nat) (wrapper : Ty -> Ty)
    (inner : Ty -> nat), (forall v, clone v = v) ->
  forall (build : @class_ctor V A) (s : hst V) (d : nat) (args : list (bool * A)),
  reachable clone dyn subobjs wrapper inner s -> nth_error (vars s) d = Some Dead -> hd false (sched s) = false ->
  (forall r a, In (r, a) args -> r = false) ->
  match build args with
  | Some (v, after) => exists m s', make_handle build d args = Some m /\ m s = Ret after s' /\ holds s' d v
  | None => make_handle build d args = None
  end.
Proof. exact @made_from_lvalues. Qed.
Print Assumptions C107_lvalues_partial.

(** and for a class that makes the same object of copied arguments as of moved ones, it holds the object
    that T(args...) makes. *)
Theorem C107_same_value_partial :
  forall (V Ty A : Type) (clone : V -> V) (dyn : V -> Ty) (subobjs : Ty -> Ty -> list nat) (wrapper : Ty -> Ty)
    (inner : Ty -> nat), (forall v, clone v = v) ->
  forall (build : @class_ctor V A) (s : hst V) (d : nat) (args : list (bool * A)) (v : V) (after : list A),
  reachable clone dyn subobjs wrapper inner s -> nth_error (vars s) d = Some Dead -> hd false (sched s) = false ->
  moves_like_copies build -> build args = Some (v, after) ->
  exists m after' s', make_handle build d args = Some m /\ m s = Ret after' s' /\ holds s' d v.
Proof. exact @made_same_value. Qed.
Print Assumptions C107_same_value_partial.

(** A class that holds a list: T(const list&) copies it, T(list&&) takes it and leaves an empty one. *)
Definition ex_holder : @class_ctor (list nat) (list nat) := fun args =>
  match args with [(r, a)] => Some (a, [if r then [] else a]) | _ => None end.
Definition ex_mover : @class_ctor (list nat) (list nat) := fun args =>
  match args with [(true, a)] => Some (a, [[]]) | _ => None end.
Example C107_example :
  respects_lvalues ex_holder /\ moves_like_copies ex_holder /\ ex_holder [(true, [1; 2])] = Some ([1; 2], [[]]) /\
  (match make_handle ex_holder 0 [(true, [1; 2])] with
   | Some m => match m (hinit 1 []) with Ret after s => Some (after, map c_val (heap s)) | _ => None end
   | None => None
   end) = Some ([[1; 2]], [[1; 2]]) /\
  ex_mover [(true, [1; 2])] = Some ([1; 2], [[]]) /\ make_handle ex_mover 0 [(true, [1; 2])] = None.
Proof.
  split; [|split; [|split; [reflexivity|split; [reflexivity|split; reflexivity]]]].
  - intros [|[r a] [|]] v after E; try discriminate. injection E as <- <-. split; [reflexivity|].
    intros [|i] x Q; simpl in Q; [injection Q as -> ->; reflexivity|destruct i; discriminate].
  - intros [|[r a] [|]] v after E; try discriminate. injection E as <- <-. exists [a]. reflexivity.
Qed.
