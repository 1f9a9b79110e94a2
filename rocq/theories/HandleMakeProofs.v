(** HandleMakeProofs.v -- proofs about making handles. *)
From Verif Require Import Base HandleModel HandleSpec HandleProofs HandleMakeModel HandleMakeSpec.
Local Open Scope monad_scope.

Section Proofs.
  Context {V Ty A : Type} (clone : V -> V) (dyn : V -> Ty)
          (subobjs : Ty -> Ty -> list nat) (wrapper : Ty -> Ty) (inner : Ty -> nat)
          (ty_eqb : Ty -> Ty -> bool) (iface : Ty) (traits_of : Ty -> traits)
          (part left : Ty -> V -> V) (vcopy vmove vleft : V -> V) (clone_ok : forall v, clone v = v).
  Notation reachable := (reachable clone dyn subobjs wrapper inner).
  Notation choose := (choose ty_eqb iface traits_of).
  Notation h_from := (h_from ty_eqb iface traits_of part left vcopy vmove vleft).

  Lemma h_new_holds d v (s : hst V) : reachable s -> nth_error (vars s) d = Some Dead -> hd false (sched s) = false ->
    exists s', h_new d v s = Ret tt s' /\ holds s' d v.
  Proof.
    intros Hr Hd Hs. apply (reachable_inv _ _ _ _ _ clone_ok) in Hr. destruct (h_new_ok d v s Hr Hd Hs) as (s' & E & N).
    exists s'. split; [exact E|].
    assert (Hv : nth_error (vars s') d = Some (Ptr (length (heap s)))).
    { rewrite (new_vars _ _ _ _ N). apply nth_error_upd_eq. apply nth_error_Some. congruence. }
    destruct (const_access_ok d s' _ (new_inv _ _ _ _ N) Hv) as (c & _ & Hc & Hval & Hl).
    exists (length (heap s)), c. repeat split; auto.
    rewrite (new_val _ _ _ _ N) in Hval. congruence.
  Qed.

  Lemma ret_holds d v {B} (x : B) (s : hst V) : reachable s -> nth_error (vars s) d = Some Dead -> hd false (sched s) = false ->
    exists s', (h_new d v ;;; ret x) s = Ret x s' /\ holds s' d v.
  Proof.
    intros Hr Hd Hs. destruct (h_new_holds d v s Hr Hd Hs) as (s' & E & H).
    exists s'. split; [rewrite (bind_ret _ _ _ _ _ E); reflexivity|exact H].
  Qed.

  Lemma made_whole (Heqb : forall a b, ty_eqb a b = true <-> a = b) (Hp : proper dyn part vcopy vmove)
      (s : hst V) d S c v : reachable s -> nth_error (vars s) d = Some Dead -> hd false (sched s) = false ->
    compiles ty_eqb iface traits_of S c = true ->
    S = dyn v \/ S = iface \/ (t_copyable (traits_of S) = false /\ c <> RValue) ->
    exists s' v', h_from d S c v s = Ret v' s' /\ holds s' d v /\ (c <> RValue -> v' = v).
  Proof.
    intros Hr Hd Hs _ HS. destruct Hp as [P1 P2 P3 P4]. unfold HandleMakeModel.h_from, HandleMakeModel.choose.
    destruct (ty_eqb S iface) eqn:E.
    - destruct c; rewrite ?P3, ?P4; match goal with |- context [ret ?x] =>
        destruct (ret_holds d v x s Hr Hd Hs) as (s' & Es & Hh) end; exists s'; eexists; (split; [exact Es|]); split; auto; congruence.
    - assert (Hn : S <> iface) by (intros Q; apply Heqb in Q; congruence).
      destruct c; [| |].
      1, 2: destruct (t_copyable (traits_of S)) eqn:Ec;
        [destruct HS as [->|[Q|[Q _]]]; [|contradiction|discriminate]; rewrite P2|rewrite P3];
        destruct (ret_holds d v v s Hr Hd Hs) as (s' & Es & Hh); exists s', v; auto.
      destruct HS as [->|[Q|[_ Q]]]; [|contradiction|congruence]. rewrite P2.
      destruct (ret_holds d v (left (dyn v) v) s Hr Hd Hs) as (s' & Es & Hh). exists s', (left (dyn v) v).
      split; [exact Es|split; [exact Hh|congruence]].
  Qed.

  Lemma made_sliced (Heqb : forall a b, ty_eqb a b = true <-> a = b) (Hp : proper dyn part vcopy vmove)
      (s : hst V) d S c v : reachable s -> nth_error (vars s) d = Some Dead -> hd false (sched s) = false ->
    compiles ty_eqb iface traits_of S c = true ->
    S <> dyn v -> S <> iface -> t_copyable (traits_of S) = true \/ c = RValue ->
    exists s' v' w, h_from d S c v s = Ret v' s' /\ holds s' d w /\ dyn w = S /\ w <> v.
  Proof.
    intros Hr Hd Hs _ HS Hi Hc. destruct Hp as [P1 P2 P3 P4]. unfold HandleMakeModel.h_from, HandleMakeModel.choose.
    destruct (ty_eqb S iface) eqn:E; [apply Heqb in E; contradiction|].
    assert (Hw : dyn (part S v) = S /\ part S v <> v).
    { split; [apply P1|]. intros Q. apply HS. rewrite <- (P1 S v), Q. reflexivity. }
    destruct c.
    1, 2: destruct Hc as [->|Q]; [|discriminate];
      destruct (ret_holds d (part S v) v s Hr Hd Hs) as (s' & Es & Hh); exists s', v, (part S v); tauto.
    destruct (ret_holds d (part S v) (left S v) s Hr Hd Hs) as (s' & Es & Hh).
    exists s', (left S v), (part S v); tauto.
  Qed.

  (** ** make_handle *)
  Lemma lvalues_id (args : list (bool * A)) : (forall r a, In (r, a) args -> r = false) -> as_lvalues args = args.
  Proof.
    induction args as [|[r a] l IH]; intros H; [reflexivity|]. simpl. f_equal.
    - rewrite (H r a (or_introl eq_refl)). reflexivity.
    - apply IH. intros r' a' I. apply (H r' a'). right. exact I.
  Qed.

  Lemma args_untouched (build : @class_ctor V A) args v after : respects_lvalues build ->
    build (as_lvalues args) = Some (v, after) -> after = map snd args.
  Proof.
    intros R E. destruct (R _ _ _ E) as [L N]. unfold as_lvalues in *. rewrite map_length in L.
    apply nth_error_ext. intros i. destruct (nth_error args i) as [[r a]|] eqn:Ei.
    - rewrite (N i a); [|rewrite nth_error_map, Ei; reflexivity]. rewrite nth_error_map, Ei. reflexivity.
    - rewrite nth_error_map, Ei. simpl. apply nth_error_None. apply nth_error_None in Ei. lia.
  Qed.

  Lemma made_from_lvalues (build : @class_ctor V A) (s : hst V) d args : reachable s ->
    nth_error (vars s) d = Some Dead -> hd false (sched s) = false ->
    (forall r a, In (r, a) args -> r = false) ->
    match build args with
    | Some (v, after) => exists m s', make_handle build d args = Some m /\ m s = Ret after s' /\ holds s' d v
    | None => make_handle build d args = None
    end.
  Proof.
    intros Hr Hd Hs HL. unfold make_handle. rewrite (lvalues_id _ HL). destruct (build args) as [[v after]|]; [|reflexivity].
    destruct (ret_holds d v after s Hr Hd Hs) as (s' & Es & Hh). eexists; exists s'. split; [reflexivity|]. auto.
  Qed.

  Lemma made_same_value (build : @class_ctor V A) (s : hst V) d args v after : reachable s ->
    nth_error (vars s) d = Some Dead -> hd false (sched s) = false -> moves_like_copies build ->
    build args = Some (v, after) ->
    exists m after' s', make_handle build d args = Some m /\ m s = Ret after' s' /\ holds s' d v.
  Proof.
    intros Hr Hd Hs HM E. destruct (HM _ _ _ E) as (after' & E'). unfold make_handle, as_lvalues. rewrite E'.
    destruct (ret_holds d v after' s Hr Hd Hs) as (s' & Es & Hh). eexists; exists after', s'. split; [reflexivity|]. auto.
  Qed.

  Lemma made_without_moving (build : @class_ctor V A) (s s' : hst V) d args v after m after' : respects_lvalues build ->
    build args = Some (v, after) -> after <> map snd args ->
    make_handle build d args = Some m -> m s = Ret after' s' -> after' = map snd args /\ after' <> after.
  Proof.
    intros R E Hne Em Es. unfold make_handle in Em. destruct (build (as_lvalues args)) as [[w af]|] eqn:E'; [|discriminate].
    injection Em as <-. pose proof (args_untouched _ _ _ _ R E') as Q.
    unfold bind in Es. destruct (h_new d w s); try discriminate. injection Es as <- _. subst af. split; congruence.
  Qed.

  Lemma made_not_at_all (build : @class_ctor V A) d args :
    (forall args', (forall r a, In (r, a) args' -> r = false) -> args' <> [] -> build args' = None) -> args <> [] ->
    make_handle build d args = None.
  Proof.
    intros H Hne. unfold make_handle. rewrite H; [reflexivity| |].
    - intros r a I. unfold as_lvalues in I. apply in_map_iff in I as ([r' a'] & Q & _). simpl in Q. congruence.
    - destruct args; [contradiction|discriminate].
  Qed.
End Proofs.
