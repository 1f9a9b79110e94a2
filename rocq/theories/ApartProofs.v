(** ApartProofs.v -- threads that access different parts of the state need no mutex (used for C108). *)
From Verif Require Import Base SyncModel SyncSpec SyncProofs.

Section Apart.
  Context {S Loc Op Out : Type} (code : Op -> act S Loc Out).
  Notation config := (config S Loc Op Out).
  Notation thread := (thread S Loc Op Out).
  Notation call := (fun o => alone (code o)).
  Context (ts : list (list (stm Op))) (s0 : S).
  (** what belongs to thread i *)
  Context (part : nat -> S -> S -> Prop) (owns : nat -> Loc -> Prop).
  Context (part_refl : forall i s, part i s s) (part_trans : forall i s1 s2 s3, part i s1 s2 -> part i s2 s3 -> part i s1 s3).
  Context (owns_one : forall i j p q l, nth_error ts i = Some p -> nth_error ts j = Some q -> owns i l -> owns j l -> i = j).

  (** the call accesses only what belongs to thread [i] when it finds the state [s] *)
  Inductive local (i : nat) : act S Loc Out -> S -> Prop :=
  | L_fin x s : local i (Fin x) s
  | L_undefined r s : local i (Undefined r) s
  | L_read l k s : owns i l -> (forall s', part i s' s -> k s' = k s) -> local i (k s) s -> local i (Read l k) s
  | L_write l f k s : owns i l -> (forall s', part i s' s -> part i (f s') (f s)) ->
      (forall j q s', nth_error ts j = Some q -> j <> i -> part j (f s') s') -> local i k (f s) -> local i (Write l f k) s.
  Context (Hlocal : forall i p ops o q, nth_error ts i = Some p -> does p = ops ++ o :: q ->
    exists l s x s', seqrun call ops s0 = Ret l s /\ local i (code o) s /\ alone (code o) s = Ret x s').
  Context (Hguard : forall p, In p ts -> guarded false false p).

  Definition running (c : config) (i : nat) (t : thread) : Prop :=
    exists s1, seqrun call (map fst (outs t)) s0 = Ret (map snd (outs t)) s1 /\
      match cur t with
      | None => part i (shared c) s1
      | Some (o, a) => exists s2 x s3, part i (shared c) s2 /\ local i a s2 /\ alone a s2 = Ret x s3 /\ alone (code o) s1 = Ret x s3
      end.
  Record ainv (c : config) : Prop := {
    a_len : length (threads c) = length ts;
    a_thread : forall i t p, nth_error (threads c) i = Some t -> nth_error ts i = Some p ->
      guarded false (held_by c i) (rest t) /\ does p = map fst (outs t) ++ curop t ++ does (rest t) /\ running c i t;
    a_held : forall j, held c = Some j -> j < length ts }.

  Lemma running_other (c : config) s' h l lg j t : running c j t -> part j s' (shared c) -> running (mkC s' h l lg) j t.
  Proof.
    intros (s1 & E & H) P. exists s1. split; [exact E|]. cbn [shared]. destruct (cur t) as [[o a]|].
    - destruct H as (s2 & x & s3 & P2 & L & A1 & A2). exists s2, x, s3. repeat split; auto. eapply part_trans; eassumption.
    - eapply part_trans; eassumption.
  Qed.
  Lemma ainv_put (c : config) i t t' s' h lg : ainv c -> nth_error (threads c) i = Some t ->
    (forall j q, nth_error ts j = Some q -> j <> i -> part j s' (shared c)) ->
    (forall j, h = Some j -> j < length ts) ->
    (forall j, j <> i -> held_by c j = match h with Some k => Nat.eqb j k | None => false end) ->
    (forall p, nth_error ts i = Some p -> guarded false (match h with Some k => Nat.eqb i k | None => false end) (rest t') /\
       does p = map fst (outs t') ++ curop t' ++ does (rest t') /\ running (mkC s' h (put_thread c i t') lg) i t') ->
    ainv (mkC s' h (put_thread c i t') lg).
  Proof.
    intros H Et Hp Hh Hho Ht'. assert (i < length (threads c)) as Hi by (apply nth_error_Some; congruence).
    split; cbn [threads held].
    - unfold put_thread. rewrite upd_length. apply (a_len _ H).
    - intros j u p Hu Hj. rewrite threads_put in Hu by exact Hi. destruct (Nat.eqb_spec i j) as [->|Hn].
      + injection Hu as <-. exact (Ht' p Hj).
      + destruct (a_thread _ H _ _ _ Hu Hj) as (G & D & R). unfold held_by in *. cbn [held]. rewrite <- (Hho j) by congruence.
        split; [exact G|]. split; [exact D|]. apply (running_other c); [exact R|]. apply (Hp j p Hj). congruence.
    - exact Hh.
  Qed.

  Lemma seqrun_snoc ops o (s : S) l s1 x s2 : seqrun call ops s = Ret l s1 -> alone (code o) s1 = Ret x s2 ->
    seqrun call (ops ++ [o]) s = Ret (l ++ [x]) s2.
  Proof.
    revert s l. induction ops as [|o' ops IH]; intros s l E A; cbn [seqrun app] in *.
    - injection E as <- <-. rewrite A. reflexivity.
    - destruct (alone (code o') s) as [y s'| | | |]; try discriminate.
      destruct (seqrun call ops s') as [l' s''| | | |] eqn:E'; try discriminate. injection E as <- <-.
      rewrite (IH s' l' E' A). reflexivity.
  Qed.

  Lemma ainv_step c i : ainv c -> exists c', cstep code i c = inl c' /\ ainv c'.
  Proof.
    intros H. unfold cstep. destruct (nth_error (threads c) i) as [t|] eqn:Et; [|eauto].
    assert (i < length (threads c)) as Hi by (apply nth_error_Some; congruence).
    assert (i < length ts) as Hit by (rewrite <- (a_len _ H); exact Hi).
    destruct (nth_error ts i) as [p|] eqn:Ep; [|apply nth_error_None in Ep; lia].
    destruct (a_thread _ H _ _ _ Et Ep) as (Hg & Hd & s1 & Es & Hr).
    assert (Hheld : forall j, j <> i -> held_by c j = match held c with Some k => Nat.eqb j k | None => false end) by reflexivity.
    destruct (cur t) as [[o a]|] eqn:Ec.
    - destruct Hr as (s2 & x & s3 & P & L & A1 & A2).
      destruct L as [y s2|r s2|l k s2 O K L|l f k s2 O K N L]; cbn [alone] in A1.
      + injection A1 as <- <-. eexists. split; [reflexivity|]. apply (ainv_put c i t); auto; [apply (a_held _ H)|].
        intros p' Hp'. rewrite Ep in Hp'. injection Hp' as <-. cbn [rest outs curop cur]. split; [exact Hg|]. split.
        * rewrite Hd. unfold curop. rewrite Ec. rewrite map_app, <- app_assoc. reflexivity.
        * exists s2. cbn [outs cur]. rewrite !map_app. split; [|exact P]. exact (seqrun_snoc _ _ _ _ _ _ _ Es A2).
      + discriminate.
      + eexists. split; [reflexivity|]. apply (ainv_put c i t); auto; [apply (a_held _ H)|].
        intros p' Hp'. rewrite Ep in Hp'. injection Hp' as <-. cbn [rest outs]. split; [exact Hg|]. split.
        * rewrite Hd. unfold curop. rewrite Ec. reflexivity.
        * exists s1. cbn [outs cur]. split; [exact Es|]. exists s2, x, s3. rewrite (K _ P). auto.
      + eexists. split; [reflexivity|]. apply (ainv_put c i t); auto; [|apply (a_held _ H)|].
        { intros j q Hj Hn. exact (N j q _ Hj Hn). }
        intros p' Hp'. rewrite Ep in Hp'. injection Hp' as <-. cbn [rest outs]. split; [exact Hg|]. split.
        * rewrite Hd. unfold curop. rewrite Ec. reflexivity.
        * exists s1. cbn [outs cur]. split; [exact Es|]. exists (f s2), x, s3. repeat split; auto. exact (K _ P).
    - destruct (rest t) as [|[| |o] q] eqn:Er; simpl in Hg.
      + eauto.
      + destruct Hg as [Hh Hg]. unfold held_by in Hh. destruct (held c) as [j|] eqn:Ehc.
        * rewrite Hh. eauto.
        * eexists. split; [reflexivity|]. apply (ainv_put c i t); auto.
          -- intros j E. injection E as <-. exact Hit.
          -- intros j Hn. unfold held_by. rewrite Ehc. symmetry. apply Nat.eqb_neq. exact Hn.
          -- intros p' Hp'. rewrite Ep in Hp'. injection Hp' as <-. rewrite Nat.eqb_refl. cbn [rest outs]. split; [exact Hg|]. split.
             ++ rewrite Hd. unfold curop. rewrite Ec. reflexivity.
             ++ exists s1. cbn [outs cur]. auto.
      + destruct Hg as [Hh Hg]. rewrite Hh. unfold held_by in Hh. destruct (held c) as [j|] eqn:Ehc; [|discriminate].
        apply Nat.eqb_eq in Hh. subst j. eexists. split; [reflexivity|]. apply (ainv_put c i t); auto.
        * discriminate.
        * intros j Hn. unfold held_by. rewrite Ehc. apply Nat.eqb_neq. exact Hn.
        * intros p' Hp'. rewrite Ep in Hp'. injection Hp' as <-. cbn [rest outs]. split; [exact Hg|]. split.
          -- rewrite Hd. unfold curop. rewrite Ec. reflexivity.
          -- exists s1. cbn [outs cur]. auto.
      + eexists. split; [reflexivity|]. apply (ainv_put c i t); auto; [apply (a_held _ H)|].
        intros p' Hp'. rewrite Ep in Hp'. injection Hp' as <-. cbn [rest outs]. split; [apply Hg|]. split.
        * rewrite Hd. unfold curop. rewrite Ec. reflexivity.
        * exists s1. cbn [outs cur shared]. split; [exact Es|].
          unfold curop in Hd. rewrite Ec in Hd. cbn [does app] in Hd.
          destruct (Hlocal i p _ _ _ Ep Hd) as (l & s & x & s' & E1 & L & A). rewrite Es in E1. injection E1 as <- <-.
          exists s1, x, s'. auto.
  Qed.
  Lemma ainv_fork : ainv (fork s0 ts).
  Proof.
    assert (forall i t, nth_error (threads (@fork S Loc Op Out s0 ts)) i = Some t -> exists p, nth_error ts i = Some p /\ t = mkT None p []) as Ht.
    { intros i t H. unfold fork in H. simpl in H. rewrite nth_error_map in H. destruct (nth_error ts i) as [p|]; [|discriminate].
      injection H as <-. eauto. }
    split.
    - apply map_length.
    - intros i t p H Hp. apply Ht in H. destruct H as (p' & Hp' & ->). rewrite Hp in Hp'. injection Hp' as <-.
      split; [apply Hguard; apply (nth_error_In _ _ Hp)|]. split; [reflexivity|]. exists s0. split; [reflexivity|]. apply part_refl.
    - discriminate.
  Qed.
  Lemma ainv_run sch : forall c, ainv c -> exists c', crun code sch c = inl c' /\ ainv c'.
  Proof.
    induction sch as [|i sch IH]; simpl; intros c H; [eauto|]. destruct (ainv_step c i H) as (c' & -> & H'). apply (IH c' H').
  Qed.
  Lemma ainv_good c : ainv c -> as_if_alone call part s0 ts c.
  Proof.
    intros H. split.
    - intros (l & i & j & t & u & wi & wj & Hn & Ht & Hu & Ai & Aj & _).
      assert (Q : forall i t w, nth_error (threads c) i = Some t -> access t = Some (l, w) -> exists p, nth_error ts i = Some p /\ owns i l).
      { intros i' t' w Ht' Aw. assert (i' < length ts) as Hi by (rewrite <- (a_len _ H); apply nth_error_Some; congruence).
        destruct (nth_error ts i') as [p|] eqn:Ep; [|apply nth_error_None in Ep; lia]. exists p. split; [reflexivity|].
        destruct (a_thread _ H _ _ _ Ht' Ep) as (_ & _ & s1 & _ & R). unfold access in Aw.
        destruct (cur t') as [[o a]|]; [|discriminate]. destruct R as (s2 & x & s3 & _ & L & _). destruct L; congruence. }
      destruct (Q i t wi Ht Ai) as (p & Ep & O1). destruct (Q j u wj Hu Aj) as (q & Eq & O2).
      apply Hn. exact (owns_one i j p q l Ep Eq O1 O2).
    - intros i p t Ep Et. destruct (a_thread _ H _ _ _ Et Ep) as (_ & D & s1 & E & R).
      exists (curop t ++ does (rest t)), s1. split; [exact D|]. split; [exact E|]. split.
      + intros Ec. rewrite Ec in R. exact R.
      + intros [Ec Er]. unfold curop. rewrite Ec, Er. reflexivity.
    - intros (t & Hin & Hnf). destruct (held c) as [j|] eqn:Eh.
      + pose proof (a_held _ H j Eh) as Hj. pose proof Hj as Hj'. rewrite <- (a_len _ H) in Hj'. apply nth_error_Some in Hj, Hj'.
        destruct (nth_error (threads c) j) as [u|] eqn:Eu; [|congruence]. destruct (nth_error ts j) as [p|] eqn:Ep; [|congruence].
        destruct (a_thread _ H _ _ _ Eu Ep) as (Hg & _ & _). unfold held_by in Hg. rewrite Eh, Nat.eqb_refl in Hg.
        exists u. split; [apply (nth_error_In _ _ Eu)|]. split.
        * intros [_ Er]. rewrite Er in Hg. discriminate.
        * intros (_ & _ & q & Er). rewrite Er in Hg. destruct Hg. discriminate.
      + exists t. split; [exact Hin|]. split; [exact Hnf|]. intros (_ & X & _). congruence.
  Qed.
  Lemma apart_good sch : exists c, crun code sch (fork s0 ts) = inl c /\ as_if_alone call part s0 ts c.
  Proof. destruct (ainv_run sch _ ainv_fork) as (c & E & H). exists c. split; [exact E|]. apply ainv_good. exact H. Qed.
End Apart.
