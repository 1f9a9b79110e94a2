(** SyncProofs.v -- lemmas about threads using global state. *)
From Verif Require Import Base RandomModel RandomSpec RandomProofs SyncModel SyncSpec.

Section Sync.
  Context {S Loc Op Out : Type} (code : Op -> act S Loc Out) (call : Op -> S -> res S Out).
  Notation config := (config S Loc Op Out).
  Notation thread := (thread S Loc Op Out).

  Lemma of_thread_app {A} i (l1 l2 : list (nat * A)) : of_thread i (l1 ++ l2) = of_thread i l1 ++ of_thread i l2.
  Proof. unfold of_thread. rewrite filter_app, map_app. reflexivity. Qed.
  Lemma of_thread_one {A} i j (a : A) : of_thread i [(j, a)] = if Nat.eqb j i then [a] else [].
  Proof. unfold of_thread. simpl. destruct (Nat.eqb j i); reflexivity. Qed.
  Lemma of_thread_map {A B} i (f : A -> B) (l : list (nat * A)) :
    of_thread i (map (fun x => (fst x, f (snd x))) l) = map f (of_thread i l).
  Proof. induction l as [|[j a] l IH]; [reflexivity|]. unfold of_thread in *. simpl. destruct (Nat.eqb j i); simpl; rewrite IH; reflexivity. Qed.

  Lemma seqrun_app (l1 : list Op) : forall l2 s outs1 s1, seqrun call l1 s = Ret outs1 s1 ->
    seqrun call (l1 ++ l2) s =
    match seqrun call l2 s1 with Ret l s2 => Ret (outs1 ++ l) s2 | Exc e s2 => Exc e s2 | Ub r => Ub r | Abort => Abort | Fuel => Fuel end.
  Proof.
    induction l1 as [|o l1 IH]; simpl; intros l2 s outs1 s1 H.
    - injection H as <- <-. destruct (seqrun call l2 s); reflexivity.
    - destruct (call o s) as [a s'|? ?|?| |]; try discriminate.
      destruct (seqrun call l1 s') as [l s2|? ?|?| |] eqn:E; try discriminate. injection H as <- <-.
      rewrite (IH l2 _ _ _ E). destruct (seqrun call l2 s2); reflexivity.
  Qed.

  Context (ts : list (list (stm Op))) (s0 : S).
  Definition allowed (sole : option nat) (c : config) (i : nat) : Prop :=
    match sole with None => held c = Some i | Some j => i = j end.
  Definition need (sole : option nat) : bool := match sole with None => true | Some _ => false end.
  Definition curop (t : thread) : list Op := match cur t with Some (o, _) => [o] | None => [] end.
  Definition tlog (c : config) : list (nat * (Op * Out)) := map (fun x => (fst (fst x), (snd (fst x), snd x))) (log c).
  Record inv (sole : option nat) (c : config) : Prop := {
    i_len : length (threads c) = length ts;
    i_seq : exists s1, seqrun call (map snd (history c)) s0 = Ret (results c) s1 /\
      (forall i t o a, nth_error (threads c) i = Some t -> cur t = Some (o, a) -> alone a (shared c) = call o s1) /\
      (idle c -> shared c = s1);
    i_allowed : forall i t, nth_error (threads c) i = Some t -> cur t <> None -> allowed sole c i;
    i_thread : forall i t p, nth_error (threads c) i = Some t -> nth_error ts i = Some p ->
      guarded (need sole) (held_by c i) (rest t) /\ does p = map fst (outs t) ++ curop t ++ does (rest t) /\ outs t = of_thread i (tlog c);
    i_held : forall j, held c = Some j -> j < length ts;
    i_log : forall i o, In (i, o) (history c) -> i < length ts }.

  Lemma allowed_unique sole c i j : allowed sole c i -> allowed sole c j -> i = j.
  Proof. destruct sole; simpl; congruence. Qed.
  Lemma history_tlog i c : of_thread i (history c) = map fst (of_thread i (tlog c)).
  Proof.
    rewrite <- (of_thread_map i fst). unfold history, tlog. rewrite map_map. f_equal.
    apply map_ext. intros [[? ?] ?]. reflexivity.
  Qed.
  Lemma inv_merged sole c : inv sole c -> merged ts (history c).
  Proof.
    intros H. split; [apply (i_log _ _ H)|]. intros i p Hp.
    assert (i < length (threads c)) as Hi by (rewrite (i_len _ _ H); apply nth_error_Some; congruence).
    destruct (nth_error (threads c) i) as [t|] eqn:Et; [|apply nth_error_None in Et; lia].
    destruct (i_thread _ _ H _ _ _ Et Hp) as (_ & Hd & Ho). rewrite history_tlog, <- Ho. eauto.
  Qed.
  Lemma merged_snoc sole c i t o : inv sole c -> nth_error (threads c) i = Some t ->
    (exists a, cur t = Some (o, a)) \/ (cur t = None /\ exists q, rest t = StDo o :: q) -> merged ts (history c ++ [(i, o)]).
  Proof.
    intros H Et Hc. assert (i < length ts) as Hi by (rewrite <- (i_len _ _ H); apply nth_error_Some; congruence).
    split.
    - intros j o' Hin. apply in_app_or in Hin. destruct Hin as [Hin|[Hin|[]]]; [apply (i_log _ _ H _ _ Hin)|congruence].
    - intros j p Hp. rewrite of_thread_app, of_thread_one. destruct (Nat.eqb_spec i j) as [->|Hn].
      + destruct (i_thread _ _ H _ _ _ Et Hp) as (_ & Hd & Ho). rewrite history_tlog, <- Ho, Hd.
        unfold curop. destruct Hc as [[a ->]|[-> [q ->]]]; simpl; eexists; rewrite <- app_assoc; reflexivity.
      + rewrite app_nil_r. apply (inv_merged _ _ H). exact Hp.
  Qed.

  Context (Hcall : forall o s, alone (code o) s = call o s).
  Context (Hok : forall l, merged ts l -> exists outs s', seqrun call (map snd l) s0 = Ret outs s').
  Context (sole : option nat).
  Context (Hguard : forall i p, nth_error ts i = Some p -> guarded (need sole) false p).
  Context (Hsole : forall j, sole = Some j -> forall i p, nth_error ts i = Some p -> i <> j -> does p = []).

  Lemma threads_put (c : config) i t j : i < length (threads c) ->
    nth_error (put_thread c i t) j = if Nat.eqb i j then Some t else nth_error (threads c) j.
  Proof.
    intros Hi. unfold put_thread. destruct (Nat.eqb_spec i j) as [->|Hn]; [apply nth_error_upd_eq; exact Hi|apply nth_error_upd_neq; congruence].
  Qed.

  (** the call a thread is in, or begins, is defined *)
  Lemma call_defined c i t o s1 : inv sole c -> nth_error (threads c) i = Some t ->
    (exists a, cur t = Some (o, a)) \/ (cur t = None /\ exists q, rest t = StDo o :: q) ->
    seqrun call (map snd (history c)) s0 = Ret (results c) s1 -> exists a s2, call o s1 = Ret a s2.
  Proof.
    intros H Et Hc Hs. destruct (Hok _ (merged_snoc _ _ _ _ _ H Et Hc)) as (l & s' & E).
    rewrite map_app, (seqrun_app _ _ _ _ _ Hs) in E. simpl in E. destruct (call o s1); try discriminate. eauto.
  Qed.

  (** a thread about to make a call is allowed to *)
  Lemma do_allowed c i t o q : inv sole c -> nth_error (threads c) i = Some t -> cur t = None -> rest t = StDo o :: q -> allowed sole c i.
  Proof.
    intros H Et Hc Hr. assert (i < length ts) as Hi by (rewrite <- (i_len _ _ H); apply nth_error_Some; congruence).
    destruct (nth_error ts i) as [p|] eqn:Ep; [|apply nth_error_None in Ep; lia].
    destruct (i_thread _ _ H _ _ _ Et Ep) as (Hg & Hd & _). rewrite Hr in Hg, Hd. unfold allowed. destruct sole as [j|] eqn:Es.
    - destruct (Nat.eq_dec i j) as [|Hn]; [assumption|]. rewrite (Hsole j eq_refl i p Ep Hn) in Hd.
      destruct (map fst (outs t)); [destruct (curop t)|]; discriminate.
    - simpl in Hg. destruct Hg as [Hh _]. specialize (Hh eq_refl). unfold held_by in Hh. destruct (held c); [|discriminate].
      apply Nat.eqb_eq in Hh. congruence.
  Qed.

  Lemma others_idle c i : inv sole c -> allowed sole c i ->
    forall j u, nth_error (threads c) j = Some u -> j <> i -> cur u = None.
  Proof.
    intros H Ha j u Hu Hn. destruct (cur u) eqn:E; [|reflexivity]. exfalso. apply Hn.
    apply (allowed_unique sole c); [|exact Ha]. apply (i_allowed _ _ H j u Hu). congruence.
  Qed.

  Lemma in_nth (l : list thread) t : In t l -> exists i, nth_error l i = Some t.
  Proof. apply In_nth_error. Qed.

  (** a step inside a call *)
  Lemma inner_step c i t o a a' s' : inv sole c -> nth_error (threads c) i = Some t -> cur t = Some (o, a) -> alone a' s' = alone a (shared c) ->
    inv sole (mkC s' (held c) (put_thread c i (mkT (Some (o, a')) (rest t) (outs t))) (log c)).
  Proof.
    intros H Et Ec Ha. assert (i < length (threads c)) as Hi by (apply nth_error_Some; congruence).
    assert (allowed sole c i) as Hal by (apply (i_allowed _ _ H i t Et); congruence).
    split; simpl.
    - unfold put_thread. rewrite upd_length. apply (i_len _ _ H).
    - destruct (i_seq _ _ H) as (s1 & Hs & Hm & Hid). exists s1. split; [exact Hs|]. split.
      + intros j u o' b Hu Hc. rewrite threads_put in Hu by exact Hi. destruct (Nat.eqb_spec i j) as [->|Hn].
        * injection Hu as <-. simpl in Hc. injection Hc as <- <-. rewrite Ha. apply (Hm j t o a Et Ec).
        * rewrite (others_idle c i H Hal j u Hu) in Hc by congruence. discriminate.
      + intros Hidle. exfalso. specialize (Hidle (mkT (Some (o, a')) (rest t) (outs t))). simpl in Hidle.
        assert (Some (o, a') = None) as X; [|discriminate]. apply Hidle.
        apply (nth_error_In _ i). rewrite threads_put, Nat.eqb_refl by exact Hi. reflexivity.
    - intros j u Hu Hc. rewrite threads_put in Hu by exact Hi. destruct (Nat.eqb_spec i j) as [->|Hn]; [exact Hal|apply (i_allowed _ _ H j u Hu Hc)].
    - intros j u p Hu Hp. rewrite threads_put in Hu by exact Hi. destruct (Nat.eqb_spec i j) as [->|Hn].
      + injection Hu as <-. destruct (i_thread _ _ H _ _ _ Et Hp) as (Hg & Hd & Ho). simpl. unfold curop in *. rewrite Ec in Hd. auto.
      + apply (i_thread _ _ H _ _ _ Hu Hp).
    - apply (i_held _ _ H).
    - apply (i_log _ _ H).
  Qed.

  (** a step of a thread outside calls: lock, unlock *)
  Lemma outer_step c i t q h : inv sole c -> nth_error (threads c) i = Some t -> cur t = None ->
    does (rest t) = does q -> (forall j, h = Some j -> j < length ts) ->
    (forall j u, nth_error (threads c) j = Some u -> j <> i -> cur u <> None -> allowed sole (mkC (shared c) h (threads c) (log c)) j) ->
    guarded (need sole) (match h with Some k => Nat.eqb i k | None => false end) q ->
    (forall j, j <> i -> held_by c j = match h with Some k => Nat.eqb j k | None => false end) ->
    inv sole (mkC (shared c) h (put_thread c i (mkT None q (outs t))) (log c)).
  Proof.
    intros H Et Ec Hdq Hh Hal Hg Hho. assert (i < length (threads c)) as Hi by (apply nth_error_Some; congruence).
    split; simpl.
    - unfold put_thread. rewrite upd_length. apply (i_len _ _ H).
    - destruct (i_seq _ _ H) as (s1 & Hs & Hm & Hid). exists s1. split; [exact Hs|]. split.
      + intros j u o' b Hu Hc. rewrite threads_put in Hu by exact Hi. destruct (Nat.eqb_spec i j) as [->|Hn].
        * injection Hu as <-. discriminate.
        * apply (Hm j u o' b Hu Hc).
      + intros Hidle. apply Hid. intros u Hu. apply in_nth in Hu. destruct Hu as [j Hu]. destruct (Nat.eq_dec i j) as [->|Hn]; [congruence|].
        apply Hidle. simpl. apply (nth_error_In _ j). rewrite threads_put by exact Hi. rewrite (proj2 (Nat.eqb_neq _ _) Hn). exact Hu.
    - intros j u Hu Hc. rewrite threads_put in Hu by exact Hi. destruct (Nat.eqb_spec i j) as [->|Hn].
      + injection Hu as <-. simpl in Hc. congruence.
      + specialize (Hal j u Hu (not_eq_sym Hn) Hc). unfold allowed in *. exact Hal.
    - intros j u p Hu Hp. rewrite threads_put in Hu by exact Hi. destruct (Nat.eqb_spec i j) as [->|Hn].
      + injection Hu as <-. destruct (i_thread _ _ H _ _ _ Et Hp) as (_ & Hd & Ho). simpl. unfold curop in *. rewrite Ec, Hdq in Hd. auto.
      + destruct (i_thread _ _ H _ _ _ Hu Hp) as (Hg' & Hd & Ho). split; [|split; assumption].
        unfold held_by at 1. simpl. rewrite <- (Hho j) by congruence. exact Hg'.
    - exact Hh.
    - apply (i_log _ _ H).
  Qed.

  Lemma cstep_inv i c : inv sole c -> exists c', cstep code i c = inl c' /\ inv sole c'.
  Proof.
    intros H. unfold cstep. destruct (nth_error (threads c) i) as [t|] eqn:Et; [|eauto].
    assert (i < length (threads c)) as Hi by (apply nth_error_Some; congruence).
    assert (i < length ts) as Hit by (rewrite <- (i_len _ _ H); exact Hi).
    destruct (nth_error ts i) as [p|] eqn:Ep; [|apply nth_error_None in Ep; lia].
    destruct (i_thread _ _ H _ _ _ Et Ep) as (Hg & Hd & Ho).
    destruct (i_seq _ _ H) as (s1 & Hs & Hm & Hid).
    destruct (cur t) as [[o a]|] eqn:Ec.
    - pose proof (Hm i t o a Et Ec) as Ha.
      destruct (call_defined c i t o s1 H Et (or_introl (ex_intro _ a Ec)) Hs) as (r & s2 & Er).
      destruct a as [x|l k|l f k|f k|rsn].
      + eexists. split; [reflexivity|]. simpl in Ha. rewrite Er in Ha. injection Ha as -> Es2.
        assert (allowed sole c i) as Hal by (apply (i_allowed _ _ H i t Et); congruence).
        split; simpl.
        * unfold put_thread. rewrite upd_length. apply (i_len _ _ H).
        * exists s2. unfold history, results. simpl. rewrite !map_app. simpl. split.
          -- rewrite (seqrun_app _ _ _ _ _ Hs). simpl. rewrite Er. reflexivity.
          -- split.
             ++ intros j u o' b Hu Hc. rewrite threads_put in Hu by exact Hi. destruct (Nat.eqb_spec i j) as [->|Hn].
                ** injection Hu as <-. discriminate.
                ** rewrite (others_idle c i H Hal j u Hu) in Hc by congruence. discriminate.
             ++ intros _. congruence.
        * intros j u Hu Hc. rewrite threads_put in Hu by exact Hi. destruct (Nat.eqb_spec i j) as [->|Hn]; [exact Hal|].
          rewrite (others_idle c i H Hal j u Hu) in Hc by congruence. congruence.
        * intros j u p' Hu Hp. rewrite threads_put in Hu by exact Hi. unfold tlog. simpl. rewrite map_app. simpl. rewrite of_thread_app, of_thread_one.
          destruct (Nat.eqb_spec i j) as [->|Hn].
          -- injection Hu as <-. rewrite Ep in Hp. injection Hp as <-. simpl. split; [exact Hg|]. split.
             ++ rewrite Hd. unfold curop. rewrite Ec. simpl. rewrite map_app, <- app_assoc. reflexivity.
             ++ rewrite Ho. reflexivity.
          -- rewrite app_nil_r. apply (i_thread _ _ H _ _ _ Hu Hp).
        * apply (i_held _ _ H).
        * intros j o' Hin. unfold history in Hin. simpl in Hin. rewrite map_app in Hin. apply in_app_or in Hin.
          destruct Hin as [Hin|[Hin|[]]]; [apply (i_log _ _ H _ _ Hin)|]. simpl in Hin. congruence.
      + eexists. split; [reflexivity|]. apply (inner_step c i t o (Read l k)); auto.
      + eexists. split; [reflexivity|]. apply (inner_step c i t o (Write l f k)); auto.
      + eexists. split; [reflexivity|]. apply (inner_step c i t o (Atomic f k)); auto.
      + simpl in Ha. congruence.
    - destruct (rest t) as [|[| |o] q] eqn:Er; simpl in Hg.
      + eauto.
      + destruct Hg as [Hh Hg]. unfold held_by in Hh. destruct (held c) as [j|] eqn:Ehc.
        * rewrite Hh. eauto.
        * eexists. split; [reflexivity|]. apply outer_step; auto.
          -- rewrite Er. reflexivity.
          -- intros j E. injection E as <-. exact Hit.
          -- intros j u Hu Hn Hc. pose proof (i_allowed _ _ H j u Hu Hc) as X. unfold allowed in *. simpl. destruct sole; congruence.
          -- rewrite Nat.eqb_refl. exact Hg.
          -- intros j Hn. unfold held_by. rewrite Ehc. symmetry. apply Nat.eqb_neq. exact Hn.
      + destruct Hg as [Hh Hg]. rewrite Hh. unfold held_by in Hh. destruct (held c) as [j|] eqn:Ehc; [|discriminate].
        apply Nat.eqb_eq in Hh. subst j. eexists. split; [reflexivity|]. apply outer_step; auto.
        * rewrite Er. reflexivity.
        * intros j E. discriminate.
        * intros j u Hu Hn Hc. pose proof (i_allowed _ _ H j u Hu Hc) as X. unfold allowed in *. simpl. destruct sole; congruence.
        * intros j Hn. unfold held_by. rewrite Ehc. apply Nat.eqb_neq. exact Hn.
      + pose proof (do_allowed c i t o q H Et Ec Er) as Hal. eexists. split; [reflexivity|]. split; simpl.
        * unfold put_thread. rewrite upd_length. apply (i_len _ _ H).
        * exists s1. split; [exact Hs|]. split.
          -- intros j u o' b Hu Hc. rewrite threads_put in Hu by exact Hi. destruct (Nat.eqb_spec i j) as [->|Hn].
             ++ injection Hu as <-. simpl in Hc. injection Hc as <- <-. rewrite Hcall, Hid; [reflexivity|].
                intros u Hu. apply in_nth in Hu. destruct Hu as [j' Hu]. destruct (Nat.eq_dec j' j) as [->|Hn]; [congruence|].
                apply (others_idle c j H Hal j' u Hu Hn).
             ++ rewrite (others_idle c i H Hal j u Hu) in Hc by congruence. discriminate.
          -- intros Hidle. exfalso. specialize (Hidle (mkT (Some (o, code o)) q (outs t))). simpl in Hidle.
             assert (Some (o, code o) = None) as X; [|discriminate]. apply Hidle.
             apply (nth_error_In _ i). rewrite threads_put, Nat.eqb_refl by exact Hi. reflexivity.
        * intros j u Hu Hc. rewrite threads_put in Hu by exact Hi. destruct (Nat.eqb_spec i j) as [->|Hn]; [exact Hal|apply (i_allowed _ _ H j u Hu Hc)].
        * intros j u p' Hu Hp. rewrite threads_put in Hu by exact Hi. destruct (Nat.eqb_spec i j) as [->|Hn].
          -- injection Hu as <-. rewrite Ep in Hp. injection Hp as <-. simpl. split; [apply Hg|]. split; [|exact Ho].
             rewrite Hd. unfold curop. rewrite Ec. reflexivity.
          -- apply (i_thread _ _ H _ _ _ Hu Hp).
        * apply (i_held _ _ H).
        * apply (i_log _ _ H).
  Qed.

  Lemma fork_inv : inv sole (fork s0 ts).
  Proof.
    assert (forall i t, nth_error (threads (@fork S Loc Op Out s0 ts)) i = Some t -> exists p, nth_error ts i = Some p /\ t = mkT None p []) as Ht.
    { intros i t H. unfold fork in H. simpl in H. rewrite nth_error_map in H. destruct (nth_error ts i) as [p|]; [|discriminate].
      injection H as <-. eauto. }
    split; simpl.
    - apply map_length.
    - exists s0. split; [reflexivity|]. split; [|reflexivity].
      intros i t o a H Hc. apply Ht in H. destruct H as (p & _ & ->). discriminate.
    - intros i t H Hc. apply Ht in H. destruct H as (p & _ & ->). simpl in Hc. congruence.
    - intros i t p H Hp. apply Ht in H. destruct H as (p' & Hp' & ->). rewrite Hp in Hp'. injection Hp' as <-. simpl.
      split; [apply (Hguard i p Hp)|]. split; reflexivity.
    - discriminate.
    - intros i o [].
  Qed.
  Lemma crun_inv sch : forall c, inv sole c -> exists c', crun code sch c = inl c' /\ inv sole c'.
  Proof.
    induction sch as [|i sch IH]; simpl; intros c H; [eauto|].
    destruct (cstep_inv i c H) as (c' & -> & H'). apply IH. exact H'.
  Qed.

  Lemma inv_good c : inv sole c -> as_if_sequential call s0 ts c.
  Proof.
    intros H. split.
    - intros (l & i & j & t & u & wi & wj & Hn & Ht & Hu & Ai & Aj & _). apply Hn. apply (allowed_unique sole c).
      + apply (i_allowed _ _ H i t Ht). intros E. unfold access in Ai. rewrite E in Ai. discriminate.
      + apply (i_allowed _ _ H j u Hu). intros E. unfold access in Aj. rewrite E in Aj. discriminate.
    - destruct (i_seq _ _ H) as (s1 & Hs & _ & Hid). eauto.
    - apply (inv_merged _ _ H).
    - intros i t Ht. assert (i < length ts) as Hi by (rewrite <- (i_len _ _ H); apply nth_error_Some; congruence).
      destruct (nth_error ts i) as [p|] eqn:Ep; [|apply nth_error_None in Ep; lia]. apply (i_thread _ _ H _ _ _ Ht Ep).
    - intros Hf i p Hp. assert (i < length (threads c)) as Hi by (rewrite (i_len _ _ H); apply nth_error_Some; congruence).
      destruct (nth_error (threads c) i) as [t|] eqn:Et; [|apply nth_error_None in Et; lia].
      destruct (i_thread _ _ H _ _ _ Et Hp) as (_ & Hd & Ho). destruct (Hf t (nth_error_In _ _ Et)) as [Ec Er].
      rewrite history_tlog, <- Ho, Hd. unfold curop. rewrite Ec, Er. simpl. apply app_nil_r.
    - intros (t & Hin & Hnf). destruct (held c) as [j|] eqn:Eh.
      + pose proof (i_held _ _ H j Eh) as Hj. pose proof Hj as Hj'. rewrite <- (i_len _ _ H) in Hj'. apply nth_error_Some in Hj, Hj'.
        destruct (nth_error (threads c) j) as [u|] eqn:Eu; [|congruence]. destruct (nth_error ts j) as [p|] eqn:Ep; [|congruence].
        destruct (i_thread _ _ H _ _ _ Eu Ep) as (Hg & _ & _). unfold held_by in Hg. rewrite Eh, Nat.eqb_refl in Hg.
        exists u. split; [apply (nth_error_In _ _ Eu)|]. split.
        * intros [_ Er]. rewrite Er in Hg. discriminate.
        * intros (_ & _ & q & Er). rewrite Er in Hg. destruct Hg. discriminate.
      + exists t. split; [exact Hin|]. split; [exact Hnf|]. intros (_ & X & _). congruence.
  Qed.
End Sync.

(** ** threads whose calls are all guarded by the mutex, or all made by one thread *)
Lemma protected_good {S Loc Op Out} (code : Op -> act S Loc Out) (call : Op -> S -> res S Out) (ts : list (list (stm Op))) (s0 : S) :
  (forall o s, alone (code o) s = call o s) -> protected ts ->
  (forall l, merged ts l -> exists outs s', seqrun call (map snd l) s0 = Ret outs s') ->
  forall sch, exists c, crun code sch (fork s0 ts) = inl c /\ as_if_sequential call s0 ts c.
Proof.
  intros Hcall Hp Hok sch.
  assert (exists sole, (forall i p, nth_error ts i = Some p -> guarded (need sole) false p) /\
    (forall j, sole = Some j -> forall i p, nth_error ts i = Some p -> i <> j -> does p = [])) as (sole & Hg & Hs).
  { destruct Hp as [Hp|[j Hp]].
    - exists None. split; [exact Hp|discriminate].
    - exists (Some j). split; [intros i p E; apply (Hp i p E)|]. intros j' E i p Ep. injection E as <-. apply (Hp i p Ep). }
  edestruct (crun_inv code call ts s0) with (c := @fork S Loc Op Out s0 ts) (sch := sch) as (c & E & H); eauto using fork_inv.
  exists c. split; [exact E|]. eapply inv_good; eauto.
Qed.

(** ** every execution can be completed *)
Section Complete.
  Context {S Loc Op Out : Type} (code : Op -> act S Loc Out) (call : Op -> S -> res S Out) (ts : list (list (stm Op))) (s0 : S)
    (Hcall : forall o s, alone (code o) s = call o s)
    (Hok : forall l, merged ts l -> exists outs s', seqrun call (map snd l) s0 = Ret outs s')
    (sole : option nat)
    (Hguard : forall i p, nth_error ts i = Some p -> guarded (need sole) false p)
    (Hsole : forall j, sole = Some j -> forall i p, nth_error ts i = Some p -> i <> j -> does p = []).
  Notation config := (config S Loc Op Out).
  Notation thread := (thread S Loc Op Out).

  Definition tsize (t : thread) : nat := 2 * length (rest t) + match cur t with Some _ => 1 | None => 0 end.
  Definition csize (l : list thread) : nat := list_sum (map tsize l).
  Lemma csize_upd (l : list thread) : forall i t t', nth_error l i = Some t -> csize (upd i t' l) + tsize t = csize l + tsize t'.
  Proof.
    induction l as [|u l IH]; intros [|i] t t' H; simpl in H; try discriminate.
    - injection H as ->. unfold csize. simpl. lia.
    - specialize (IH i t t' H). unfold csize in *. simpl in *. lia.
  Qed.
  Lemma crun_app sch1 sch2 : forall c : config, crun code (sch1 ++ sch2) c = match crun code sch1 c with inl c' => crun code sch2 c' | inr r => inr r end.
  Proof. induction sch1 as [|i sch1 IH]; simpl; intros c; [reflexivity|]. destruct (cstep code i c); auto. Qed.

  Lemma finish_call a : forall c i t o, inv call ts s0 sole c -> nth_error (threads c) i = Some t -> cur t = Some (o, a) ->
    exists sch c', crun code sch c = inl c' /\ inv call ts s0 sole c' /\ csize (threads c') < csize (threads c).
  Proof.
    induction a as [x|l k IH|l f k IH|f k IH|r]; intros c i t o H Et Ec;
      destruct (cstep_inv code call ts s0 Hcall Hok sole Hguard Hsole i c H) as (c1 & E1 & H1);
      pose proof E1 as E1'; unfold cstep in E1; rewrite Et, Ec in E1; try discriminate; injection E1 as E1;
      assert (i < length (threads c)) as Hi by (apply nth_error_Some; congruence).
    1: { exists [i], c1. simpl. rewrite E1'. split; [reflexivity|]. split; [exact H1|]. rewrite <- E1. simpl. unfold put_thread.
         pose proof (csize_upd (threads c) i t (mkT None (rest t) (outs t ++ [(o, x)])) Et) as X. unfold tsize in X. simpl in X. rewrite Ec in X. lia. }
    all: edestruct (IH) with (c := c1) (i := i) as (sch & c' & Er & H' & Hlt);
      [exact H1 | rewrite <- E1; simpl; rewrite threads_put, Nat.eqb_refl by exact Hi; reflexivity | reflexivity |];
      exists (i :: sch), c'; simpl; rewrite E1'; split; [exact Er|]; split; [exact H'|];
      rewrite <- E1 in Hlt; simpl in Hlt; unfold put_thread in Hlt;
      match type of Hlt with _ < csize (upd _ ?t' _) => pose proof (csize_upd (threads c) i t t' Et) as X end;
      unfold tsize in X; simpl in X; rewrite Ec in X; lia.
  Qed.

  Lemma one_more c t : inv call ts s0 sole c -> In t (threads c) -> ~ finished t -> ~ waiting c t ->
    exists sch c', crun code sch c = inl c' /\ inv call ts s0 sole c' /\ csize (threads c') < csize (threads c).
  Proof.
    intros H Hin Hnf Hnw. apply In_nth_error in Hin. destruct Hin as [i Et].
    destruct (cur t) as [[o a]|] eqn:Ec; [apply (finish_call a c i t o H Et Ec)|].
    destruct (cstep_inv code call ts s0 Hcall Hok sole Hguard Hsole i c H) as (c1 & E1 & H1). exists [i], c1. simpl. rewrite E1.
    split; [reflexivity|]. split; [exact H1|]. unfold cstep in E1. rewrite Et, Ec in E1.
    destruct (rest t) as [|[| |o] q] eqn:Er.
    - exfalso. apply Hnf. split; assumption.
    - destruct (held c) as [j|] eqn:Eh.
      + exfalso. apply Hnw. split; [exact Ec|]. split; [congruence|]. eauto.
      + injection E1 as <-. simpl. unfold put_thread. pose proof (csize_upd (threads c) i t (mkT None q (outs t)) Et) as X.
        unfold tsize in X. simpl in X. rewrite Ec, Er in X. simpl in X. lia.
    - destruct (held_by c i); [|discriminate]. injection E1 as <-. simpl. unfold put_thread.
      pose proof (csize_upd (threads c) i t (mkT None q (outs t)) Et) as X. unfold tsize in X. simpl in X. rewrite Ec, Er in X. simpl in X. lia.
    - injection E1 as <-. simpl. unfold put_thread.
      pose proof (csize_upd (threads c) i t (mkT (Some (o, code o)) q (outs t)) Et) as X. unfold tsize in X. simpl in X. rewrite Ec, Er in X. simpl in X. lia.
  Qed.

  Lemma all_finished_or (l : list thread) : (forall t, In t l -> finished t) \/ exists t, In t l /\ ~ finished t.
  Proof.
    induction l as [|t l IH]; [left; intros t []|].
    assert (finished t \/ ~ finished t) as [Hf|Hf].
    { unfold finished. destruct (cur t), (rest t); try (left; split; reflexivity); right; intros [? ?]; discriminate. }
    - destruct IH as [IH|(u & Hu & Hnf)]; [left; intros u [<-|Hu]; auto|right; exists u; split; [right; exact Hu|exact Hnf]].
    - right. exists t. split; [left; reflexivity|exact Hf].
  Qed.
  Lemma completes n : forall c, csize (threads c) < n -> inv call ts s0 sole c ->
    exists sch c', crun code sch c = inl c' /\ forall t, In t (threads c') -> finished t.
  Proof.
    induction n as [|n IH]; intros c Hn H; [lia|].
    destruct (all_finished_or (threads c)) as [Hf|Hf]; [exists [], c; split; [reflexivity|exact Hf]|].
    assert (as_if_sequential call s0 ts c) as Hgood by (eapply inv_good; eauto).
    destruct (progress _ _ _ _ Hgood Hf) as (t & Hin & Hnf & Hnw).
    destruct (one_more c t H Hin Hnf Hnw) as (sch1 & c1 & E1 & H1 & Hlt).
    destruct (IH c1 ltac:(lia) H1) as (sch2 & c2 & E2 & Hf2).
    exists (sch1 ++ sch2), c2. rewrite crun_app, E1. split; assumption.
  Qed.
End Complete.

Lemma protected_sole {Op} (ts : list (list (stm Op))) : protected ts ->
  exists sole, (forall i p, nth_error ts i = Some p -> guarded (need sole) false p) /\
    (forall j, sole = Some j -> forall i p, nth_error ts i = Some p -> i <> j -> does p = []).
Proof.
  intros [Hp|[j Hp]].
  - exists None. split; [exact Hp|discriminate].
  - exists (Some j). split; [intros i p E; apply (Hp i p E)|]. intros j' E i p Ep. injection E as <-. apply (Hp i p Ep).
Qed.
Lemma protected_completes {S Loc Op Out} (code : Op -> act S Loc Out) (call : Op -> S -> res S Out) (ts : list (list (stm Op))) (s0 : S) :
  (forall o s, alone (code o) s = call o s) -> protected ts ->
  (forall l, merged ts l -> exists outs s', seqrun call (map snd l) s0 = Ret outs s') ->
  forall sch, exists sch' c, crun code (sch ++ sch') (fork s0 ts) = inl c /\ forall t, In t (threads c) -> finished t.
Proof.
  intros Hcall Hp Hok sch. destruct (protected_sole ts Hp) as (sole & Hg & Hs).
  edestruct (crun_inv code call ts s0) with (c := @fork S Loc Op Out s0 ts) (sch := sch) as (c & E & H); eauto using fork_inv.
  edestruct (completes code call ts s0) with (c := c) as (sch' & c' & E' & Hf); eauto.
  exists sch', c'. rewrite crun_app, E. split; assumption.
Qed.

(** ** what a finished execution has done *)
Lemma all_idle {S Loc Op Out} (c : config S Loc Op Out) : (forall t, In t (threads c) -> finished t) -> idle c.
Proof. intros H t Ht. apply (H t Ht). Qed.

(** ** randomisers *)
Section Random.
  Context {T G Ds : Type} (next : G -> Z * G) (dmake : T -> T -> Ds) (ddraw : Ds -> draw (T * Ds)).
  Notation rstep := (rstep next dmake ddraw).
  Lemma draw_alone (k : nat) (t : draw (T * Ds)) : forall s,
    alone (draw_code next k t) s = let '((v, d'), g') := feed next t (generator s) in Ret (Some v) (mkRst (set_var (randomisers s) k (Some d')) g').
  Proof.
    induction t as [[v d]|c IH]; intros s; simpl; [reflexivity|]. rewrite IH. simpl. destruct (next (generator s)); reflexivity.
  Qed.
  Lemma rop_alone (o : rop T) s : alone (rop_code next dmake ddraw o) s = rstep o s.
  Proof.
    destruct o as [k a b|k]; [reflexivity|]. simpl. unfold bind, get. destruct (randomisers s k) as [d|]; [|reflexivity].
    rewrite draw_alone. destruct (feed next (ddraw d) (generator s)) as [[v d'] g']. reflexivity.
  Qed.
  Lemma seqrun_rrun (p : list (rop T)) : forall s, seqrun rstep p s = rrun next dmake ddraw p s.
  Proof.
    reflexivity.
  Qed.
  Lemma merged_prefix {Op} (ts : list (list (stm Op))) l x : merged ts (l ++ [x]) -> merged ts l.
  Proof.
    intros [H1 H2]. split.
    - intros i o Hin. apply (H1 i o). apply in_or_app. auto.
    - intros i p Hp. destruct (H2 i p Hp) as (q & E). rewrite of_thread_app, <- app_assoc in E. eauto.
  Qed.
  Lemma rstep_keeps (o : rop T) s x s' k : rstep o s = Ret x s' -> randomisers s k <> None -> randomisers s' k <> None.
  Proof.
    destruct o as [k' a b|k']; simpl; unfold bind, construct, get.
    - intros E. injection E as <- <-. simpl. unfold set_var. destruct (Nat.eqb _ _); congruence.
    - destruct (randomisers s k') as [d|]; [|discriminate]. destruct (feed next (ddraw d) (generator s)) as [[v d'] g'].
      intros E. injection E as <- <-. simpl. unfold set_var. destruct (Nat.eqb _ _); congruence.
  Qed.
  Lemma merged_defined (ts : list (list (stm (rop T)))) (s0 : rst G Ds) :
    (forall i p, nth_error ts i = Some p -> constructed_before s0 p) ->
    forall l, merged ts l -> exists outs s', seqrun rstep (map snd l) s0 = Ret outs s' /\
      forall k, randomisers s0 k <> None \/ (exists i a b, In (i, RNew k a b) l) -> randomisers s' k <> None.
  Proof.
    intros Hb l. induction l as [|[i o] l IH] using rev_ind; intros Hm.
    - exists [], s0. split; [reflexivity|]. intros k [H|(i & a & b & [])]. exact H.
    - destruct (IH (merged_prefix _ _ _ Hm)) as (outs & s1 & E & Hk). rewrite map_app. simpl. rewrite (seqrun_app _ _ _ _ _ _ E). simpl.
      assert (exists x s2, rstep o s1 = Ret x s2) as (x & s2 & Eo).
      { destruct o as [k a b|k]; [simpl; unfold bind, construct; eauto|].
        assert (randomisers s1 k <> None) as Hn.
        { apply Hk. destruct Hm as [Hm1 Hm2].
          assert (i < length ts) as Hi by (apply (Hm1 i (RGet k)); apply in_or_app; right; left; reflexivity).
          destruct (nth_error ts i) as [p|] eqn:Ep; [|apply nth_error_None in Ep; lia].
          destruct (Hm2 i p Ep) as (q & Eq). rewrite of_thread_app, of_thread_one, Nat.eqb_refl, <- app_assoc in Eq. simpl in Eq.
          destruct (Hb i p Ep (length (of_thread i l)) k) as [H|(a & b & H)].
          - rewrite Eq, nth_error_app2 by lia. rewrite Nat.sub_diag. reflexivity.
          - left. exact H.
          - right. exists i, a, b. rewrite Eq, firstn_app, Nat.sub_diag, firstn_O, app_nil_r, firstn_all in H.
            unfold of_thread in H. apply in_map_iff in H. destruct H as ([j o'] & <- & Hf). apply filter_In in Hf. destruct Hf as [Hf He].
            simpl in He. apply Nat.eqb_eq in He. subst j. exact Hf. }
        simpl. unfold bind, get. destruct (randomisers s1 k) as [d|]; [|congruence].
        destruct (feed next (ddraw d) (generator s1)) as [[v d'] g']. eauto. }
      rewrite Eo. exists (outs ++ [x]), s2. split; [reflexivity|]. intros k Hin.
      assert (randomisers s1 k <> None \/ exists a b, o = RNew k a b) as [H|(a & b & ->)].
      { destruct Hin as [H|(j & a & b & H)]; [left; apply Hk; auto|]. apply in_app_or in H. destruct H as [H|[H|[]]]; [left; apply Hk; eauto 6|].
        injection H as <- ->. eauto. }
      + apply (rstep_keeps o s1 x s2 k Eo H).
      + simpl in Eo. unfold bind, construct in Eo. injection Eo as <- <-. simpl. rewrite set_var_eq. congruence.
  Qed.
  Lemma random_good (ts : list (list (stm (rop T)))) (s0 : rst G Ds) : protected ts ->
    (forall i p, nth_error ts i = Some p -> constructed_before s0 p) ->
    forall sch, exists c, crun (rop_code next dmake ddraw) sch (fork s0 ts) = inl c /\ as_if_sequential rstep s0 ts c /\
      (idle c -> exists cs n, concat cs = outputs next n (generator s0) /\ generator (shared c) = advance next n (generator s0) /\
        draws dmake ddraw (randomisers s0) (map snd (history c)) cs (results c) (randomisers (shared c))) /\
      exists sch' c', crun (rop_code next dmake ddraw) (sch ++ sch') (fork s0 ts) = inl c' /\ forall t, In t (threads c') -> finished t.
  Proof.
    intros Hp Hb sch.
    assert (forall l, merged ts l -> exists outs s', seqrun rstep (map snd l) s0 = Ret outs s') as Hok.
    { intros l Hm. destruct (merged_defined ts s0 Hb l Hm) as (o & s' & E & _). eauto. }
    destruct (protected_good (rop_code next dmake ddraw) rstep ts s0 rop_alone Hp Hok sch) as (c & E & Hg).
    exists c. split; [exact E|]. split; [exact Hg|]. split.
    - intros Hi. destruct (sequential _ _ _ _ Hg) as (s1 & Es & Hs). rewrite (Hs Hi). rewrite seqrun_rrun in Es. apply (rrun_draws next dmake ddraw _ _ _ _ Es).
    - apply (protected_completes (rop_code next dmake ddraw) rstep ts s0 rop_alone Hp Hok sch).
  Qed.
End Random.

(** ** two threads that draw without the mutex *)
Lemma draws_race {T G Ds} (next : G -> Z * G) (dmake : T -> T -> Ds) (ddraw : Ds -> draw (T * Ds)) (ts : list (list (stm (rop T)))) (s0 : rst G Ds)
  i j k k' d d' c c' p q : i <> j -> nth_error ts i = Some (StDo (RGet k) :: p) -> nth_error ts j = Some (StDo (RGet k') :: q) ->
  randomisers s0 k = Some d -> randomisers s0 k' = Some d' -> ddraw d = Ask c -> ddraw d' = Ask c' ->
  exists sch cf, crun (rop_code next dmake ddraw) sch (fork s0 ts) = inl cf /\ race_at LEngine cf.
Proof.
  intros Hn Hi Hj Hk Hk' Hd Hd'. exists [i; i; i; j; j].
  assert (i < length ts) as Li by (apply nth_error_Some; congruence). assert (j < length ts) as Lj by (apply nth_error_Some; congruence).
  set (f := fun p : list (stm (rop T)) => mkT (None : option (rop T * act (rst G Ds) rloc (option T))) p ([] : list (rop T * option T))).
  assert (forall l : list (thread (rst G Ds) rloc (rop T) (option T)), length l = length ts -> forall t, nth_error (upd i t l) i = Some t) as Ui.
  { intros l El t. apply nth_error_upd_eq. lia. }
  assert (forall l : list (thread (rst G Ds) rloc (rop T) (option T)), length l = length ts -> forall t, nth_error (upd j t l) j = Some t) as Uj.
  { intros l El t. apply nth_error_upd_eq. lia. }
  unfold crun, fork. unfold cstep at 1. cbn [threads]. fold f. rewrite nth_error_map, Hi. cbn [option_map f cur rest outs].
  unfold put_thread. cbn [threads shared held log rop_code].
  unfold cstep at 1. cbn [threads]. rewrite Ui by apply map_length. cbn [cur rest outs shared]. rewrite Hk, Hd. unfold put_thread. cbn [threads shared held log draw_code].
  unfold cstep at 1. cbn [threads]. rewrite Ui by (rewrite upd_length; apply map_length). cbn [cur rest outs shared]. unfold put_thread. cbn [threads shared held log].
  unfold cstep at 1. cbn [threads]. rewrite !nth_error_upd_neq by congruence. rewrite nth_error_map, Hj. cbn [option_map f cur rest outs]. unfold put_thread. cbn [threads shared held log rop_code].
  unfold cstep at 1. cbn [threads]. rewrite Uj by (rewrite !upd_length; apply map_length). cbn [cur rest outs shared]. rewrite Hk', Hd'. unfold put_thread. cbn [threads shared held log draw_code].
  eexists. split; [reflexivity|]. unfold race_at. cbn [threads].
  exists i, j. do 4 eexists. split; [exact Hn|]. split.
  { rewrite !nth_error_upd_neq by congruence. apply Ui. rewrite !upd_length. apply map_length. }
  split; [apply Uj; rewrite !upd_length; apply map_length|]. split; [reflexivity|]. split; [reflexivity|]. reflexivity.
Qed.
(** both threads may get the same output of the engine *)
Lemma draws_same {T G Ds} (next : G -> Z * G) (dmake : T -> T -> Ds) (ddraw : Ds -> draw (T * Ds)) (s0 : rst G Ds) k k' d d' f f' :
  randomisers s0 k = Some d -> randomisers s0 k' = Some d' -> ddraw d = Ask (fun z => Done (f z)) -> ddraw d' = Ask (fun z => Done (f' z)) ->
  exists sch c, crun (rop_code next dmake ddraw) sch (fork s0 [[StDo (RGet k)]; [StDo (RGet k')]]) = inl c /\ (forall t, In t (threads c) -> finished t) /\
    map outs (threads c) = [[(RGet k, Some (fst (f (fst (next (generator s0))))))]; [(RGet k', Some (fst (f' (fst (next (generator s0))))))]] /\
    generator (shared c) = snd (next (generator s0)).
Proof.
  intros Hk Hk' Hd Hd'. exists [0; 0; 0; 1; 1; 1; 0; 1; 0; 0; 1; 1].
  unfold crun, fork. cbn [map].
  unfold cstep at 1. cbn [threads nth_error cur rest outs shared held log put_thread upd rop_code].
  unfold cstep at 1. cbn [threads nth_error cur rest outs shared held log put_thread upd]. rewrite Hk, Hd. cbn [draw_code].
  unfold cstep at 1. cbn [threads nth_error cur rest outs shared held log put_thread upd].
  unfold cstep at 1. cbn [threads nth_error cur rest outs shared held log put_thread upd rop_code].
  unfold cstep at 1. cbn [threads nth_error cur rest outs shared held log put_thread upd]. rewrite Hk', Hd'. cbn [draw_code].
  do 7 (unfold cstep at 1; cbn [threads nth_error cur rest outs shared held log put_thread upd]).
  eexists. split; [reflexivity|]. split; [|split; reflexivity].
  cbn [threads In]. intros t [<-|[<-|[]]]; split; reflexivity.
Qed.

(** ** failed checks *)
Definition check_call (o : check) (n : Z) : res Z unit :=
  match o with
  | CheckPasses => Ret tt n
  | CheckFails => if (n <? 2 ^ 31 - 1)%Z then Ret tt (n + 1)%Z else Ub UbOverflow
  end.
Lemma check_alone o n : alone (check_code o) n = check_call o n.
Proof. destruct o; simpl; [reflexivity|]. destruct (n <? _)%Z; reflexivity. Qed.
Lemma failed_nonneg l : (0 <= failed l)%Z.
Proof. induction l as [|[] l IH]; cbn [failed]; lia. Qed.
Lemma failed_app l1 l2 : failed (l1 ++ l2) = (failed l1 + failed l2)%Z.
Proof. induction l1 as [|[] l1 IH]; cbn [failed app]; lia. Qed.
Lemma seqrun_checks l : forall n, (n + failed l < 2 ^ 31)%Z ->
  exists o, seqrun check_call l n = Ret o (n + failed l)%Z.
Proof.
  induction l as [|o l IH]; intros n H.
  - exists []. simpl. f_equal. lia.
  - pose proof (failed_nonneg l). destruct o; cbn [failed seqrun check_call] in *.
    + destruct (IH n H) as (x & ->). eauto.
    + replace (n <? 2 ^ 31 - 1)%Z with true by (symmetry; apply Z.ltb_lt; lia).
      destruct (IH (n + 1)%Z ltac:(lia)) as (x & ->). exists (tt :: x). f_equal. lia.
Qed.
(** by threads *)
Fixpoint sum_threads (k n : nat) (l : list (nat * check)) : Z :=
  match n with O => 0%Z | S n' => (failed (of_thread k l) + sum_threads (S k) n' l)%Z end.
Lemma sum_threads_cons i o n l : forall k, sum_threads k n ((i, o) :: l) =
  (sum_threads k n l + (if ((k <=? i) && (i <? k + n))%nat then failed [o] else 0))%Z.
Proof.
  induction n as [|n IH]; intros k; cbn [sum_threads].
  - destruct (Nat.leb_spec k i), (Nat.ltb_spec i (k + 0)); simpl; lia.
  - rewrite IH.
    assert (failed (of_thread k ((i, o) :: l)) = (failed (of_thread k l) + if Nat.eqb i k then failed [o] else 0)%Z) as ->.
    { unfold of_thread. cbn [filter fst]. destruct (Nat.eqb i k); [|lia]. cbn [map snd]. destruct o; cbn [failed]; lia. }
    destruct (Nat.eqb_spec i k), (Nat.leb_spec (S k) i), (Nat.leb_spec k i), (Nat.ltb_spec i (S k + n)), (Nat.ltb_spec i (k + S n)); cbn [andb]; lia.
Qed.
Lemma sum_threads_all n l : (forall i o, In (i, o) l -> i < n) -> sum_threads 0 n l = failed (map snd l).
Proof.
  intros H. induction l as [|[i o] l IH].
  - simpl. assert (forall k, sum_threads k n [] = 0%Z) as X; [|apply X]. induction n as [|n IHn]; intros k; simpl; [reflexivity|]. rewrite IHn; [reflexivity|]. intros ? ? [].
  - rewrite sum_threads_cons, IH by (intros; apply (H i0 o0); right; assumption).
    assert (i < n) as Hi by (apply (H i o); left; reflexivity). cbn [map snd].
    destruct (Nat.leb_spec 0 i); [|lia]. destruct (Nat.ltb_spec i (0 + n)); [|lia]. cbn [andb]. destruct o; cbn [failed]; lia.
Qed.
Lemma sum_threads_le ts l : (forall i p, nth_error ts i = Some p -> exists q, does p = of_thread i l ++ q) ->
  (sum_threads 0 (length ts) l <= total_failed ts)%Z /\
  ((forall i p, nth_error ts i = Some p -> does p = of_thread i l) -> sum_threads 0 (length ts) l = total_failed ts).
Proof.
  assert (forall ts k, (forall i p, nth_error ts i = Some p -> exists q, does p = of_thread (k + i) l ++ q) ->
    (sum_threads k (length ts) l <= total_failed ts)%Z /\
    ((forall i p, nth_error ts i = Some p -> does p = of_thread (k + i) l) -> sum_threads k (length ts) l = total_failed ts)) as X; [|apply (X ts 0)].
  clear ts. induction ts as [|p ts IH]; intros k H; simpl; [split; intros; lia|].
  destruct (IH (S k)) as [IH1 IH2].
  { intros i p' Hp. destruct (H (S i) p' Hp) as (q & E). exists q. rewrite E. do 2 f_equal. lia. }
  split.
  - destruct (H 0 p eq_refl) as (q & E). rewrite Nat.add_0_r in E. pose proof (failed_nonneg q). rewrite E, failed_app. lia.
  - intros Ha. rewrite IH2.
    + pose proof (Ha 0 p eq_refl) as E. rewrite Nat.add_0_r in E. rewrite E. reflexivity.
    + intros i p' Hp. rewrite (Ha (S i) p' Hp). f_equal. lia.
Qed.
Lemma checks_good (ts : list (list (stm check))) (n : Z) : protected ts -> (n + total_failed ts < 2 ^ 31)%Z ->
  forall sch, exists c, crun check_code sch (fork n ts) = inl c /\ ~ race c /\
    (idle c -> shared c = (n + failed (map snd (history c)))%Z) /\
    ((forall t, In t (threads c) -> finished t) -> shared c = (n + total_failed ts)%Z) /\
    exists sch' c', crun check_code (sch ++ sch') (fork n ts) = inl c' /\ forall t, In t (threads c') -> finished t.
Proof.
  intros Hp Hn sch.
  assert (forall l, merged ts l -> (n + failed (map snd l) < 2 ^ 31)%Z) as Hlt.
  { intros l [H1 H2]. rewrite <- (sum_threads_all _ _ H1). destruct (sum_threads_le ts l H2). lia. }
  assert (forall l, merged ts l -> exists outs s', seqrun check_call (map snd l) n = Ret outs s') as Hok.
  { intros l Hm. destruct (seqrun_checks (map snd l) n (Hlt l Hm)) as (o & ->). eauto. }
  destruct (protected_good check_code check_call ts n check_alone Hp Hok sch) as (c & E & Hg).
  exists c. split; [exact E|]. split; [apply (no_race _ _ _ _ Hg)|].
  assert (idle c -> shared c = (n + failed (map snd (history c)))%Z) as Hs.
  { intros Hi. destruct (sequential _ _ _ _ Hg) as (s1 & Es & Hs). rewrite (Hs Hi).
    destruct (seqrun_checks _ n (Hlt _ (in_order _ _ _ _ Hg))) as (o & E'). rewrite E' in Es. injection Es as _ <-. reflexivity. }
  split; [exact Hs|]. split.
  - intros Hf. rewrite (Hs (all_idle c Hf)). destruct (in_order _ _ _ _ Hg) as [H1 H2]. rewrite <- (sum_threads_all _ _ H1).
    f_equal. apply (sum_threads_le ts _ H2). apply (all_made _ _ _ _ Hg Hf).
  - apply (protected_completes check_code check_call ts n check_alone Hp Hok sch).
Qed.
(** two threads whose first check fails: the memory of the counter is raced for, and one of the two increments may be lost *)
Lemma checks_race (ts : list (list (stm check))) (n : Z) i j p q : i <> j -> (n < 2 ^ 31 - 1)%Z ->
  nth_error ts i = Some (StDo CheckFails :: p) -> nth_error ts j = Some (StDo CheckFails :: q) ->
  (exists sch c, crun check_code sch (fork n ts) = inl c /\ race c) /\
  (exists sch c, crun check_code sch (fork n ts) = inl c /\ idle c /\ map snd (history c) = [CheckFails; CheckFails] /\ shared c = (n + 1)%Z).
Proof.
  intros Hn Hb Hi Hj.
  assert (i < length ts) as Li by (apply nth_error_Some; congruence). assert (j < length ts) as Lj by (apply nth_error_Some; congruence).
  set (f := fun p : list (stm check) => mkT (None : option (check * act Z unit unit)) p ([] : list (check * unit))).
  assert (forall l : list (thread Z unit check unit), length l = length ts -> forall t, nth_error (upd i t l) i = Some t) as Ui.
  { intros l El t. apply nth_error_upd_eq. lia. }
  assert (forall l : list (thread Z unit check unit), length l = length ts -> forall t, nth_error (upd j t l) j = Some t) as Uj.
  { intros l El t. apply nth_error_upd_eq. lia. }
  assert ((n <? 2 ^ 31 - 1)%Z = true) as En by (apply Z.ltb_lt; exact Hb).
  set (t1 := mkT (Some (CheckFails, check_code CheckFails)) p ([] : list (check * unit))).
  set (u1 := mkT (Some (CheckFails, check_code CheckFails)) q ([] : list (check * unit))).
  set (t2 := mkT (Some (CheckFails, Write tt (fun _ => (n + 1)%Z) (Fin tt))) p ([] : list (check * unit))).
  set (u2 := mkT (Some (CheckFails, Write tt (fun _ => (n + 1)%Z) (Fin tt))) q ([] : list (check * unit))).
  assert (crun check_code [i; j; i; j] (fork n ts) = inl (mkC n None (upd j u2 (upd i t2 (upd j u1 (upd i t1 (map f ts))))) [])) as E1.
  { unfold crun, fork. fold f. unfold cstep at 1. cbn [threads]. rewrite nth_error_map, Hi. cbn [option_map f cur rest outs threads shared held log]. unfold put_thread. cbn [threads shared held log].
    unfold cstep at 1. cbn [threads]. rewrite nth_error_upd_neq, nth_error_map, Hj by congruence. cbn [option_map f cur rest outs threads shared held log]. unfold put_thread. cbn [threads shared held log].
    fold t1 u1.
    unfold cstep at 1. cbn [threads]. rewrite nth_error_upd_neq, Ui by (congruence || apply map_length).
    cbn [cur t1 check_code rest outs threads shared held log]. unfold put_thread. cbn [threads shared held log]. rewrite En.
    unfold cstep at 1. cbn [threads]. rewrite nth_error_upd_neq, Uj by (congruence || (rewrite upd_length; apply map_length)).
    cbn [cur u1 check_code rest outs threads shared held log]. unfold put_thread. cbn [threads shared held log]. rewrite En. reflexivity. }
  split.
  - exists [i; j; i; j]. eexists. split; [exact E1|]. exists tt, i, j, t2, u2, true, true. cbn [threads].
    split; [exact Hn|]. split; [rewrite nth_error_upd_neq, Ui by (congruence || (rewrite !upd_length; apply map_length)); reflexivity|].
    split; [apply Uj; rewrite !upd_length; apply map_length|]. repeat split; reflexivity.
  - exists ([i; j; i; j] ++ [i; j; i; j]). rewrite crun_app, E1. unfold crun.
    unfold cstep at 1. cbn [threads]. rewrite nth_error_upd_neq, Ui by (congruence || (rewrite !upd_length; apply map_length)). cbn [cur t2 rest outs threads shared held log]. unfold put_thread. cbn [threads shared held log].
    unfold cstep at 1. cbn [threads]. rewrite nth_error_upd_neq, Uj by (congruence || (rewrite !upd_length; apply map_length)). cbn [cur u2 rest outs threads shared held log]. unfold put_thread. cbn [threads shared held log].
    unfold cstep at 1. cbn [threads]. rewrite nth_error_upd_neq, Ui by (congruence || (rewrite !upd_length; apply map_length)). cbn [cur rest outs threads shared held log]. unfold put_thread. cbn [threads shared held log].
    unfold cstep at 1. cbn [threads]. rewrite nth_error_upd_neq, Uj by (congruence || (rewrite !upd_length; apply map_length)). cbn [cur rest outs threads shared held log]. unfold put_thread. cbn [threads shared held log].
    eexists. split; [reflexivity|]. split; [|split; reflexivity].
    unfold idle. cbn [threads]. intros t Ht. apply In_nth_error in Ht. destruct Ht as [k Ht].
    destruct (Nat.eq_dec k j) as [->|Hkj]; [rewrite Uj in Ht by (rewrite !upd_length; apply map_length); injection Ht as <-; reflexivity|].
    rewrite nth_error_upd_neq in Ht by congruence.
    destruct (Nat.eq_dec k i) as [->|Hki]; [rewrite Ui in Ht by (rewrite !upd_length; apply map_length); injection Ht as <-; reflexivity|].
    rewrite !nth_error_upd_neq in Ht by congruence. rewrite nth_error_map in Ht. destruct (nth_error ts k); [|discriminate]. injection Ht as <-. reflexivity.
Qed.

(** ** reports *)
Section Reports.
  Context {text : Type}.
  Definition report_call (o : report text) (s : rep text) : res (rep text) unit :=
    match o with
    | Warn l => Ret tt (mkRep (first_time s) (err s ++ l))
    | Once site l => if first_time s site then Ret tt (mkRep (set_var (first_time s) site false) (err s ++ l)) else Ret tt s
    end.
  Lemma insertions_alone (l : list text) : forall s, alone (insertions l) s = Ret tt (mkRep (first_time s) (err s ++ l)).
  Proof.
    induction l as [|x l IH]; intros s; simpl; [rewrite app_nil_r; destruct s; reflexivity|].
    rewrite IH. simpl. rewrite <- app_assoc. reflexivity.
  Qed.
  Lemma report_alone (o : report text) s : alone (report_code o) s = report_call o s.
  Proof.
    destruct o as [l|site l]; simpl; [apply insertions_alone|]. destruct (first_time s site); [|reflexivity].
    simpl. rewrite insertions_alone. reflexivity.
  Qed.
  Lemma reported_ext (l : list (report text)) : forall f g, (forall k, f k = g k) -> reported f l = reported g l.
  Proof.
    induction l as [|[x|site x] l IH]; intros f g H; simpl; [reflexivity|rewrite (IH f g H); reflexivity|].
    rewrite (H site). f_equal. apply IH. intros k. rewrite (H k). reflexivity.
  Qed.
  Lemma seqrun_reports (l : list (report text)) : forall s,
    exists o s', seqrun report_call l s = Ret o s' /\ err s' = err s ++ reported (fun k => negb (first_time s k)) l.
  Proof.
    induction l as [|[x|site x] l IH]; intros s; cbn [seqrun report_call reported].
    - exists [], s. rewrite app_nil_r. split; reflexivity.
    - destruct (IH (mkRep (first_time s) (err s ++ x))) as (o & s' & -> & E). exists (tt :: o), s'. split; [reflexivity|].
      rewrite E. simpl. rewrite <- app_assoc. reflexivity.
    - destruct (first_time s site) eqn:Ef; cbn [negb].
      + destruct (IH (mkRep (set_var (first_time s) site false) (err s ++ x))) as (o & s' & -> & E). exists (tt :: o), s'. split; [reflexivity|].
        rewrite E. simpl. rewrite <- app_assoc. do 2 f_equal. apply reported_ext. intros k. simpl. unfold set_var. destruct (Nat.eqb_spec k site), (Nat.eqb_spec site k); try congruence; reflexivity.
      + destruct (IH s) as (o & s' & -> & E). exists (tt :: o), s'. split; [reflexivity|]. rewrite E. simpl. f_equal. apply reported_ext.
        intros k. destruct (Nat.eqb_spec k site) as [->|]; [rewrite Ef|]; reflexivity.
  Qed.
  Lemma reports_good (ts : list (list (stm (report text)))) (s0 : rep text) : protected ts ->
    forall sch, exists c, crun report_code sch (fork s0 ts) = inl c /\ ~ race c /\ merged ts (history c) /\
      (idle c -> err (shared c) = err s0 ++ reported (fun k => negb (first_time s0 k)) (map snd (history c))) /\
      exists sch' c', crun report_code (sch ++ sch') (fork s0 ts) = inl c' /\ forall t, In t (threads c') -> finished t.
  Proof.
    intros Hp sch.
    assert (forall l, merged ts l -> exists outs s', seqrun report_call (map snd l) s0 = Ret outs s') as Hok.
    { intros l _. destruct (seqrun_reports (map snd l) s0) as (o & s' & E & _). eauto. }
    destruct (protected_good report_code report_call ts s0 report_alone Hp Hok sch) as (c & E & Hg).
    exists c. split; [exact E|]. split; [apply (no_race _ _ _ _ Hg)|]. split; [apply (in_order _ _ _ _ Hg)|]. split.
    - intros Hi. destruct (sequential _ _ _ _ Hg) as (s1 & Es & Hs). rewrite (Hs Hi).
      destruct (seqrun_reports (map snd (history c)) s0) as (o & s' & E' & Ee). rewrite E' in Es. injection Es as _ <-. exact Ee.
    - apply (protected_completes report_code report_call ts s0 report_alone Hp Hok sch).
  Qed.

  (** *** HELPER_NOTIFY, HELPER_WARN and HELPER_ERROR without a mutex *)
  Definition trem (t : thread (rep text) nat (report text) unit) (r : list text) : Prop :=
    match cur t with Some (_, a) => a = insertions r | None => r = [] end.
  Definition winv (ts : list (list (stm (report text)))) (s0 : rep text) (c : config (rep text) nat (report text) unit) (w : list (nat * text)) : Prop :=
    length (threads c) = length ts /\ err (shared c) = err s0 ++ map snd w /\ (forall i x, In (i, x) w -> i < length ts) /\
    (forall j, held c = Some j -> j < length ts) /\
    forall i t p, nth_error (threads c) i = Some t -> nth_error ts i = Some p ->
      guarded false (held_by c i) (rest t) /\ warns (rest t) /\ exists r, trem t r /\ inserts p = of_thread i w ++ r ++ inserts (rest t).
  Lemma winv_step ts s0 c w i : winv ts s0 c w -> exists c' w', cstep report_code i c = inl c' /\ winv ts s0 c' w'.
  Proof.
    intros (Hl & He & Hw & Hh & Ht). unfold cstep. destruct (nth_error (threads c) i) as [t|] eqn:Et; [|unfold winv; eauto 10].
    assert (i < length (threads c)) as Hi by (apply nth_error_Some; congruence).
    assert (i < length ts) as Hit by lia.
    destruct (nth_error ts i) as [p|] eqn:Ep; [|apply nth_error_None in Ep; lia].
    destruct (Ht i t p Et Ep) as (Hg & Hws & r & Hr & Hi'). unfold trem in Hr.
    assert (forall t' r', trem t' r' -> guarded false (held_by c i) (rest t') -> warns (rest t') -> r ++ inserts (rest t) = r' ++ inserts (rest t') -> forall lg,
      winv ts s0 (mkC (shared c) (held c) (put_thread c i t') lg) w) as Hsame.
    { intros t' r' Hr' Hg' Hw' Eq lg. split; [simpl; unfold put_thread; rewrite upd_length; exact Hl|]. split; [exact He|]. split; [exact Hw|]. split; [exact Hh|].
      cbn [threads]. intros j u p' Hu Hp'. rewrite threads_put in Hu by exact Hi. destruct (Nat.eqb_spec i j) as [->|Hn]; [|apply (Ht j u p' Hu Hp')].
      injection Hu as <-. rewrite Ep in Hp'. injection Hp' as <-. split; [exact Hg'|]. split; [exact Hw'|]. exists r'. split; [exact Hr'|]. rewrite <- Eq. exact Hi'. }
    destruct (cur t) as [[o a]|] eqn:Ec.
    - subst a. destruct r as [|x r]; cbn [insertions].
      + eexists. exists w. split; [reflexivity|]. apply (Hsame _ []); auto; reflexivity.
      + eexists. exists (w ++ [(i, x)]). split; [reflexivity|].
        split; [simpl; unfold put_thread; rewrite upd_length; exact Hl|]. split; [simpl; rewrite He, map_app, app_assoc; reflexivity|]. split.
        { intros j y Hin. apply in_app_or in Hin. destruct Hin as [Hin|[Hin|[]]]; [apply (Hw j y Hin)|congruence]. }
        split; [exact Hh|]. cbn [threads]. intros j u p' Hu Hp'. rewrite threads_put in Hu by exact Hi. rewrite of_thread_app, of_thread_one. destruct (Nat.eqb_spec i j) as [->|Hn].
        * injection Hu as <-. rewrite Ep in Hp'. injection Hp' as <-. split; [exact Hg|]. split; [exact Hws|]. exists r. split; [reflexivity|].
          rewrite Hi'. simpl. rewrite <- app_assoc. reflexivity.
        * rewrite app_nil_r. apply (Ht j u p' Hu Hp').
    - subst r. destruct (rest t) as [|[| |o] q] eqn:Er; simpl in Hg.
      + exists c, w. split; [reflexivity|]. unfold winv. auto.
      + destruct Hg as [Hhb Hg]. unfold held_by in Hhb. destruct (held c) as [j|] eqn:Ehc.
        * rewrite Hhb. exists c, w. split; [reflexivity|]. unfold winv. rewrite Ehc. auto.
        * eexists. exists w. split; [reflexivity|]. split; [simpl; unfold put_thread; rewrite upd_length; exact Hl|]. split; [exact He|]. split; [exact Hw|].
          split; [intros j E; injection E as <-; exact Hit|].
          cbn [threads]. intros j u p' Hu Hp'. rewrite threads_put in Hu by exact Hi. unfold held_by. cbn [held]. destruct (Nat.eqb_spec i j) as [->|Hn].
          -- injection Hu as <-. rewrite Ep in Hp'. injection Hp' as <-. rewrite Nat.eqb_refl. split; [exact Hg|]. split; [exact Hws|]. exists []. split; [reflexivity|]. exact Hi'.
          -- destruct (Ht j u p' Hu Hp') as (Hg' & Hrest). unfold held_by in Hg'. rewrite Ehc in Hg'. rewrite (proj2 (Nat.eqb_neq j i)) by congruence. auto.
      + destruct Hg as [Hhb Hg]. rewrite Hhb. unfold held_by in Hhb. destruct (held c) as [j|] eqn:Ehc; [|discriminate]. apply Nat.eqb_eq in Hhb. subst j.
        eexists. exists w. split; [reflexivity|]. split; [simpl; unfold put_thread; rewrite upd_length; exact Hl|]. split; [exact He|]. split; [exact Hw|].
        split; [discriminate|].
        cbn [threads]. intros j u p' Hu Hp'. rewrite threads_put in Hu by exact Hi. unfold held_by. cbn [held]. destruct (Nat.eqb_spec i j) as [->|Hn].
        * injection Hu as <-. rewrite Ep in Hp'. injection Hp' as <-. split; [exact Hg|]. split; [exact Hws|]. exists []. split; [reflexivity|]. exact Hi'.
        * destruct (Ht j u p' Hu Hp') as (Hg' & Hrest). unfold held_by in Hg'. rewrite Ehc in Hg'. rewrite (proj2 (Nat.eqb_neq j i)) in Hg' by congruence. auto.
      + destruct o as [l|site l]; [|exfalso; apply (Hws site l); left; reflexivity].
        eexists. exists w. split; [reflexivity|]. apply (Hsame _ l); auto.
        * reflexivity.
        * apply Hg.
        * intros site x Hin. apply (Hws site x). right. exact Hin.
  Qed.
  Lemma warns_good (ts : list (list (stm (report text)))) (s0 : rep text) :
    (forall p, In p ts -> warns p /\ guarded false false p) ->
    forall sch, exists c w, crun report_code sch (fork s0 ts) = inl c /\ ~ race c /\ err (shared c) = err s0 ++ w /\ interleaves (map inserts ts) w /\
      ((forall t, In t (threads c) -> finished t) -> length w = list_sum (map (fun p => length (inserts p)) ts)).
  Proof.
    intros Hts sch.
    assert (forall sch c w, winv ts s0 c w -> exists c' w', crun report_code sch c = inl c' /\ winv ts s0 c' w') as Hrun.
    { clear sch. induction sch as [|i sch IH]; simpl; intros c w H; [eauto|]. destruct (winv_step ts s0 c w i H) as (c' & w' & -> & H'). apply (IH c' w' H'). }
    destruct (Hrun sch (fork s0 ts) []) as (c & w & E & Hl & He & Hw & Hh & Ht).
    { split; [apply map_length|]. split; [simpl; rewrite app_nil_r; reflexivity|]. split; [intros i x []|]. split; [discriminate|].
      intros i t p H Hp. simpl in H. rewrite nth_error_map, Hp in H. injection H as <-. simpl.
      destruct (Hts p (nth_error_In _ _ Hp)) as [H1 H2]. split; [exact H2|]. split; [exact H1|]. exists []. split; reflexivity. }
    exists c, (map snd w). split; [exact E|].
    assert (forall i t, nth_error (threads c) i = Some t -> exists p, nth_error ts i = Some p) as Hts'.
    { intros i t H. assert (i < length ts) as Hi by (rewrite <- Hl; apply nth_error_Some; congruence).
      destruct (nth_error ts i) as [p|] eqn:Ep; [eauto|apply nth_error_None in Ep; lia]. }
    assert (forall i p, nth_error ts i = Some p -> exists t, nth_error (threads c) i = Some t) as Hts2.
    { intros i p H. assert (i < length (threads c)) as Hi by (rewrite Hl; apply nth_error_Some; congruence).
      destruct (nth_error (threads c) i) as [t|] eqn:Ep; [eauto|apply nth_error_None in Ep; lia]. }
    split.
    { intros (l & i & j & t & u & wi & wj & _ & Hi & _ & Ai & _). destruct (Hts' i t Hi) as (p & Hp).
      destruct (Ht i t p Hi Hp) as (_ & _ & r & Hr & _). unfold access, trem in *. destruct (cur t) as [[o a]|]; [|discriminate].
      subst a. destruct r; discriminate. }
    split; [exact He|]. split.
    - exists w. split; [reflexivity|]. rewrite map_length. split; [exact Hw|]. intros i l Hil. rewrite nth_error_map in Hil.
      destruct (nth_error ts i) as [p|] eqn:Ep; [|discriminate]. injection Hil as <-. destruct (Hts2 i p Ep) as (t & Hi).
      destruct (Ht i t p Hi Ep) as (_ & _ & r & _ & Eq). eauto.
    - intros Hf. rewrite map_length.
      assert (forall i p, nth_error ts i = Some p -> inserts p = of_thread i w) as Hall.
      { intros i p Hp. destruct (Hts2 i p Hp) as (t & Hi). destruct (Ht i t p Hi Hp) as (_ & _ & r & Hr & Eq).
        destruct (Hf t (nth_error_In _ _ Hi)) as [E1 E2]. unfold trem in Hr. rewrite E1 in Hr. rewrite E2 in Eq. subst r. simpl in Eq. rewrite app_nil_r in Eq. exact Eq. }
      clear - Hw Hall.
      assert (forall (ts : list (list (stm (report text)))) k (w : list (nat * text)), (forall i x, In (i, x) w -> k <= i < k + length ts) ->
        (forall i p, nth_error ts i = Some p -> inserts p = of_thread (k + i) w) -> length w = list_sum (map (fun p => length (inserts p)) ts)) as X.
      { clear. induction ts as [|p ts IH]; intros k w Hw Ha; simpl.
        - destruct w as [|[i x] w]; [reflexivity|]. specialize (Hw i x (or_introl eq_refl)). simpl in Hw. lia.
        - rewrite <- (IH (S k) (filter (fun x => negb (Nat.eqb (fst x) k)) w)).
          + rewrite (Ha 0 p eq_refl), Nat.add_0_r. unfold of_thread. rewrite map_length. clear. induction w as [|[i x] w IH]; simpl; [reflexivity|].
            destruct (Nat.eqb i k); simpl; lia.
          + intros i x Hin. apply filter_In in Hin. destruct Hin as [Hin Hne]. simpl in Hne. specialize (Hw i x Hin). simpl in Hw.
            destruct (Nat.eqb_spec i k); [discriminate|]. lia.
          + intros i p' Hp'. rewrite (Ha (S i) p' Hp'). replace (k + S i) with (S k + i) by lia. unfold of_thread. f_equal.
            clear. induction w as [|[j x] w IH]; simpl; [reflexivity|]. destruct (Nat.eqb_spec j (S (k + i))) as [Hj|Hn], (Nat.eqb_spec j k) as [Hk|Hk]; simpl.
            * lia.
            * rewrite (proj2 (Nat.eqb_eq j (S (k + i))) Hj). f_equal. exact IH.
            * exact IH.
            * rewrite (proj2 (Nat.eqb_neq j (S (k + i))) Hn). exact IH. }
      apply (X ts 0); [|exact Hall]. intros i x Hin. specialize (Hw i x Hin). lia.
  Qed.

  (** *** two threads at the same HELPER_WARN_ONCE without a mutex *)
  Lemma once_twice (ts : list (list (stm (report text)))) (s0 : rep text) i j p q site l l' : i <> j -> first_time s0 site = true ->
    nth_error ts i = Some (StDo (Once site l) :: p) -> nth_error ts j = Some (StDo (Once site l') :: q) ->
    (exists sch c, crun report_code sch (fork s0 ts) = inl c /\ race_at site c) /\
    (exists sch c, crun report_code sch (fork s0 ts) = inl c /\ map snd (history c) = [Once site l; Once site l'] /\ err (shared c) = err s0 ++ l ++ l').
  Proof.
    intros Hn Hf Hi Hj.
    assert (i < length ts) as Li by (apply nth_error_Some; congruence). assert (j < length ts) as Lj by (apply nth_error_Some; congruence).
    set (f := fun p : list (stm (report text)) => mkT (None : option (report text * act (rep text) nat unit)) p ([] : list (report text * unit))).
    assert (forall l : list (thread (rep text) nat (report text) unit), length l = length ts -> forall t, nth_error (upd i t l) i = Some t) as Ui.
    { intros l0 El t. apply nth_error_upd_eq. lia. }
    assert (forall l : list (thread (rep text) nat (report text) unit), length l = length ts -> forall t, nth_error (upd j t l) j = Some t) as Uj.
    { intros l0 El t. apply nth_error_upd_eq. lia. }
    set (t1 := mkT (Some (Once site l, report_code (Once site l))) p ([] : list (report text * unit))).
    set (u1 := mkT (Some (Once site l', report_code (Once site l'))) q ([] : list (report text * unit))).
    set (t2 := mkT (Some (Once site l, Write site (not_first site) (insertions l))) p ([] : list (report text * unit))).
    set (u2 := mkT (Some (Once site l', Write site (not_first site) (insertions l'))) q ([] : list (report text * unit))).
    assert (crun report_code [i; j; i; j] (fork s0 ts) = inl (mkC s0 None (upd j u2 (upd i t2 (upd j u1 (upd i t1 (map f ts))))) [])) as E1.
    { unfold crun, fork. fold f. unfold cstep at 1. cbn [threads]. rewrite nth_error_map, Hi. cbn [option_map f cur rest outs threads shared held log]. unfold put_thread. cbn [threads shared held log].
      unfold cstep at 1. cbn [threads]. rewrite nth_error_upd_neq, nth_error_map, Hj by congruence. cbn [option_map f cur rest outs threads shared held log]. unfold put_thread. cbn [threads shared held log].
      fold t1 u1.
      unfold cstep at 1. cbn [threads]. rewrite nth_error_upd_neq, Ui by (congruence || apply map_length).
      cbn [cur t1 report_code rest outs threads shared held log]. unfold put_thread. cbn [threads shared held log]. rewrite Hf.
      unfold cstep at 1. cbn [threads]. rewrite nth_error_upd_neq, Uj by (congruence || (rewrite upd_length; apply map_length)).
      cbn [cur u1 report_code rest outs threads shared held log]. unfold put_thread. cbn [threads shared held log]. rewrite Hf. reflexivity. }
    assert (forall (r : list text) k o a q' c, nth_error (threads c) k = Some (mkT (Some (o, insertions r)) q' a) ->
      exists sch c', crun report_code sch c = inl c' /\ err (shared c') = err (shared c) ++ r /\ log c' = log c ++ [(k, o, tt)] /\
        forall k', k' <> k -> nth_error (threads c') k' = nth_error (threads c) k') as Hins.
    { clear. induction r as [|x r IH]; intros k o a q' c H; assert (k < length (threads c)) as Hk by (apply nth_error_Some; congruence).
      - exists [k]. simpl. unfold cstep. rewrite H. cbn [cur insertions]. eexists. split; [reflexivity|]. simpl. rewrite app_nil_r. split; [reflexivity|]. split; [reflexivity|].
        intros k' Hn. rewrite threads_put by exact Hk. rewrite (proj2 (Nat.eqb_neq _ _) (not_eq_sym Hn)). reflexivity.
      - destruct (IH k o a q' (mkC (insert x (shared c)) (held c) (put_thread c k (mkT (Some (o, insertions r)) q' a)) (log c))) as (sch & c' & E & E2 & E3 & E4).
        { simpl. rewrite threads_put, Nat.eqb_refl by exact Hk. reflexivity. }
        exists (k :: sch), c'. simpl. unfold cstep. rewrite H. cbn [cur insertions]. split; [exact E|]. rewrite E2, E3. simpl. rewrite <- app_assoc. split; [reflexivity|]. split; [reflexivity|].
        intros k' Hn. rewrite E4 by exact Hn. simpl. rewrite threads_put by exact Hk. rewrite (proj2 (Nat.eqb_neq _ _) (not_eq_sym Hn)). reflexivity. }
    split.
    - exists [i; j; i; j]. eexists. split; [exact E1|]. exists i, j, t2, u2, true, true. cbn [threads].
      split; [exact Hn|]. split; [rewrite nth_error_upd_neq, Ui by (congruence || (rewrite !upd_length; apply map_length)); reflexivity|].
      split; [apply Uj; rewrite !upd_length; apply map_length|]. repeat split; reflexivity.
    - set (t3 := mkT (Some (Once site l, insertions l)) p ([] : list (report text * unit))).
      set (u3 := mkT (Some (Once site l', insertions l')) q ([] : list (report text * unit))).
      assert (crun report_code [i; j; i; j; i; j] (fork s0 ts) =
        inl (mkC (not_first site (not_first site s0)) None (upd j u3 (upd i t3 (upd j u2 (upd i t2 (upd j u1 (upd i t1 (map f ts))))))) [])) as E2.
      { change [i; j; i; j; i; j] with ([i; j; i; j] ++ [i; j]). rewrite crun_app, E1. unfold crun.
        unfold cstep at 1. cbn [threads]. rewrite nth_error_upd_neq, Ui by (congruence || (rewrite !upd_length; apply map_length)). cbn [cur t2 rest outs shared held log]. unfold put_thread. cbn [threads shared held log].
        unfold cstep at 1. cbn [threads]. rewrite nth_error_upd_neq, Uj by (congruence || (rewrite !upd_length; apply map_length)). cbn [cur u2 rest outs shared held log]. unfold put_thread. cbn [threads shared held log].
        reflexivity. }
      match type of E2 with _ = inl ?x => set (c0 := x) in E2 end.
      assert (nth_error (threads c0) i = Some t3) as I1.
      { unfold c0. cbn [threads]. rewrite nth_error_upd_neq, Ui by (congruence || (rewrite !upd_length; apply map_length)). reflexivity. }
      assert (nth_error (threads c0) j = Some u3) as I2 by (unfold c0; cbn [threads]; apply Uj; rewrite !upd_length; apply map_length).
      destruct (Hins l i _ _ _ c0 I1) as (sch1 & c1 & F1 & F2 & F3 & F4).
      rewrite <- F4 in I2 by congruence.
      destruct (Hins l' j _ _ _ c1 I2) as (sch2 & c2 & G1 & G2 & G3 & _).
      exists ([i; j; i; j; i; j] ++ sch1 ++ sch2), c2. rewrite crun_app, E2, crun_app, F1. split; [exact G1|]. split.
      + unfold history. rewrite G3, F3. reflexivity.
      + rewrite G2, F2. simpl. rewrite <- app_assoc. reflexivity.
  Qed.
End Reports.

(** ** checks that pass need no mutex *)
Definition pinv (ts : list (list (stm check))) (n : Z) (c : config Z unit check unit) : Prop :=
  length (threads c) = length ts /\ shared c = n /\
  forall i t, nth_error (threads c) i = Some t ->
    guarded false (held_by c i) (rest t) /\ ~ In CheckFails (does (rest t)) /\ (cur t = None \/ cur t = Some (CheckPasses, Fin tt)).
Lemma pinv_step ts n c i : pinv ts n c -> exists c', cstep check_code i c = inl c' /\ pinv ts n c'.
Proof.
  intros (Hl & Hs & Ht). unfold cstep. destruct (nth_error (threads c) i) as [t|] eqn:Et; [|unfold pinv; eauto].
  assert (i < length (threads c)) as Hi by (apply nth_error_Some; congruence).
  destruct (Ht i t Et) as (Hg & Hp & Hc).
  assert (forall t' lg, guarded false (held_by c i) (rest t') -> ~ In CheckFails (does (rest t')) -> (cur t' = None \/ cur t' = Some (CheckPasses, Fin tt)) ->
    pinv ts n (mkC (shared c) (held c) (put_thread c i t') lg)) as Hsame.
  { intros t' lg Hg' Hp' Hc'. split; [simpl; unfold put_thread; rewrite upd_length; exact Hl|]. split; [exact Hs|].
    cbn [threads]. intros j u Hu. rewrite threads_put in Hu by exact Hi. destruct (Nat.eqb_spec i j) as [->|Hn]; [injection Hu as <-; auto|apply (Ht j u Hu)]. }
  destruct Hc as [Hc|Hc]; rewrite Hc; [|eexists; split; [reflexivity|]; apply Hsame; auto].
  destruct (rest t) as [|[| |o] q] eqn:Er; simpl in Hg.
  - exists c. split; [reflexivity|]. unfold pinv. auto.
  - destruct Hg as [Hh Hg]. unfold held_by in Hh. destruct (held c) as [k|] eqn:Eh.
    + rewrite Hh. exists c. split; [reflexivity|]. unfold pinv. auto.
    + eexists. split; [reflexivity|]. split; [simpl; unfold put_thread; rewrite upd_length; exact Hl|]. split; [exact Hs|].
      cbn [threads]. intros j u Hu. rewrite threads_put in Hu by exact Hi. unfold held_by. cbn [held]. destruct (Nat.eqb_spec i j) as [->|Hn].
      * injection Hu as <-. rewrite Nat.eqb_refl. auto.
      * destruct (Ht j u Hu) as (Hg' & Hrest). unfold held_by in Hg'. rewrite Eh in Hg'. rewrite (proj2 (Nat.eqb_neq j i)) by congruence. auto.
  - destruct Hg as [Hh Hg]. rewrite Hh. unfold held_by in Hh. destruct (held c) as [k|] eqn:Eh; [|discriminate]. apply Nat.eqb_eq in Hh. subst k.
    eexists. split; [reflexivity|]. split; [simpl; unfold put_thread; rewrite upd_length; exact Hl|]. split; [exact Hs|].
    cbn [threads]. intros j u Hu. rewrite threads_put in Hu by exact Hi. unfold held_by. cbn [held]. destruct (Nat.eqb_spec i j) as [->|Hn].
    + injection Hu as <-. auto.
    + destruct (Ht j u Hu) as (Hg' & Hrest). unfold held_by in Hg'. rewrite Eh in Hg'. rewrite (proj2 (Nat.eqb_neq j i)) in Hg' by congruence. auto.
  - destruct o; [|exfalso; apply Hp; left; reflexivity]. eexists. split; [reflexivity|]. apply Hsame; auto.
    + apply Hg.
    + intros Hin. apply Hp. right. exact Hin.
Qed.
Lemma checks_pass (ts : list (list (stm check))) (n : Z) : (forall p, In p ts -> ~ In CheckFails (does p) /\ guarded false false p) ->
  forall sch, exists c, crun check_code sch (fork n ts) = inl c /\ ~ race c /\ shared c = n.
Proof.
  intros Hts sch.
  assert (forall sch c, pinv ts n c -> exists c', crun check_code sch c = inl c' /\ pinv ts n c') as Hrun.
  { clear sch. induction sch as [|i sch IH]; simpl; intros c H; [eauto|]. destruct (pinv_step ts n c i H) as (c' & -> & H'). apply (IH c' H'). }
  destruct (Hrun sch (fork n ts)) as (c & E & Hl & Hs & Ht).
  { split; [apply map_length|]. split; [reflexivity|]. intros i t H. simpl in H. rewrite nth_error_map in H.
    destruct (nth_error ts i) as [p|] eqn:Ep; [|discriminate]. injection H as <-. destruct (Hts p (nth_error_In _ _ Ep)) as [H1 H2]. auto. }
  exists c. split; [exact E|]. split; [|exact Hs].
  intros (l & i & j & t & u & wi & wj & _ & Hi & _ & Ai & _). destruct (Ht i t Hi) as (_ & _ & [Hc|Hc]); unfold access in Ai; rewrite Hc in Ai; discriminate.
Qed.
