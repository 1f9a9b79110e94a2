(** TraceProofs.v *)
From Verif Require Import Base StreamModel TraceModel TraceSpec.
Open Scope list_scope.
Open Scope nat_scope.

Section P.
Context (P : platform).

Lemma frame_line_named i a s : symbols_ok P = true -> has_name P a ->
  exists l, frame_line P i a s = Ret tt (s ++ l ++ newline) /\ describes P i a l.
Proof.
  intros Hok Hn. unfold frame_line, describes, has_name in *. rewrite Hok. destruct (dladdr P a) as [sname|].
  - destruct (demangle P (symbol P a)) as [d|].
    + exists d. unfold bind, put_cstr, put. rewrite <- app_assoc. auto.
    + destruct sname as [n|]; [|now specialize (Hn eq_refl)].
      exists n. unfold bind, put_cstr, put. rewrite <- app_assoc. auto.
  - eexists. split; [|reflexivity]. unfold bind, put. now rewrite !app_assoc.
Qed.
Lemma frame_line_unnamed i a s : symbols_ok P = true -> dladdr P a = Some None -> demangle P (symbol P a) = None ->
  frame_line P i a s = Ub UbNull.
Proof. intros Hok H1 H2. unfold frame_line. rewrite H1, Hok, H2. reflexivity. Qed.
Lemma frame_line_total i a s : symbols_ok P = true -> (exists s', frame_line P i a s = Ret tt s') \/ frame_line P i a s = Ub UbNull.
Proof.
  intros Hok. unfold frame_line. rewrite Hok. destruct (dladdr P a) as [sname|]; [|left; eexists; reflexivity].
  destruct (demangle P (symbol P a)); [left; eexists; reflexivity|]. destruct sname; [left; eexists; reflexivity|now right].
Qed.
Lemma frame_lines_named l : symbols_ok P = true -> Forall (has_name P) l -> forall i s,
  exists ls, length ls = length l /\ frame_lines P i l s = Ret tt (s ++ text_of ls) /\
  forall k a t, nth_error l k = Some a -> nth_error ls k = Some t -> describes P (i + k) a t.
Proof.
  intros Hok. induction 1 as [|a l Ha Hl IH]; intros i s; cbn [frame_lines].
  - exists []. split; [reflexivity|]. cbn. rewrite app_nil_r. split; [reflexivity|]. intros [|k]; discriminate.
  - destruct (frame_line_named i a s Hok Ha) as (t & Ht & Hd).
    destruct (IH (S i) (s ++ t ++ newline)) as (ls & H1 & H2 & H3).
    exists (t :: ls). split; [cbn; congruence|]. split.
    + unfold bind. rewrite Ht, H2. unfold text_of. cbn [map concat]. fold newline. now rewrite <- !app_assoc.
    + intros [|k] b u Hb Hu; cbn in Hb, Hu.
      * inversion Hb; inversion Hu; subst. now rewrite Nat.add_0_r.
      * rewrite <- Nat.add_succ_comm. eauto.
Qed.
Lemma frame_lines_unnamed l : symbols_ok P = true ->
  (exists a, In a l /\ dladdr P a = Some None /\ demangle P (symbol P a) = None) -> forall i s, frame_lines P i l s = Ub UbNull.
Proof.
  intros Hok. induction l as [|b l IH]; intros (a & Hin & H1 & H2) i s; [contradiction|]. cbn [frame_lines]. unfold bind.
  destruct Hin as [->|Hin]; [now rewrite frame_line_unnamed|].
  destruct (frame_line_total i b s Hok) as [[s' ->] | ->]; [|reflexivity]. apply IH. eauto.
Qed.
Lemma trace_lines s : symbols_ok P = true -> Forall (has_name P) (firstn 128 (stack P)) ->
  exists ls, stack_trace_enabled P s = Ret tt (s ++ text_of ls) /\ length ls = Nat.min 128 (length (stack P)) /\
  forall k a t, nth_error (stack P) k = Some a -> nth_error ls k = Some t -> describes P k a t.
Proof.
  intros Hok Hn. destruct (frame_lines_named _ Hok Hn 0 s) as (ls & H1 & H2 & H3). exists ls.
  unfold stack_trace_enabled, CALLSTACK_SIZE. rewrite Hok. cbn [orb]. split; [exact H2|]. rewrite firstn_length in H1. split; [exact H1|].
  intros k a t Ha Ht. apply (H3 k a t); [|exact Ht].
  assert (Hk : k < length ls) by (apply nth_error_Some; congruence).
  rewrite <- Ha. assert (k < 128) by (rewrite H1 in Hk; eapply Nat.lt_le_trans; [exact Hk|apply Nat.le_min_l]).
  clear -H. revert H. generalize (stack P) as l, 128 as n. revert k.
  induction k as [|k IH]; intros [|b l] [|n] H; cbn; try reflexivity; try (now apply Nat.nlt_0_r in H).
  apply IH. now apply Nat.succ_lt_mono.
Qed.
Lemma trace_unnamed a s : symbols_ok P = true -> In a (firstn 128 (stack P)) -> dladdr P a = Some None ->
  demangle P (symbol P a) = None -> stack_trace_enabled P s = Ub UbNull.
Proof.
  intros Hok Hin H1 H2. unfold stack_trace_enabled. rewrite Hok. cbn [orb]. apply frame_lines_unnamed; eauto.
Qed.
Lemma uint_clean d : no_break (uint_text d).
Proof.
  unfold no_break. induction d; cbn [uint_text]; [tauto|..]; intros [H|H]; try discriminate; auto.
Qed.
Lemma int_clean z : no_break (int_text z).
Proof.
  unfold int_text. destruct (Z.to_int z); [apply uint_clean|]. intros [H|H]; [discriminate|]. now apply uint_clean in H.
Qed.
Lemma describes_clean i a l : clean P -> describes P i a l -> no_break l.
Proof.
  intros (H1 & H2 & H3). unfold describes. destruct (dladdr P a) as [sname|] eqn:E.
  - intros [H|[_ ->]]; [eapply H2; eauto|eapply H1; eauto].
  - intros ->. unfold no_break. rewrite !in_app_iff. intros [H|[H|H]].
    + now apply int_clean in H.
    + cbn in H. destruct H as [H|[]]. discriminate.
    + now apply H3 in H.
Qed.
Lemma trace_defined_iff s : symbols_ok P = true ->
  ((exists s', stack_trace_enabled P s = Ret tt s') <-> Forall (has_name P) (firstn 128 (stack P))).
Proof.
  intros Hok. split.
  - intros [s' H]. apply Forall_forall. intros a Ha Hd Hn. now rewrite (trace_unnamed a s Hok Ha Hd Hn) in H.
  - intros H. destruct (trace_lines s Hok H) as (ls & -> & _). eauto.
Qed.
Lemma trace_clean s : symbols_ok P = true -> Forall (has_name P) (firstn 128 (stack P)) -> clean P ->
  exists ls, stack_trace_enabled P s = Ret tt (s ++ text_of ls) /\ length ls = Nat.min 128 (length (stack P)) /\
  Forall no_break ls /\
  forall k a t, nth_error (stack P) k = Some a -> nth_error ls k = Some t -> describes P k a t.
Proof.
  intros Hok H Hc. destruct (trace_lines s Hok H) as (ls & H1 & H2 & H3). exists ls. repeat split; auto.
  apply Forall_forall. intros t Ht. apply In_nth_error in Ht as [k Hk].
  assert (HL : k < length (stack P)).
  { assert (k < length ls) by (apply nth_error_Some; congruence). rewrite H2 in H0. eapply Nat.lt_le_trans; [exact H0|apply Nat.le_min_r]. }
  apply nth_error_Some in HL. destruct (nth_error (stack P) k) as [a|] eqn:E; [|congruence].
  eapply describes_clean; eauto.
Qed.
Lemma trace_no_memory s : symbols_ok P = false -> ndebug P = false -> stack_trace_enabled P s = Abort.
Proof. intros H1 H2. unfold stack_trace_enabled. now rewrite H1, H2. Qed.
End P.
