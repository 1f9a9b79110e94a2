(** StopwatchProofs.v -- lemmas about StopwatchModel. *)
From Coq Require Import Floats.SpecFloat.
From Verif Require Import Base FloatProofs StopwatchModel StopwatchSpec.
Local Open Scope Z_scope.
Local Open Scope monad_scope.

Lemma truncated_quot a b : 0 < b -> truncated a b (Z.quot a b).
Proof.
  intros Hb. unfold truncated.
  assert (Ha : Z.abs (Z.quot a b) = Z.abs a / b).
  { rewrite <- Z.quot_abs by lia. rewrite (Z.abs_eq b) by lia. apply Z.quot_div_nonneg; lia. }
  rewrite Ha. split; [|split].
  - pose proof (Z.div_mod (Z.abs a) b ltac:(lia)). pose proof (Z.mod_pos_bound (Z.abs a) b Hb). lia.
  - intros H. apply Z.quot_pos; lia.
  - intros H. replace a with (- (- a)) by lia. rewrite Z.quot_opp_l by lia. pose proof (Z.quot_pos (- a) b). lia.
Qed.
Lemma truncated_unique a b q1 q2 : 0 < b -> truncated a b q1 -> truncated a b q2 -> q1 = q2.
Proof.
  intros Hb (A1 & A2 & A3) (B1 & B2 & B3). assert (Z.abs q1 = Z.abs q2) by nia.
  destruct (Z.le_ge_cases 0 a); [specialize (A2 H0); specialize (B2 H0)|specialize (A3 H0); specialize (B3 H0)]; lia.
Qed.

Lemma in64_iff z : in64 z = true <-> fits64 z.
Proof. unfold in64, fits64. rewrite andb_true_iff, Z.leb_le, Z.ltb_lt. tauto. Qed.

Section Stopwatch.
  Variables (clock : nat -> Z) (D : unit_D).
  Notation swrun := (swrun clock D).
  Notation swstep := (swstep clock D).

  Lemma swrun_snoc p o s : swrun (p ++ [o]) s = (l <- swrun p ;; x <- swstep o ;; ret (l ++ [x])) s.
  Proof.
    revert s; induction p as [|o1 p IH]; intros s; simpl.
    - unfold bind, ret. destruct (swstep o s); reflexivity.
    - unfold bind in *. destruct (swstep o1 s) as [x s1| | | |]; try reflexivity. rewrite IH.
      destruct (swrun p s1) as [l s2| | | |]; try reflexivity. unfold ret; destruct (swstep o s2); reflexivity.
  Qed.
  Lemma history_snoc p o : forall n, exists m, (history clock n (p ++ [o]) = history clock n p ++ (if reads o then [(o, clock m)] else [])) /\
    (m = n + length (history clock n p))%nat.
  Proof.
    induction p as [|o1 p IH]; intros n; simpl.
    - exists n. destruct (reads o); split; simpl; auto.
    - destruct (reads o1).
      + destruct (IH (S n)) as (m & E & Em). exists m. rewrite E. simpl. split; [reflexivity|]. lia.
      + apply IH.
  Qed.

  (** the state after a program *)
  Definition sw_ok (h : list (swop * Z)) (s : swst) : Prop :=
    ticks s = length h /\
    forall k, match watches s k with
              | Some (i, c) => exists h1 o h2, h = h1 ++ (o, i) :: h2 /\ starts k (o, i) /\ Forall (fun x => ~ starts k x) h2 /\
                  ((Forall (fun x => ~ clicks k x) h2 /\ c = i) \/
                   exists h3 h4, h2 = h3 ++ (SwClick k, c) :: h4 /\ Forall (fun x => ~ clicks k x) h4)
              | None => Forall (fun x => ~ starts k x) h
              end.
  Lemma snoc_other k h s x : (~ starts k x) -> (~ clicks k x) ->
    match watches s k with
    | Some (i, c) => exists h1 o h2, h = h1 ++ (o, i) :: h2 /\ starts k (o, i) /\ Forall (fun x => ~ starts k x) h2 /\
        ((Forall (fun x => ~ clicks k x) h2 /\ c = i) \/
         exists h3 h4, h2 = h3 ++ (SwClick k, c) :: h4 /\ Forall (fun x => ~ clicks k x) h4)
    | None => Forall (fun x => ~ starts k x) h
    end ->
    match watches s k with
    | Some (i, c) => exists h1 o h2, h ++ [x] = h1 ++ (o, i) :: h2 /\ starts k (o, i) /\ Forall (fun x => ~ starts k x) h2 /\
        ((Forall (fun x => ~ clicks k x) h2 /\ c = i) \/
         exists h3 h4, h2 = h3 ++ (SwClick k, c) :: h4 /\ Forall (fun x => ~ clicks k x) h4)
    | None => Forall (fun x => ~ starts k x) (h ++ [x])
    end.
  Proof.
    intros Hs Hc. destruct (watches s k) as [[i c]|].
    - intros (h1 & o & h2 & -> & H1 & H2 & H3). exists h1, o, (h2 ++ [x]). rewrite <- app_assoc. split; [reflexivity|].
      split; [exact H1|]. split; [apply Forall_app; split; [exact H2|constructor; [exact Hs|constructor]]|].
      destruct H3 as [[H3 ->]|(h3 & h4 & -> & H3)].
      + left. split; [|reflexivity]. apply Forall_app; split; [exact H3|constructor; [exact Hc|constructor]].
      + right. exists h3, (h4 ++ [x]). rewrite <- app_assoc. split; [reflexivity|].
        apply Forall_app; split; [exact H3|constructor; [exact Hc|constructor]].
    - intros H. apply Forall_app; split; [exact H|constructor; [exact Hs|constructor]].
  Qed.
  Lemma sw_ok_start h s k o : sw_ok h s -> starts k (o, clock (ticks s)) ->
    sw_ok (h ++ [(o, clock (ticks s))]) (mkSw (set_var (watches s) k (Some (clock (ticks s), clock (ticks s)))) (S (ticks s))).
  Proof.
    intros [Ht Hw] Hs. split; [simpl; rewrite app_length; simpl; lia|]. intros j. simpl. destruct (Nat.eq_dec k j) as [<-|Hne].
    - rewrite set_var_eq. exists h, o, []. split; [reflexivity|]. split; [exact Hs|]. split; [constructor|]. left. split; constructor.
    - rewrite set_var_neq by auto. apply snoc_other; [| |apply Hw].
      + intros [H|H]; destruct Hs as [Hs|Hs]; simpl in *; congruence.
      + intros H. unfold clicks in H. destruct Hs as [Hs|Hs]; simpl in *; congruence.
  Qed.
  Lemma sw_ok_click h s k i c : sw_ok h s -> watches s k = Some (i, c) ->
    sw_ok (h ++ [(SwClick k, clock (ticks s))]) (mkSw (set_var (watches s) k (Some (i, clock (ticks s)))) (S (ticks s))).
  Proof.
    intros [Ht Hw] Hk. split; [simpl; rewrite app_length; simpl; lia|]. intros j. simpl. destruct (Nat.eq_dec k j) as [<-|Hne].
    - rewrite set_var_eq. specialize (Hw k). rewrite Hk in Hw. destruct Hw as (h1 & o & h2 & -> & H1 & H2 & H3).
      exists h1, o, (h2 ++ [(SwClick k, clock (ticks s))]). rewrite <- app_assoc. split; [reflexivity|]. split; [exact H1|].
      split; [apply Forall_app; split; [exact H2|constructor; [|constructor]]; intros [H|H]; discriminate|].
      right. exists h2, []. split; [reflexivity|constructor].
    - rewrite set_var_neq by auto. apply snoc_other; [| |apply Hw].
      + intros [H|H]; simpl in H; congruence.
      + intros H. unfold clicks in H. simpl in H. congruence.
  Qed.
  Lemma duration_state k s q s' : duration D k s = Ret q s' -> s' = s.
  Proof.
    unfold duration, bind, get_watch. destruct (watches s k) as [[i c]|]; [|discriminate]. simpl.
    destruct (in64 (c - i)); [|discriminate]. unfold duration_cast. destruct (in64 _); [|discriminate]. intros H. injection H as _ <-. reflexivity.
  Qed.
  Lemma duration_noexc k s e s' : duration D k s <> Exc e s'.
  Proof.
    unfold duration, bind, get_watch. destruct (watches s k) as [[i c]|]; [|discriminate]. simpl.
    destruct (in64 (c - i)); [|discriminate]. unfold duration_cast. destruct (in64 _); discriminate.
  Qed.
  Lemma swstep_ok h s o x s' : sw_ok h s -> swstep o s = Ret x s' ->
    sw_ok (h ++ if reads o then [(o, clock (length h))] else []) s'.
  Proof.
    intros Hok E. assert (Ht : ticks s = length h) by apply Hok. destruct o as [k|k|k|k|k]; simpl in E |- *.
    - injection E as _ <-. rewrite <- Ht. apply sw_ok_start; [exact Hok|left; reflexivity].
    - unfold bind, get_watch in E. destruct (watches s k) as [w|]; [|discriminate]. injection E as _ <-.
      rewrite <- Ht. apply sw_ok_start; [exact Hok|right; reflexivity].
    - unfold click, bind, get_watch in E. destruct (watches s k) as [[i c]|] eqn:Ek; [|discriminate]. simpl in E. rewrite Ek in E.
      injection E as _ <-. simpl. rewrite <- Ht. apply (sw_ok_click h s k i c); assumption.
    - rewrite app_nil_r. unfold bind in E. destruct (duration D k s) as [q s1| | | |] eqn:Ed; try discriminate.
      apply duration_state in Ed as ->. injection E as _ <-. exact Hok.
    - rewrite app_nil_r. unfold elapsed_seconds, bind in E. destruct (duration D k s) as [q s1| | | |] eqn:Ed; try discriminate.
      apply duration_state in Ed as ->. injection E as _ <-. exact Hok.
  Qed.
  Lemma swrun_ok p : forall l s, swrun p swinit = Ret l s -> sw_ok (history clock 0 p) s.
  Proof.
    induction p as [|o p IH] using rev_ind; intros l s E.
    - injection E as _ <-. split; [reflexivity|]. intros k. constructor.
    - rewrite swrun_snoc in E. unfold bind in E. destruct (swrun p swinit) as [l1 s1| | | |]; try discriminate.
      destruct (swstep o s1) as [x s2| | | |] eqn:Es; try discriminate. injection E as _ <-.
      destruct (history_snoc p o 0) as (m & -> & ->). simpl. eapply swstep_ok; [|exact Es]. eapply IH. reflexivity.
  Qed.

  (** ** the measured time *)
  Lemma app_split_last {A} (P : A -> Prop) (l1 l2 m1 m2 : list A) x y :
    l1 ++ x :: l2 = m1 ++ y :: m2 -> P x -> P y -> Forall (fun z => ~ P z) l2 -> Forall (fun z => ~ P z) m2 ->
    l1 = m1 /\ x = y /\ l2 = m2.
  Proof.
    revert m1; induction l1 as [|a l1 IH]; intros [|b m1] E Hx Hy H1 H2; simpl in E.
    - injection E as -> ->. auto.
    - injection E as -> ->. exfalso. apply Forall_app in H1 as [_ H1]. inversion H1; subst. contradiction.
    - injection E as -> <-. exfalso. apply Forall_app in H2 as [_ H2]. inversion H2; subst. contradiction.
    - injection E as -> E. destruct (IH m1 E Hx Hy H1 H2) as (-> & -> & ->). auto.
  Qed.
  Lemma elapsed_unique k h e1 e2 : elapsed_of k h e1 -> elapsed_of k h e2 -> e1 = e2.
  Proof.
    intros (a1 & o1 & t1 & b1 & E1 & S1 & N1 & C1) (a2 & o2 & t2 & b2 & E2 & S2 & N2 & C2).
    rewrite E1 in E2. destruct (app_split_last _ _ _ _ _ _ _ E2 S1 S2 N1 N2) as (_ & Eo & Eb). injection Eo as -> ->. subst b2.
    destruct C1 as [[C1 ->]|(h3 & u1 & h4 & -> & C1 & ->)], C2 as [[C2 ->]|(h3' & u2 & h4' & E & C2 & ->)]; auto.
    - exfalso. rewrite E in C1. apply Forall_app in C1 as [_ C1]. inversion C1; subst. apply H1. reflexivity.
    - exfalso. apply Forall_app in C2 as [_ C2]. inversion C2; subst. apply H1. reflexivity.
    - destruct (app_split_last (clicks k) _ _ _ _ _ _ E eq_refl eq_refl C1 C2) as (_ & Eo & _). injection Eo as ->. reflexivity.
  Qed.
  Lemma watch_elapsed h s k i c : sw_ok h s -> watches s k = Some (i, c) -> elapsed_of k h (c - i).
  Proof.
    intros [_ Hw] Hk. specialize (Hw k). rewrite Hk in Hw. destruct Hw as (h1 & o & h2 & -> & H1 & H2 & H3).
    exists h1, o, i, h2. split; [reflexivity|]. split; [exact H1|]. split; [exact H2|].
    destruct H3 as [[H3 ->]|(h3 & h4 & -> & H3)]; [left; split; [exact H3|lia]|]. right. exists h3, c, h4. auto.
  Qed.
  Lemma elapsed_watch h s k e : sw_ok h s -> elapsed_of k h e -> exists i c, watches s k = Some (i, c) /\ e = c - i.
  Proof.
    intros Hok He. destruct (watches s k) as [[i c]|] eqn:Ek.
    - exists i, c. split; [reflexivity|]. eapply elapsed_unique; [exact He|]. eapply watch_elapsed; eassumption.
    - exfalso. destruct Hok as [_ Hw]. specialize (Hw k). rewrite Ek in Hw. destruct He as (h1 & o & t0 & h2 & -> & Hs & _).
      apply Forall_app in Hw as [_ Hw]. inversion Hw; subst. contradiction.
  Qed.
  Hypothesis Hcd : 0 < cd D.
  Lemma duration_exact p l s k e : swrun p swinit = Ret l s -> elapsed_of k (history clock 0 p) e ->
    fits64 e -> fits64 (e * cn D) ->
    exists q, swstep (SwDuration k) s = Ret (SwCount q) s /\ truncated (e * cn D) (cd D) q.
  Proof.
    intros E He F1 F2. destruct (elapsed_watch _ _ _ _ (swrun_ok _ _ _ E) He) as (i & c & Hk & ->).
    exists (Z.quot ((c - i) * cn D) (cd D)). split; [|apply truncated_quot; exact Hcd].
    simpl. unfold duration, bind, get_watch. rewrite Hk. simpl. apply in64_iff in F1, F2. rewrite F1. unfold duration_cast.
    rewrite F2. reflexivity.
  Qed.
  (** a watch that was never constructed has nothing to measure *)
  Lemma duration_defined p l s k : swrun p swinit = Ret l s ->
    (exists e, elapsed_of k (history clock 0 p) e) <-> watches s k <> None.
  Proof.
    intros E. pose proof (swrun_ok _ _ _ E) as Hok. split.
    - intros [e He]. destruct (elapsed_watch _ _ _ _ Hok He) as (i & c & Hk & _). congruence.
    - intros Hk. destruct (watches s k) as [[i c]|] eqn:Ek; [|congruence]. exists (c - i). eapply watch_elapsed; eassumption.
  Qed.
  (** nothing can be read from a watch and nothing changes by reading *)
  Lemma reading_pure o s x s' : reads o = false -> swstep o s = Ret x s' -> s' = s.
  Proof.
    intros Hr E. destruct o as [k|k|k|k|k]; try discriminate; simpl in E.
    - unfold bind in E. destruct (duration D k s) as [q s1| | | |] eqn:Ed; try discriminate.
      apply duration_state in Ed as ->. injection E as _ <-. reflexivity.
    - unfold elapsed_seconds, bind in E. destruct (duration D k s) as [q s1| | | |] eqn:Ed; try discriminate.
      apply duration_state in Ed as ->. injection E as _ <-. reflexivity.
  Qed.

  (** ** Steady clocks *)
  Section Steady.
    Hypothesis Hst : steady clock.
    Hypothesis Hwt : whole_ticks D.
    Lemma clock_mono i j : (i <= j)%nat -> clock i <= clock j.
    Proof. intros H. induction H; [lia|]. destruct Hst as [Hm _]. specialize (Hm m). lia. Qed.
    (** every reading in the watches is an earlier one, and clicked is no earlier than initial *)
    Definition sw_mono (s : swst) : Prop :=
      forall k i c, watches s k = Some (i, c) -> exists a b, (a <= b < ticks s)%nat /\ i = clock a /\ c = clock b.
    Lemma mono_step o s x s' : sw_mono s -> swstep o s = Ret x s' -> sw_mono s'.
    Proof.
      intros Hm E. destruct o as [k|k|k|k|k]; simpl in E.
      - injection E as _ <-. intros j i c Hj. simpl in Hj |- *. destruct (Nat.eq_dec k j) as [<-|Hne].
        + rewrite set_var_eq in Hj. injection Hj as <- <-. exists (ticks s), (ticks s). repeat split; lia.
        + rewrite set_var_neq in Hj by auto. destruct (Hm j i c Hj) as (a & b & H & -> & ->). exists a, b. repeat split; lia.
      - unfold bind, get_watch in E. destruct (watches s k) as [w|]; [|discriminate]. injection E as _ <-.
        intros j i c Hj. simpl in Hj |- *. destruct (Nat.eq_dec k j) as [<-|Hne].
        + rewrite set_var_eq in Hj. injection Hj as <- <-. exists (ticks s), (ticks s). repeat split; lia.
        + rewrite set_var_neq in Hj by auto. destruct (Hm j i c Hj) as (a & b & H & -> & ->). exists a, b. repeat split; lia.
      - unfold click, bind, get_watch in E. destruct (watches s k) as [[i0 c0]|] eqn:Ek; [|discriminate]. simpl in E. rewrite Ek in E.
        injection E as _ <-. intros j i c Hj. simpl in Hj |- *. destruct (Nat.eq_dec k j) as [<-|Hne].
        + rewrite set_var_eq in Hj. injection Hj as <- <-. destruct (Hm k i0 c0 Ek) as (a & b & H & -> & ->).
          exists a, (ticks s). repeat split; lia.
        + rewrite set_var_neq in Hj by auto. destruct (Hm j i c Hj) as (a & b & H & -> & ->). exists a, b. repeat split; lia.
      - rewrite (reading_pure (SwDuration k) s x s' eq_refl E). exact Hm.
      - rewrite (reading_pure (SwElapsed k) s x s' eq_refl E). exact Hm.
    Qed.
    Lemma mono_run p : forall s l s', sw_mono s -> swrun p s = Ret l s' -> sw_mono s'.
    Proof.
      induction p as [|o p IH]; intros s l s' Hm E; simpl in E.
      - injection E as _ <-. exact Hm.
      - unfold bind in E. destruct (swstep o s) as [x s1| | | |] eqn:Es; try discriminate.
        destruct (swrun p s1) as [l1 s2| | | |] eqn:Er; try discriminate. injection E as _ <-.
        eapply IH; [|exact Er]. eapply mono_step; eassumption.
    Qed.
    Lemma mono_init : sw_mono swinit.
    Proof. intros k i c H. discriminate. Qed.
    Lemma steady_fits a b : (a <= b)%nat -> fits64 (clock b - clock a) /\ 0 <= clock b - clock a.
    Proof.
      intros H. apply clock_mono in H. destruct Hst as [_ Hb]. pose proof (Hb a). pose proof (Hb b). unfold fits64.
      split; lia.
    Qed.
    Lemma steady_duration p l s k : swrun p swinit = Ret l s -> watches s k <> None ->
      exists e q, elapsed_of k (history clock 0 p) e /\ swstep (SwDuration k) s = Ret (SwCount q) s /\
        0 <= q /\ q * cd D <= e < (q + 1) * cd D.
    Proof.
      intros E Hk. destruct (watches s k) as [[i c]|] eqn:Ek; [|congruence].
      pose proof (watch_elapsed _ _ _ _ _ (swrun_ok _ _ _ E) Ek) as He.
      destruct (mono_run _ _ _ _ mono_init E k i c Ek) as (a & b & Hab & -> & ->).
      destruct (steady_fits a b ltac:(lia)) as [F1 F2]. destruct Hwt as [Hcn _].
      destruct (duration_exact _ _ _ _ _ E He F1) as (q & Eq & T1 & T2 & T3); [rewrite Hcn, Z.mul_1_r; exact F1|].
      rewrite Hcn, Z.mul_1_r in *. exists (clock b - clock a), q. split; [exact He|]. split; [exact Eq|].
      specialize (T2 F2). split; [exact T2|]. rewrite Z.abs_eq in T1 by exact T2. rewrite Z.abs_eq in T1 by exact F2. exact T1.
    Qed.
    (** the watch is not started again *)
    Definition keeps_running (k : nat) (o : swop) : Prop := o <> SwNew k /\ o <> SwRestart k.
    Lemma running_step k o s x s' i c : sw_mono s -> keeps_running k o -> swstep o s = Ret x s' -> watches s k = Some (i, c) ->
      exists c', watches s' k = Some (i, c') /\ c <= c'.
    Proof.
      intros Hm [N1 N2] E Hk. destruct o as [j|j|j|j|j]; simpl in E.
      - assert (j <> k) by congruence. injection E as _ <-. simpl. rewrite set_var_neq by auto. exists c. split; [exact Hk|lia].
      - assert (j <> k) by congruence. unfold bind, get_watch in E. destruct (watches s j) as [w|]; [|discriminate]. injection E as _ <-.
        simpl. rewrite set_var_neq by auto. exists c. split; [exact Hk|lia].
      - unfold click, bind, get_watch in E. destruct (watches s j) as [[i0 c0]|] eqn:Ej; [|discriminate]. simpl in E. rewrite Ej in E.
        injection E as _ <-. simpl. destruct (Nat.eq_dec j k) as [->|Hne].
        + rewrite set_var_eq. rewrite Hk in Ej. injection Ej as <- <-. destruct (Hm k i c Hk) as (a & b & H & -> & ->).
          exists (clock (ticks s)). split; [reflexivity|]. apply clock_mono. lia.
        + rewrite set_var_neq by auto. exists c. split; [exact Hk|lia].
      - rewrite (reading_pure (SwDuration j) s x s' eq_refl E). exists c. split; [exact Hk|lia].
      - rewrite (reading_pure (SwElapsed j) s x s' eq_refl E). exists c. split; [exact Hk|lia].
    Qed.
    Lemma running_run k p : forall s l s' i c, sw_mono s -> Forall (keeps_running k) p -> swrun p s = Ret l s' -> watches s k = Some (i, c) ->
      exists c', watches s' k = Some (i, c') /\ c <= c'.
    Proof.
      induction p as [|o p IH]; intros s l s' i c Hm Hf E Hk; simpl in E.
      - injection E as _ <-. exists c. split; [exact Hk|lia].
      - unfold bind in E. destruct (swstep o s) as [x s1| | | |] eqn:Es; try discriminate.
        destruct (swrun p s1) as [l1 s2| | | |] eqn:Er; try discriminate. injection E as _ <-. inversion Hf; subst.
        destruct (running_step _ _ _ _ _ _ _ Hm H1 Es Hk) as (c1 & Hk1 & H11).
        destruct (IH s1 l1 s2 i c1 (mono_step _ _ _ _ Hm Es) H2 Er Hk1) as (c2 & Hk2 & H12). exists c2. split; [exact Hk2|lia].
    Qed.
    Lemma durations_grow p l s k q p2 l2 s2 q2 :
      swrun p swinit = Ret l s -> swstep (SwDuration k) s = Ret (SwCount q) s ->
      Forall (keeps_running k) p2 -> swrun p2 s = Ret l2 s2 -> swstep (SwDuration k) s2 = Ret (SwCount q2) s2 -> q <= q2.
    Proof.
      intros E Eq Hf E2 Eq2. pose proof (mono_run _ _ _ _ mono_init E) as Hm.
      simpl in Eq, Eq2. unfold duration, bind, get_watch in Eq, Eq2.
      destruct (watches s k) as [[i c]|] eqn:Ek; [|discriminate].
      destruct (running_run k p2 s l2 s2 i c Hm Hf E2 Ek) as (c' & Ek' & Hc). rewrite Ek' in Eq2. simpl in Eq, Eq2.
      destruct (in64 (c - i)); [|discriminate]. destruct (in64 (c' - i)); [|discriminate].
      unfold duration_cast in Eq, Eq2. destruct (in64 _) in Eq; [|discriminate]. destruct (in64 _) in Eq2; [|discriminate].
      injection Eq as <-. injection Eq2 as <-. destruct Hwt as [Hcn _]. rewrite Hcn, !Z.mul_1_r.
      apply Z.quot_le_mono; lia.
    Qed.
  End Steady.
End Stopwatch.

(** ** elapsed_seconds *)
Lemma seconds_from_duration clock D k s x s' : swstep clock D (SwElapsed k) s = Ret (SwSeconds x) s' ->
  exists q, swstep clock D (SwDuration k) s = Ret (SwCount q) s /\ x = seconds_of D q /\ s' = s.
Proof.
  simpl. unfold elapsed_seconds, bind. destruct (duration D k s) as [q s1| | | |] eqn:Ed; try discriminate.
  intros E. pose proof (duration_state _ _ _ _ _ Ed). subst s1. injection E as <- <-. exists q. auto.
Qed.
(** two elapsed times in the same unit of D are not told apart *)
Lemma seconds_imprecise D a b : whole_ticks D -> 0 <= a -> 0 <= b -> a / cd D = b / cd D -> fits64 a -> fits64 b ->
  exists x, forall (clock : nat -> Z) (t : Z),
    (clock 0%nat = t -> clock 1%nat = t + a \/ clock 1%nat = t + b ->
     exists s, swrun clock D [SwNew 0; SwClick 0; SwElapsed 0] swinit = Ret [SwUnit; SwUnit; SwSeconds x] s).
Proof.
  intros [Hcn Hcd] Ha Hb Hq Fa Fb. exists (seconds_of D (a / cd D)). intros clock t H0 H1. apply in64_iff in Fa, Fb.
  unfold swrun, swstep, construct, restart, click, elapsed_seconds, duration, bind, now, get_watch, put_watch.
  simpl. rewrite H0. unfold duration_cast. rewrite Hcn.
  destruct H1 as [-> | ->].
  - eexists. replace (t + a - t) with a by lia. rewrite Fa, Z.mul_1_r, Fa. simpl. rewrite Z.quot_div_nonneg by lia. reflexivity.
  - eexists. replace (t + b - t) with b by lia. rewrite Fb, Z.mul_1_r, Fb. simpl. rewrite Z.quot_div_nonneg by lia. rewrite Hq. reflexivity.
Qed.

(** and the double is the duration in seconds, correctly rounded *)
Lemma seconds_of_correct D q : sn D = 1 -> 0 < sd D < 2 ^ 53 -> 0 <= q < 2 ^ 53 -> rounded_quotient q (sd D) (seconds_of D q).
Proof.
  intros Hsn Hsd Hq. unfold rounded_quotient, seconds_of, to_double. rewrite Hsn. rewrite Z.eqb_refl.
  destruct (Z.eqb_spec q 0) as [->|Hq0].
  - destruct (Z.eqb_spec (sd D) 1) as [E|E]; [reflexivity|].
    destruct (sd D) as [|d|d] eqn:Ed; try lia. destruct (normalize_exact d ltac:(lia)) as (m & k & En & _).
    change (binary_normalize 53 1024 0 0 false) with (S754_zero false). rewrite En. reflexivity.
  - destruct q as [|p|p]; try lia. destruct (Z.eqb_spec (sd D) 1) as [E|E].
    + rewrite E. destruct (normalize_exact p ltac:(lia)) as (m & k & En & Hk & Em & Hm & _).
      exists m, k. split; [exact En|]. split; [lia|]. split; [exact Hm|]. rewrite Em. lia.
    + destruct (sd D) as [|d|d] eqn:Ed; try lia. apply div_correct; lia.
Qed.
Lemma elapsed_rounded clock D p l s k : steady clock -> whole_ticks D -> sn D = 1 -> 0 < sd D < 2 ^ 53 ->
  swrun clock D p swinit = Ret l s -> watches s k <> None ->
  exists e q, elapsed_of k (history clock 0 p) e /\ q * cd D <= e < (q + 1) * cd D /\
    (q < 2 ^ 53 -> exists x, swstep clock D (SwElapsed k) s = Ret (SwSeconds x) s /\ rounded_quotient q (sd D) x).
Proof.
  intros Hst Hwt Hsn Hsd E Hk. assert (Hcd : 0 < cd D) by apply Hwt.
  destruct (steady_duration clock D Hcd Hst Hwt p l s k E Hk) as (e & q & He & Eq & Hq & Hb).
  exists e, q. split; [exact He|]. split; [exact Hb|]. intros Hlt. exists (seconds_of D q). split.
  - simpl in Eq |- *. unfold elapsed_seconds, bind in *. destruct (duration D k s) as [q' s1| | | |] eqn:Ed; try discriminate.
    injection Eq as -> ->. reflexivity.
  - apply seconds_of_correct; auto.
Qed.

Lemma units_ok : Forall (fun D => 0 < cd D /\ whole_ticks D /\ sn D = 1 /\ 0 < sd D < 2 ^ 53 /\ cd D * sd D = 10 ^ 9)
                        [Seconds; Milliseconds; Microseconds; Nanoseconds].
Proof. repeat constructor. Qed.
