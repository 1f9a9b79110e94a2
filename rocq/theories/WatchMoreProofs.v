(** WatchMoreProofs.v -- lemmas for WatchMoreProps.v *)
From Coq Require Import Floats.SpecFloat.
From Verif Require Import Base StopwatchModel StopwatchSpec StopwatchProofs WatchMoreModel WatchMoreSpec.
Local Open Scope Z_scope.

Lemma double_seconds clock D p l s k : steady clock -> whole_ticks D ->
  swrun clock D p swinit = Ret l s -> watches s k <> None ->
  exists e, elapsed_of k (history clock 0 p) e /\ 0 <= e /\
    (e < 2 ^ 53 -> exists x, elapsed_double k s = Ret x s /\ rounded_quotient e (10 ^ 9) x).
Proof.
  intros Hst Hwt E Hk. assert (Hcd : 0 < cd D) by apply Hwt.
  destruct (steady_duration clock D Hcd Hst Hwt p l s k E Hk) as (e & q & He & Eq & Hq & Hb).
  assert (He0 : 0 <= e) by nia. exists e. split; [exact He|]. split; [exact He0|]. intros Hlt.
  destruct (watches s k) as [[t0 t1]|] eqn:Ew; [|congruence].
  destruct (elapsed_watch _ _ _ _ (swrun_ok clock D p l s E) He) as (i & c & Hw & Ht). rewrite Ew in Hw. injection Hw as <- <-.
  exists (seconds_of Nanoseconds e). split.
  - unfold elapsed_double, duration_double, bind, get_watch. rewrite Ew. cbn [fst snd]. rewrite <- Ht.
    replace (in64 e) with true; [reflexivity|]. symmetry. apply in64_iff. unfold fits64. lia.
  - apply (seconds_of_correct Nanoseconds e); cbn; lia.
Qed.

Lemma history_shift real c p : forall n, history (fun i => real i + c) n p = map (fun '(o, t) => (o, t + c)) (history real n p).
Proof.
  induction p as [|o p IH]; intros n; [reflexivity|]. cbn [history]. destruct (reads o); [|apply IH]. cbn [map]. now rewrite IH.
Qed.
Lemma elapsed_shift k c h e : elapsed_of k h e -> elapsed_of k (map (fun '(o, t) => (o, t + c)) h) e.
Proof.
  intros (h1 & o & t0 & h2 & -> & S & N & H). rewrite map_app. cbn [map].
  exists (map (fun '(o, t) => (o, t + c)) h1), o, (t0 + c), (map (fun '(o, t) => (o, t + c)) h2).
  assert (F : forall P : swop -> Prop, forall l : list (swop * Z), Forall (fun x => ~ P (fst x)) l -> Forall (fun x => ~ P (fst x)) (map (fun '(o, t) => (o, t + c)) l)).
  { intros P l. induction 1 as [|[] l X _ IH]; constructor; auto. }
  split; [reflexivity|]. split; [exact S|]. split; [exact (F (fun o => o = SwNew k \/ o = SwRestart k) h2 N)|].
  destruct H as [[H ->]|(h3 & t1 & h4 & -> & H & ->)].
  - left. split; [exact (F (fun o => o = SwClick k) h2 H)|reflexivity].
  - right. exists (map (fun '(o, t) => (o, t + c)) h3), (t1 + c), (map (fun '(o, t) => (o, t + c)) h4). rewrite map_app.
    split; [reflexivity|]. split; [exact (F (fun o => o = SwClick k) h4 H)|lia].
Qed.
Lemma history_ext f g p : (forall i, f i = g i) -> forall n, history f n p = history g n p.
Proof. intros H. induction p as [|o p IH]; intros n; [reflexivity|]. cbn. now rewrite IH, IH, H. Qed.
Lemma unset_elapsed lib real set D p l s k e : 0 < cd D -> lib = Libcxx \/ not_set set ->
  swrun (high_resolution_clock lib real set) D p swinit = Ret l s -> elapsed_of k (history real 0 p) e -> fits64 e -> fits64 (e * cn D) ->
  exists q, swstep (high_resolution_clock lib real set) D (SwDuration k) s = Ret (SwCount q) s /\ truncated (e * cn D) (cd D) q.
Proof.
  intros Hcd H E He F1 F2. apply (duration_exact _ D Hcd p l s k e E); [|exact F1|exact F2].
  destruct lib; [|exact He]. destruct H as [H|[c H]]; [discriminate H|].
  rewrite (history_ext _ (fun i => real i + c)); [|intros i; cbn; now rewrite H].
  rewrite history_shift. now apply elapsed_shift.
Qed.
Lemma set_measured real set D a b : whole_ticks D -> real 0%nat = a -> real 1%nat = b ->
  let d := set 1%nat - set 0%nat in fits64 (b - a + d) ->
  exists s, swrun (high_resolution_clock Libstdcxx real set) D [SwNew 0; SwClick 0; SwDuration 0] swinit =
            Ret [SwUnit; SwUnit; SwCount (Z.quot (b - a + d) (cd D))] s.
Proof.
  intros [Hn Hd] <- <- d F. cbv [swrun swstep construct restart click duration duration_cast now get_watch put_watch bind ret swinit watches ticks].
  cbn. unfold set_var at 1 2. cbn.
  replace (real 1%nat + set 1%nat - (real 0%nat + set 0%nat)) with (real 1%nat - real 0%nat + d) by (unfold d; lia).
  rewrite (proj2 (in64_iff _) F), Hn, Z.mul_1_r, (proj2 (in64_iff _) F). eexists. reflexivity.
Qed.
Lemma any_duration real D q : whole_ticks D -> fits64 (q * cd D) ->
  exists set s, swrun (high_resolution_clock Libstdcxx real set) D [SwNew 0; SwClick 0; SwDuration 0] swinit = Ret [SwUnit; SwUnit; SwCount q] s.
Proof.
  intros W F. set (f := fun i : nat => match i with O => 0 | _ => q * cd D - (real 1%nat - real 0%nat) end). exists f.
  destruct (set_measured real f D _ _ W eq_refl eq_refl) as [s E].
  - cbn. replace (_ - _ + _) with (q * cd D) by lia. exact F.
  - exists s. rewrite E. cbn [f]. replace (_ - _ + _) with (q * cd D) by (cbn; lia). rewrite Z.quot_mul; [reflexivity|destruct W; lia].
Qed.
