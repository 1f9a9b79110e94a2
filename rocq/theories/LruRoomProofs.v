(** LruRoomProofs.v -- proofs for C159. *)
From Verif Require Import Base StdOrd LruModel LruSpec LruProofs LruRoomSpec.

Section LruRoomProofs.
  Context {L V : Type} (ltb : L -> L -> bool) (SW : SWO ltb).
  Notation items := (list (L * V)).

  Inductive sub : items -> items -> Prop :=
  | sub_nil b : sub [] b
  | sub_keep x a b : sub a b -> sub (x :: a) (x :: b)
  | sub_skip x a b : sub a b -> sub a (x :: b).
  Lemma sub_refl a : sub a a.
  Proof. induction a; constructor; assumption. Qed.
  Lemma sub_In a b x : sub a b -> In x a -> In x b.
  Proof. induction 1; cbn; [contradiction|intuition|intuition]. Qed.
  Lemma sub_length a b : sub a b -> length a <= length b.
  Proof. induction 1; cbn; lia. Qed.
  Lemma sub_removelast a b : sub a b -> sub (removelast a) (removelast b).
  Proof.
    induction 1 as [b|x a b H IH|x a b H IH]; [constructor| |].
    - cbn. destruct a as [|y a]; [constructor|]. destruct b as [|z b]; [inversion H|]. apply sub_keep. exact IH.
    - cbn. destruct b as [|z b]; [inversion H; constructor|]. apply sub_skip. exact IH.
  Qed.
  Lemma sub_cut a b : sub a b -> sub (removelast a) b.
  Proof.
    induction 1 as [b|x a b H IH|x a b H IH]; [constructor| |].
    - cbn. destruct a as [|y a]; [constructor|]. apply sub_keep. exact IH.
    - apply sub_skip. exact IH.
  Qed.
  Lemma sub_take a b l : sub a b -> distinct ltb b -> forall i x ra, take_label ltb l a = Some (i, x, ra) ->
    exists j rb, take_label ltb l b = Some (j, x, rb) /\ sub ra rb /\ i <= j.
  Proof.
    induction 1 as [b|y a b H IH|y a b H IH]; intros Hd i x ra E.
    - discriminate.
    - cbn [take_label] in *. inversion Hd as [|? ? Hf Hd']; subst. destruct (eqvb ltb (fst y) l) eqn:Ey.
      + injection E as <- <- <-. exists 0, b. repeat split; [exact H|lia].
      + destruct (take_label ltb l a) as [[[i' x'] ra']|] eqn:Ea; [|discriminate]. injection E as <- <- <-.
        destruct (IH Hd' _ _ _ eq_refl) as (j & rb & -> & Hs & Hl). exists (S j), (y :: rb). split; [reflexivity|]. split; [apply sub_keep, Hs|lia].
    - cbn [take_label]. inversion Hd as [|? ? Hf Hd']; subst. destruct (IH Hd' _ _ _ E) as (j & rb & Eb & Hs & Hl).
      destruct (eqvb ltb (fst y) l) eqn:Ey.
      + exfalso. destruct (take_label_Some ltb l b j x rb Eb) as (l1 & l2 & -> & _ & _ & Ex).
        rewrite Forall_forall in Hf. specialize (Hf x (in_elt x l1 l2)).
        rewrite (eqvb_trans ltb SW (fst y) l (fst x)) in Hf; [discriminate|exact Ey|]. rewrite eqvb_sym. exact Ex.
      + rewrite Eb. exists (S j), (y :: rb). split; [reflexivity|]. split; [apply sub_skip, Hs|lia].
  Qed.
  Lemma sub_rest a b l : sub a b -> take_label ltb l a = None -> forall j x rb, take_label ltb l b = Some (j, x, rb) -> sub a rb.
  Proof.
    induction 1 as [b|y a b H IH|y a b H IH]; intros E j x rb Eb; [constructor| |]; cbn [take_label] in *.
    - destruct (eqvb ltb (fst y) l); [discriminate|]. destruct (take_label ltb l a) as [[[? ?] ?]|]; [discriminate|].
      destruct (take_label ltb l b) as [[[j' x'] rb']|]; [|discriminate]. injection Eb as <- <- <-. apply sub_keep. eapply IH; reflexivity.
    - destruct (eqvb ltb (fst y) l); [injection Eb as <- <- <-; exact H|].
      destruct (take_label ltb l b) as [[[j' x'] rb']|]; [|discriminate]. injection Eb as <- <- <-. apply sub_skip. eapply IH; [exact E|reflexivity].
  Qed.
  Lemma sub_none a b l : sub a b -> take_label ltb l b = None -> take_label ltb l a = None.
  Proof.
    intros H E. apply take_label_None. intros x Hx. apply (proj1 (take_label_None ltb l b) E). eapply sub_In; eassumption.
  Qed.

  (** the smaller list is part of the larger, and is full or the same *)
  Definition rel (s t : rlist L V) : Prop :=
    (0 < r_cap s <= r_cap t)%Z /\ sub (r_items s) (r_items t) /\ (Z.of_nat (length (r_items s)) <= r_cap s)%Z /\
    (Z.of_nat (length (r_items s)) = r_cap s \/ r_items s = r_items t).
  Lemma rel_step (s t : rlist L V) o : rel s t -> distinct ltb (r_items t) -> accepted o (snd (spec_step ltb t o)) ->
    rel (fst (spec_step ltb s o)) (fst (spec_step ltb t o)) /\ no_worse (snd (spec_step ltb s o)) (snd (spec_step ltb t o)).
  Proof.
    intros H0 Hd Ha. pose proof H0 as (Hc & Hs & Hl & Hf). destruct o as [l|l|l|l v| |]; cbn [spec_step accepted] in *.
    - split; [exact H0|]. cbn [snd fst].
      destruct (take_label ltb l (r_items s)) as [[[i x] ra]|] eqn:E; [|exact I].
      destruct (sub_take _ _ l Hs Hd _ _ _ E) as (j & rb & -> & _). reflexivity.
    - destruct (take_label ltb l (r_items s)) as [[[i x] ra]|] eqn:E.
      + destruct (sub_take _ _ l Hs Hd _ _ _ E) as (j & rb & Eb & Hr & _). rewrite Eb. cbn [fst snd r_cap r_items no_worse]. split; [|reflexivity].
        destruct (take_label_Some ltb l _ _ _ _ E) as (a1 & a2 & Ea & Er & _ & _).
        assert (length (x :: ra) = length (r_items s)) as Hlen by (rewrite Ea, Er; cbn; rewrite !app_length; cbn; lia).
        split; [exact Hc|]. cbn [r_cap r_items]. split; [apply sub_keep, Hr|]. rewrite Hlen. split; [exact Hl|].
        destruct Hf as [Hf|Hf]; [left; exact Hf|right]. rewrite <- Hf, E in Eb. congruence.
      + cbn [snd no_worse fst]. split; [|exact I]. destruct (take_label ltb l (r_items t)) as [[[j x] rb]|] eqn:Eb; [|exact H0].
        cbn [fst r_cap r_items]. split; [exact Hc|]. split; [apply sub_skip; eapply sub_rest; eassumption|]. split; [exact Hl|].
        destruct Hf as [Hf|Hf]; [left; exact Hf|]. rewrite Hf in E. congruence.
    - destruct (take_label ltb l (r_items s)) as [[[i x] ra]|] eqn:E.
      + destruct (sub_take _ _ l Hs Hd _ _ _ E) as (j & rb & Eb & Hr & Hij). rewrite Eb. cbn [fst snd]. split; [exact H0|].
        exists (Z.of_nat j). split; [reflexivity|lia].
      + cbn [fst snd no_worse]. split; [|exact I]. destruct (take_label ltb l (r_items t)) as [[[j x] rb]|]; exact H0.
    - destruct (take_label ltb l (r_items t)) as [[[j x] rb]|] eqn:Eb; [discriminate Ha|].
      rewrite (sub_none _ _ l Hs Eb). cbn [fst snd r_cap r_items no_worse]. split; [|reflexivity].
      split; [exact Hc|]. cbn [r_cap r_items]. destruct (Z.ltb_spec (Z.of_nat (length (r_items s))) (r_cap s)) as [Lt|Ge].
      + destruct Hf as [Hf|Hf]; [lia|]. rewrite <- Hf. destruct (Z.ltb_spec (Z.of_nat (length (r_items s))) (r_cap t)) as [_|Ge]; [|lia].
        split; [apply sub_refl|]. split; [cbn [length]; lia|]. right. reflexivity.
      + assert (Z.of_nat (length (removelast (r_items s))) = r_cap s - 1)%Z as Hr.
        { assert (r_items s <> []) as Hne by (intros Hn; rewrite Hn in Ge; cbn in Ge; lia).
          rewrite (app_removelast_last (l, v) Hne) in Hl, Ge. rewrite app_length in Hl, Ge. cbn in Hl, Ge. lia. }
        split; [apply sub_keep|split; [cbn [length]; lia|left; cbn [length]; lia]].
        destruct (Z.of_nat (length (r_items t)) <? r_cap t)%Z; [apply sub_cut, Hs|apply sub_removelast, Hs].
    - split; [exact H0|]. exists (Z.of_nat (length (r_items t))). split; [reflexivity|]. pose proof (sub_length _ _ Hs). lia.
    - split; [exact H0|]. exists (r_cap t). split; [reflexivity|lia].
  Qed.
  Lemma rel_run (ops : list (op L V)) : forall (c c' : cache L V) s t, R ltb c s -> R ltb c' t -> rel s t ->
    Forall2 (@accepted L V) ops (snd (spec_run ltb t ops)) -> Forall2 no_worse (snd (spec_run ltb s ops)) (snd (spec_run ltb t ops)).
  Proof.
    induction ops as [|o ops IH]; intros c c' s t Hc Hc' Hr Ha; cbn [spec_run] in *; [constructor|].
    destruct (step_refines ltb SW c s o Hc) as (c1 & _ & Hc1). destruct (step_refines ltb SW c' t o Hc') as (c2 & _ & Hc2).
    pose proof (rel_step s t o Hr (distinct_of_R ltb _ _ Hc')) as Hst.
    destruct (spec_step ltb s o) as [s1 r1]. destruct (spec_step ltb t o) as [t1 r2]. cbn [fst snd] in *.
    specialize (IH c1 c2 s1 t1 Hc1 Hc2). destruct (spec_run ltb s1 ops) as [s2 rs]. destruct (spec_run ltb t1 ops) as [t2 rs'].
    cbn [snd] in *. inversion Ha as [|? ? ? ? Ha1 Ha2]; subst. destruct (Hst Ha1) as [Hrel Hw]. constructor; [exact Hw|]. exact (IH Hrel Ha2).
  Qed.
  Lemma answered_eq m (ops : list (op L V)) : (0 < m < 2 ^ 64)%Z -> answered ltb m ops = Some (snd (spec_run ltb (mkRlist m []) ops)).
  Proof.
    intros Hm. destruct (run_refines ltb SW m ops Hm) as (c0 & c' & E & E'). unfold answered. rewrite E, E'. reflexivity.
  Qed.
  Lemma more_room m m' (ops : list (op L V)) : (0 < m <= m')%Z -> (m' < 2 ^ 64)%Z -> exists outs outs',
    answered ltb m ops = Some outs /\ answered ltb m' ops = Some outs' /\
    (Forall2 (@accepted L V) ops outs' -> Forall2 no_worse outs outs').
  Proof.
    intros Hm Hm'. eexists _, _. split; [apply answered_eq; lia|]. split; [apply answered_eq; lia|]. intros Ha.
    apply (rel_run ops (mkCache m [] 0) (mkCache m' [] 0)); [apply R_new; lia|apply R_new; lia| |exact Ha].
    split; [cbn; lia|]. cbn. split; [constructor|]. split; [lia|]. right. reflexivity.
  Qed.

  (** ** a cache with room for one *)
  Definition one (s t : rlist L V) : Prop :=
    r_cap s = 1%Z /\ (0 < r_cap t)%Z /\ ((r_items s = [] /\ r_items t = []) \/ exists l v, r_items s = [(l, v)] /\ take_label ltb l (r_items t) <> None).
  Lemma take_eqv a b t : eqvb ltb a b = true -> take_label (V:=V) ltb a t = None -> take_label ltb b t = None.
  Proof.
    intros E H. apply take_label_None. intros x Hx. destruct (eqvb ltb (fst x) b) eqn:F; [|reflexivity].
    assert (eqvb ltb (fst x) a = true) as G by (apply (eqvb_trans ltb SW _ b); [exact F|rewrite eqvb_sym; exact E]).
    rewrite (proj1 (take_label_None ltb a t) H x Hx) in G. discriminate.
  Qed.
  Lemma take_some l t x : In x t -> eqvb ltb (fst x) l = true -> take_label (V:=V) ltb l t <> None.
  Proof. intros Hx E N. rewrite (proj1 (take_label_None ltb l t) N x Hx) in E. discriminate. Qed.
  Lemma one_step (s t : rlist L V) o : one s t -> one (fst (spec_step ltb s o)) (fst (spec_step ltb t o)) /\ knows (snd (spec_step ltb s o)) (snd (spec_step ltb t o)).
  Proof.
    intros H0. pose proof H0 as (Hs & Ht & H).
    assert (forall l, (match r_items s with [] => False | x :: _ => eqvb ltb (fst x) l = true end) -> take_label ltb l (r_items t) <> None) as Hk.
    { intros l Hx N. destruct H as [[E _]|(l0 & v0 & E & Hn)]; rewrite E in Hx; [contradiction|]. cbn in Hx. apply Hn.
      apply (take_eqv l l0); [rewrite eqvb_sym; exact Hx|exact N]. }
    destruct o as [l|l|l|l v| |]; cbn [spec_step]; try (split; [exact H0|exact I]).
    - split; [exact H0|]. cbn [snd]. destruct H as [[-> _]|(l0 & v0 & E & Hn)]; [exact I|]. rewrite E in *. cbn [take_label fst] in *.
      destruct (eqvb ltb l0 l) eqn:El; [|exact I]. specialize (Hk l El). cbn. destruct (take_label ltb l (r_items t)); [reflexivity|congruence].
    - destruct H as [[E1 E2]|(l0 & v0 & E & Hn)]; [rewrite E1, E2; cbn; split; [exact H0|exact I]|].
      rewrite E in *. cbn [take_label fst] in *. destruct (eqvb ltb l0 l) eqn:El.
      + specialize (Hk l El). destruct (take_label ltb l (r_items t)) as [[[j x] rb]|] eqn:Et; [|congruence]. cbn [fst snd r_cap r_items].
        split; [|exists (snd x); reflexivity]. split; [exact Hs|]. split; [exact Ht|]. right. exists l0, v0. split; [reflexivity|].
        cbn [r_items]. destruct (take_label_Some ltb l _ _ _ _ Et) as (_ & _ & _ & _ & _ & Ex).
        apply (take_some _ _ x); [left; reflexivity|]. apply (eqvb_trans ltb SW _ l); [exact Ex|rewrite eqvb_sym; exact El].
      + cbn [fst snd]. split; [|exact I]. destruct (take_label ltb l (r_items t)) as [[[j x] rb]|] eqn:Et; [|exact H0].
        split; [exact Hs|]. split; [exact Ht|]. right. exists l0, v0. split; [exact E|]. cbn [fst r_items].
        destruct (take_label_Some ltb l _ _ _ _ Et) as (a1 & a2 & Ei & Er & _ & _).
        destruct (take_label ltb l0 (r_items t)) as [[[j0 x0] rb0]|] eqn:E0; [|congruence].
        destruct (take_label_Some ltb l0 _ _ _ _ E0) as (b1 & b2 & Ei0 & _ & _ & Ex0).
        apply (take_some _ _ x0); [|exact Ex0]. assert (In x0 (r_items t)) as Hin by (rewrite Ei0; apply in_or_app; right; left; reflexivity).
        rewrite Ei in Hin. rewrite Er. apply in_app_or in Hin. cbn in Hin |- *. rewrite in_app_iff. intuition.
    - destruct (take_label ltb l (r_items s)) as [[[? ?] ?]|]; destruct (take_label ltb l (r_items t)) as [[[? ?] ?]|]; (split; [exact H0|exact I]).
    - assert (forall x u, one (mkRlist (r_cap s) [(l, x)]) (mkRlist (r_cap t) ((l, x) :: u))) as Hput.
      { intros x u. split; [exact Hs|]. split; [exact Ht|]. right. exists l, x. split; [reflexivity|]. cbn. rewrite (eqvb_refl ltb SW l). discriminate. }
      destruct (take_label ltb l (r_items s)) as [[[i x] ra]|] eqn:E.
      + cbn [fst snd]. split; [|exact I]. assert (take_label ltb l (r_items t) <> None) as Hn.
        { apply Hk. destruct H as [[Es _]|(l0 & v0 & Es & _)]; rewrite Es in *; [discriminate|]. cbn in E. destruct (eqvb ltb l0 l) eqn:El; [exact El|discriminate]. }
        destruct (take_label ltb l (r_items t)); [exact H0|congruence].
      + assert ((if (Z.of_nat (length (r_items s)) <? r_cap s)%Z then r_items s else removelast (r_items s)) = []) as ->.
        { rewrite Hs. destruct H as [[-> _]|(l0 & v0 & -> & _)]; reflexivity. }
        cbn [fst snd]. split; [|exact I]. destruct (take_label ltb l (r_items t)) as [p|] eqn:Et; [|apply Hput].
        split; [exact Hs|]. split; [exact Ht|]. right. exists l, v. split; [reflexivity|]. cbn [fst r_items]. rewrite Et. discriminate.
  Qed.
  Lemma one_run (ops : list (op L V)) : forall s t, one s t -> Forall2 knows (snd (spec_run ltb s ops)) (snd (spec_run ltb t ops)).
  Proof.
    induction ops as [|o ops IH]; intros s t H; cbn [spec_run]; [constructor|]. destruct (one_step s t o H) as [H1 Hk].
    destruct (spec_step ltb s o) as [s1 r1]. destruct (spec_step ltb t o) as [t1 r2]. cbn [fst snd] in *. specialize (IH s1 t1 H1).
    destruct (spec_run ltb s1 ops). destruct (spec_run ltb t1 ops). cbn [snd] in *. constructor; assumption.
  Qed.
  Lemma room_for_one m (ops : list (op L V)) : (0 < m < 2 ^ 64)%Z -> exists outs outs',
    answered ltb 1 ops = Some outs /\ answered ltb m ops = Some outs' /\ Forall2 knows outs outs'.
  Proof.
    intros Hm. eexists _, _. split; [apply answered_eq; lia|]. split; [apply answered_eq; lia|]. apply one_run.
    split; [reflexivity|]. split; [cbn; lia|]. left. split; reflexivity.
  Qed.
End LruRoomProofs.

(** ** at every two capacities from 2 on, the larger cache may forget what the smaller remembers *)
Definition fill_calls (n : nat) : list (op nat nat) := map (fun i => OPut i i) (seq 0 n).
Definition forget_calls (n : nat) : list (op nat nat) := fill_calls n ++ [OPut 0 0; OPut n n; OHas 0].
Lemma spec_run_app {L V} (ltb : L -> L -> bool) (a b : list (op L V)) : forall s,
  spec_run ltb s (a ++ b) = (fst (spec_run ltb (fst (spec_run ltb s a)) b), snd (spec_run ltb s a) ++ snd (spec_run ltb (fst (spec_run ltb s a)) b)).
Proof.
  induction a as [|o a IH]; intros s; cbn [app spec_run].
  - cbn. destruct (spec_run ltb s b). reflexivity.
  - destruct (spec_step ltb s o) as [s1 r1]. rewrite IH. destruct (spec_run ltb s1 a) as [s2 rs]. reflexivity.
Qed.
Definition pairs (l : list nat) : list (nat * nat) := map (fun i => (i, i)) l.
Lemma nat_eqv a b : eqvb Nat.ltb a b = Nat.eqb a b.
Proof. unfold eqvb. destruct (Nat.ltb_spec a b), (Nat.ltb_spec b a), (Nat.eqb_spec a b); try reflexivity; exfalso; lia. Qed.
Lemma take_pairs l (p : list nat) : take_label Nat.ltb l (pairs p) = None <-> ~ In l p.
Proof.
  rewrite take_label_None. unfold pairs. split.
  - intros H Hin. specialize (H (l, l) (in_map (fun i => (i, i)) _ _ Hin)). cbn in H. rewrite nat_eqv, Nat.eqb_refl in H. discriminate.
  - intros H x Hx. apply in_map_iff in Hx as (i & <- & Hi). cbn. rewrite nat_eqv. apply Nat.eqb_neq. intros ->. contradiction.
Qed.
Lemma firstn_removelast {A} n (l : list A) : length l = n -> 0 < n -> removelast l = firstn (n - 1) l.
Proof. intros E Hn. subst n. rewrite removelast_firstn_len. f_equal. lia. Qed.
Lemma fill_state c n : 0 < c -> fst (spec_run Nat.ltb (mkRlist (Z.of_nat c) []) (fill_calls n)) = mkRlist (Z.of_nat c) (pairs (firstn c (rev (seq 0 n)))).
Proof.
  intros Hc. induction n as [|n IH]; [cbn; rewrite firstn_nil; reflexivity|]. unfold fill_calls in *. rewrite seq_S, map_app, spec_run_app. cbn [fst]. rewrite IH.
  cbn [map spec_run spec_step r_items r_cap plus].
  assert (take_label Nat.ltb n (pairs (firstn c (rev (seq 0 n)))) = None) as ->.
  { apply take_pairs. intros H. apply (fun H => in_or_app _ (skipn c (rev (seq 0 n))) _ (or_introl H)) in H. rewrite firstn_skipn in H.
    apply in_rev in H. apply in_seq in H. lia. }
  cbn [fst]. rewrite rev_app_distr. cbn [rev app]. destruct c as [|c]; [lia|]. rewrite firstn_cons. cbn [pairs map]. f_equal. f_equal.
  unfold pairs. rewrite map_length, firstn_length, rev_length, seq_length.
  destruct (Z.ltb_spec (Z.of_nat (Nat.min (S c) n)) (Z.of_nat (S c))) as [Lt|Ge].
  - assert (n <= c) by lia. f_equal. rewrite !firstn_all2; [reflexivity| |]; rewrite rev_length, seq_length; lia.
  - rewrite (firstn_removelast (S c)) by (rewrite ?map_length, ?firstn_length, ?rev_length, ?seq_length; lia).
    rewrite firstn_map, firstn_firstn. repeat f_equal. lia.
Qed.
Lemma in_firstn_rev c n x : c <= n -> In x (firstn c (rev (seq 0 n))) <-> n - c <= x < n.
Proof.
  intros Hc. assert (rev (seq 0 n) = rev (seq (n - c) c) ++ rev (seq 0 (n - c))) as ->.
  { rewrite <- rev_app_distr. f_equal. replace n with ((n - c) + c) at 1 by lia. rewrite seq_app. reflexivity. }
  rewrite firstn_app, rev_length, seq_length, Nat.sub_diag. cbn [firstn]. rewrite app_nil_r, firstn_all2 by (rewrite rev_length, seq_length; lia).
  rewrite <- in_rev, in_seq. lia.
Qed.
Lemma forget_small c n : 2 <= c < n -> exists o, snd (spec_run Nat.ltb (mkRlist (Z.of_nat c) []) (forget_calls n)) = o ++ [RUnit; RUnit; RBool true].
Proof.
  intros Hc. unfold forget_calls. rewrite spec_run_app, fill_state by lia. cbn [snd]. eexists. f_equal.
  cbn [spec_run spec_step r_items r_cap].
  assert (take_label Nat.ltb 0 (pairs (firstn c (rev (seq 0 n)))) = None) as -> by (apply take_pairs; rewrite in_firstn_rev by lia; lia).
  assert (length (pairs (firstn c (rev (seq 0 n)))) = c) as Hl by (unfold pairs; rewrite map_length, firstn_length, rev_length, seq_length; lia).
  rewrite Hl. destruct (Z.ltb_spec (Z.of_nat c) (Z.of_nat c)) as [|_]; [lia|]. cbn [r_items r_cap].
  set (q := pairs (firstn c (rev (seq 0 n)))) in *.
  assert (removelast q = pairs (firstn (c - 1) (rev (seq 0 n)))) as Hq.
  { unfold q. rewrite (firstn_removelast c); [|exact Hl|lia]. unfold pairs. rewrite firstn_map, firstn_firstn. f_equal. f_equal. lia. }
  rewrite Hq. change ((0, 0) :: pairs (firstn (c - 1) (rev (seq 0 n)))) with (pairs (0 :: firstn (c - 1) (rev (seq 0 n)))).
  assert (take_label Nat.ltb n (pairs (0 :: firstn (c - 1) (rev (seq 0 n)))) = None) as ->.
  { apply take_pairs. cbn [In]. rewrite in_firstn_rev by lia. lia. }
  cbn [r_items r_cap]. set (w := pairs (0 :: firstn (c - 1) (rev (seq 0 n)))).
  assert (exists u, (if Z.ltb (Z.of_nat (length w)) (Z.of_nat c) then w else removelast w) = (0, 0) :: u) as [u ->].
  { unfold w. destruct (_ <? _)%Z; [eexists; reflexivity|]. cbn [pairs map]. destruct (firstn (c - 1) (rev (seq 0 n))) as [|y z] eqn:E; [|eexists; reflexivity].
    exfalso. apply (f_equal (@length nat)) in E. rewrite firstn_length, rev_length, seq_length in E. cbn in E. lia. }
  cbn [take_label fst]. rewrite !nat_eqv. destruct (Nat.eqb n 0); reflexivity.
Qed.
Lemma forget_large n : 2 <= n -> exists o, snd (spec_run Nat.ltb (mkRlist (Z.of_nat n) []) (forget_calls n)) = o ++ [RThrow ERuntime; RUnit; RBool false].
Proof.
  intros Hn. unfold forget_calls. rewrite spec_run_app, fill_state by lia. cbn [snd]. eexists. f_equal.
  cbn [spec_run spec_step r_items r_cap].
  destruct (take_label Nat.ltb 0 (pairs (firstn n (rev (seq 0 n))))) as [p|] eqn:E0.
  2:{ exfalso. apply take_pairs in E0. apply E0. apply in_firstn_rev; lia. }
  cbn [r_items r_cap].
  assert (take_label Nat.ltb n (pairs (firstn n (rev (seq 0 n)))) = None) as -> by (apply take_pairs; rewrite in_firstn_rev by lia; lia).
  assert (length (pairs (firstn n (rev (seq 0 n)))) = n) as Hl by (unfold pairs; rewrite map_length, firstn_length, rev_length, seq_length; lia).
  rewrite Hl. destruct (Z.ltb_spec (Z.of_nat n) (Z.of_nat n)) as [|_]; [lia|]. cbn [r_items r_cap].
  assert (removelast (pairs (firstn n (rev (seq 0 n)))) = pairs (firstn (n - 1) (rev (seq 0 n)))) as ->.
  { rewrite (firstn_removelast n) by (exact Hl || lia). unfold pairs. rewrite firstn_map, firstn_firstn. f_equal. f_equal. lia. }
  assert (take_label Nat.ltb 0 ((n, n) :: pairs (firstn (n - 1) (rev (seq 0 n)))) = None) as Hn0.
  { change ((n, n) :: pairs (firstn (n - 1) (rev (seq 0 n)))) with (pairs (n :: firstn (n - 1) (rev (seq 0 n)))).
    apply take_pairs. cbn [In]. rewrite in_firstn_rev by lia. lia. }
  rewrite Hn0.
  reflexivity.
Qed.
Lemma forgets m m' : (2 <= m < m')%Z -> (m' < 2 ^ 64)%Z -> exists (ops : list (op nat nat)) (l : nat) outs outs',
  answered Nat.ltb m (ops ++ [OHas l]) = Some (outs ++ [RBool true]) /\ answered Nat.ltb m' (ops ++ [OHas l]) = Some (outs' ++ [RBool false]).
Proof.
  intros Hm Hm'. destruct (forget_small (Z.to_nat m) (Z.to_nat m')) as [o Ho]; [lia|]. destruct (forget_large (Z.to_nat m')) as [o' Ho']; [lia|].
  rewrite Z2Nat.id in Ho, Ho' by lia.
  exists (fill_calls (Z.to_nat m') ++ [OPut 0 0; OPut (Z.to_nat m') (Z.to_nat m')]), 0, (o ++ [RUnit; RUnit]), (o' ++ [RThrow ERuntime; RUnit]).
  rewrite <- !app_assoc. cbn [app]. change (fill_calls (Z.to_nat m') ++ _) with (forget_calls (Z.to_nat m')).
  rewrite !answered_eq by (try apply swo_nat; lia). rewrite Ho, Ho'. split; reflexivity.
Qed.
