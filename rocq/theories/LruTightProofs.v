(** LruTightProofs.v -- lemmas for LruPerfProps.v: sequences of requests on which the bound of C88 is reached.
    No code is modelled here. *)
From Verif Require Import Base StdOrd LruModel LruPerfSpec LruPerfProofs.

Lemma same (a b : nat) : eqvb Nat.ltb a b = true <-> a = b.
Proof.
  unfold eqvb. rewrite andb_true_iff, !negb_true_iff, !Nat.ltb_ge. lia.
Qed.
Lemma among_nat l s : among Nat.ltb l s = true <-> In l s.
Proof.
  unfold among. rewrite existsb_exists. split.
  - intros (x & Hx & E). apply same in E. subst. exact Hx.
  - intros H. exists l. split; [exact H|apply same; reflexivity].
Qed.
Lemma among_nat_not l s : ~ In l s -> among Nat.ltb l s = false.
Proof. intros H. destruct (among Nat.ltb l s) eqn:E; [|reflexivity]. apply among_nat in E. contradiction. Qed.

Lemma different_nat s : different Nat.ltb s = length (nodup Nat.eq_dec s).
Proof.
  induction s as [|x s IH]; [reflexivity|]. cbn [different nodup].
  destruct (in_dec Nat.eq_dec x s) as [Hi|Hi].
  - apply among_nat in Hi. rewrite Hi. exact IH.
  - rewrite (among_nat_not _ _ Hi). cbn [length]. rewrite IH. reflexivity.
Qed.
Lemma different_ge d c : NoDup d -> incl d c -> length d <= different Nat.ltb c.
Proof.
  intros Hd Hi. rewrite different_nat. apply NoDup_incl_length; [exact Hd|].
  intros x Hx. apply nodup_In. apply Hi. exact Hx.
Qed.

Lemma last_place (l : nat) d : ~ In l d -> forall p a c, p ++ l :: d = a ++ l :: c -> incl d c.
Proof.
  intros Hn p. induction p as [|x p IH]; intros [|y a] c E; cbn in E; injection E; intros.
  - subst. apply incl_refl.
  - subst d. exfalso. apply Hn. apply in_or_app. right. left. reflexivity.
  - subst x c. intros y Hy. apply in_or_app. right. right. exact Hy.
  - eapply IH; eassumption.
Qed.

(** no request of ls, made after the requests pre, is for a recent label *)
Definition stale (m : nat) (pre ls : list nat) : Prop :=
  forall a l b, ls = a ++ l :: b -> ~ recent Nat.ltb (Z.of_nat m) (pre ++ a) l.

Lemma stale_nil m pre : stale m pre [].
Proof. intros [|? a] l b E; discriminate. Qed.
Lemma stale_cons m pre l ls :
  ~ recent Nat.ltb (Z.of_nat m) pre l -> stale m (pre ++ [l]) ls -> stale m pre (l :: ls).
Proof.
  intros Hl Hs [|x a] y b E; cbn in E; injection E; intros; subst.
  - rewrite app_nil_r. exact Hl.
  - specialize (Hs a y b eq_refl). rewrite <- app_assoc in Hs. exact Hs.
Qed.
Lemma stale_app m pre u v : stale m pre u -> stale m (pre ++ u) v -> stale m pre (u ++ v).
Proof.
  revert pre. induction u as [|x u IH]; intros pre Hu Hv.
  - rewrite app_nil_r in Hv. exact Hv.
  - cbn. apply stale_cons.
    + specialize (Hu [] x u eq_refl). rewrite app_nil_r in Hu. exact Hu.
    + apply IH.
      * intros a l b E. rewrite <- app_assoc. cbn. apply (Hu (x :: a) l b). rewrite E. reflexivity.
      * rewrite <- app_assoc. exact Hv.
Qed.

Lemma new_stale m pre l : ~ In l pre -> ~ recent Nat.ltb (Z.of_nat m) pre l.
Proof.
  intros Hn (a & b & c & E & Hb & _). apply same in Hb. subst. apply Hn. apply in_or_app. right. left. reflexivity.
Qed.
Lemma seq_stale m n : forall pre k, (forall x, In x pre -> x < k) -> stale m pre (seq k n).
Proof.
  induction n as [|n IH]; intros pre k Hk; [apply stale_nil|]. cbn. apply stale_cons.
  - apply new_stale. intros Hi. specialize (Hk _ Hi). lia.
  - apply IH. intros x Hx. apply in_app_or in Hx as [Hx|[<-|[]]]; [specialize (Hk _ Hx)|]; lia.
Qed.

(** requests in the order d, which were made before in that order, with g others since *)
Lemma again_stale m (F : list nat) : forall d2 d1 pre,
  NoDup ((d1 ++ d2) ++ F) -> m <= length ((d1 ++ d2) ++ F) - 1 ->
  stale m (((pre ++ d1 ++ d2) ++ F) ++ d1) d2.
Proof.
  induction d2 as [|x d2 IH]; intros d1 pre Hn Hm; [apply stale_nil|]. apply stale_cons.
  - intros (a & b & c & E & Hb & Hc). apply same in Hb. subst b.
    assert (Hp : Permutation.Permutation ((d1 ++ x :: d2) ++ F) (x :: (d2 ++ F ++ d1))).
    { rewrite <- app_assoc. etransitivity; [apply Permutation.Permutation_app_comm|].
      cbn. rewrite <- app_assoc. reflexivity. }
    assert (Hx : NoDup (x :: (d2 ++ F ++ d1))) by (eapply Permutation.Permutation_NoDup; eassumption).
    apply NoDup_cons_iff in Hx as [Hx Hd].
    assert (Hi : incl (d2 ++ F ++ d1) c).
    { apply (last_place x _ Hx (pre ++ d1) a c). rewrite <- E. rewrite <- !app_assoc. reflexivity. }
    apply (different_ge _ _ Hd) in Hi. apply Permutation.Permutation_length in Hp. cbn in Hp. lia.
  - replace ((((pre ++ d1 ++ x :: d2) ++ F) ++ d1) ++ [x]) with (((pre ++ (d1 ++ [x]) ++ d2) ++ F) ++ (d1 ++ [x]))
      by (rewrite <- !app_assoc; reflexivity).
    apply IH; rewrite <- (app_assoc d1 [x] d2); assumption.
Qed.
Lemma stale_prefix m pre u v : stale m pre (u ++ v) -> stale m pre u.
Proof. intros H a l b E. apply (H a l (b ++ v)). rewrite E, <- app_assoc. reflexivity. Qed.

(** the requests after the first h: g+1 new labels, then what was requested last, without the very last, in the
    same order; and so on *)
Fixpoint worst (g n : nat) (d : list nat) (k : nat) : list nat :=
  match n with
  | O => []
  | S n' => let d' := (k + g) :: removelast d in seq k g ++ d' ++ worst g n' d' (S (k + g))
  end.
(** what the other strategy keeps meanwhile: all of these, and the last new label *)
Fixpoint kept (g n : nat) (d : list nat) (k : nat) : list (list nat) :=
  match n with
  | O => []
  | S n' => let d' := (k + g) :: removelast d in
            map (fun x => x :: removelast d) (seq k g) ++ repeat d' (length d') ++ kept g n' d' (S (k + g))
  end.

Lemma removelast_In {A} (d : list A) x : In x (removelast d) -> In x d.
Proof.
  destruct d as [|y d] using rev_ind; [intros []|]. rewrite removelast_last. intros H. apply in_or_app. left. exact H.
Qed.
Lemma removelast_NoDup {A} (d : list A) : NoDup d -> NoDup (removelast d).
Proof.
  destruct d as [|y d] using rev_ind; [intros _; constructor|]. rewrite removelast_last. intros H.
  apply NoDup_remove_1 in H. rewrite app_nil_r in H. exact H.
Qed.
Lemma removelast_len {A} (d : list A) : length (removelast d) = length d - 1.
Proof.
  destruct d as [|y d] using rev_ind; [reflexivity|]. rewrite removelast_last, app_length. cbn. lia.
Qed.

Lemma NoDup_app_seq (d : list nat) k n : NoDup d -> (forall x, In x d -> x < k) -> NoDup (d ++ seq k n).
Proof.
  induction d as [|x d IH]; intros Hd Hk; [apply seq_NoDup|]. apply NoDup_cons_iff in Hd as [Hx Hd]. cbn. constructor.
  - intros Hi. apply in_app_or in Hi as [Hi|Hi]; [contradiction|]. apply in_seq in Hi.
    specialize (Hk x (or_introl eq_refl)). lia.
  - apply IH; [exact Hd|]. intros y Hy. apply Hk. right. exact Hy.
Qed.

Lemma worst_stale g n : forall pre d k, d <> [] -> NoDup d -> (forall x, In x (pre ++ d) -> x < k) ->
  stale (length d + g) (pre ++ d) (worst g n d k).
Proof.
  induction n as [|n IH]; intros pre d k Hd Hn Hk; [apply stale_nil|]. cbn [worst].
  destruct d as [|y d _] using rev_ind; [contradiction|]. clear Hd. rewrite removelast_last.
  set (d' := (k + g) :: d).
  assert (Hs : seq k g ++ d' ++ worst g n d' (S (k + g)) = (seq k (S g) ++ d) ++ worst g n d' (S (k + g))).
  { rewrite seq_S. rewrite <- !app_assoc. reflexivity. }
  rewrite Hs. apply stale_app; [apply stale_app|].
  - apply seq_stale. exact Hk.
  - apply (stale_prefix _ _ d [y]).
    assert (H := again_stale (length (d ++ [y]) + g) (seq k (S g)) (d ++ [y]) [] pre).
    cbn [app] in H. rewrite app_nil_r in H. apply H.
    + apply NoDup_app_seq; [exact Hn|]. intros x Hx. apply Hk. apply in_or_app. right. exact Hx.
    + rewrite !app_length, seq_length. cbn. lia.
  - replace ((pre ++ d ++ [y]) ++ seq k (S g) ++ d) with (((pre ++ d ++ [y]) ++ seq k g) ++ d')
      by (rewrite seq_S; unfold d'; rewrite <- !app_assoc; reflexivity).
    replace (length (d ++ [y]) + g) with (length d' + g) by (unfold d'; rewrite app_length; cbn; lia).
    apply IH.
    + discriminate.
    + unfold d'. constructor.
      * intros Hi. assert (k + g < k); [|lia]. apply Hk. apply in_or_app. right. apply in_or_app. left. exact Hi.
      * apply NoDup_remove_1 in Hn. rewrite app_nil_r in Hn. exact Hn.
    + intros x Hx. apply in_app_or in Hx as [Hx|Hx].
      * apply in_app_or in Hx as [Hx|Hx]; [specialize (Hk _ Hx)|apply in_seq in Hx]; lia.
      * destruct Hx as [<-|Hx]; [lia|]. assert (x < k); [|lia].
        apply Hk. apply in_or_app. right. apply in_or_app. left. exact Hx.
Qed.

Lemma last_cons {A} (r : list A) : forall x s, last (x :: r) s = last r x.
Proof.
  induction r as [|y r IH]; intros x s; [reflexivity|]. change (last (x :: y :: r) s) with (last (y :: r) s).
  rewrite !IH. reflexivity.
Qed.
Lemma strategy_app h u cu v cv : forall s, length u = length cu ->
  strategy Nat.ltb h s u cu -> strategy Nat.ltb h (last cu s) v cv -> strategy Nat.ltb h s (u ++ v) (cu ++ cv).
Proof.
  revert cu. induction u as [|l u IH]; intros [|c cu] s Hl Hu Hv; try discriminate; [exact Hv|].
  cbn [strategy app] in Hu |- *. destruct Hu as (H1 & H2 & H3 & H4). repeat (split; [assumption|]).
  rewrite last_cons in Hv. apply IH; [cbn in Hl; lia|exact H4|exact Hv].
Qed.
Lemma faults_app u cu v cv : forall s, length u = length cu ->
  faults Nat.ltb s (u ++ v) (cu ++ cv) = faults Nat.ltb s u cu + faults Nat.ltb (last cu s) v cv.
Proof.
  revert cu. induction u as [|l u IH]; intros [|c cu] s Hl; try discriminate; [reflexivity|].
  rewrite last_cons. cbn [app faults]. rewrite IH by (cbn in Hl; lia). lia.
Qed.

(** new labels, which take the one place that changes *)
Lemma news h e : length e < h -> forall g k s,
  (forall x, In x e -> In x s) -> (forall x, In x s -> x < k) ->
  let cs := map (fun x => x :: e) (seq k g) in
  strategy Nat.ltb h s (seq k g) cs /\ faults Nat.ltb s (seq k g) cs = g /\
  (forall x, In x e -> In x (last cs s)) /\ (forall x, In x (last cs s) -> x < k + g).
Proof.
  intros He g. induction g as [|g IH]; intros k s Hes Hs; cbn [seq map].
  - repeat split; [exact Hes|]. intros x Hx. rewrite Nat.add_0_r. apply Hs. exact Hx.
  - cbn zeta. rewrite last_cons. cbn [strategy faults].
    destruct (IH (S k) (k :: e)) as (H1 & H2 & H3 & H4).
    { intros x Hx. right. exact Hx. }
    { intros x [<-|Hx]; [lia|]. specialize (Hs x (Hes x Hx)). lia. }
    split; [split; [cbn; lia|split; [apply among_nat; left; reflexivity|split; [|exact H1]]]|].
    { intros x Hx. apply among_nat in Hx. apply among_nat. destruct Hx as [Hx|Hx]; [left; exact Hx|right; auto]. }
    split; [|split; [exact H3|intros x Hx; specialize (H4 x Hx); lia]].
    rewrite H2. rewrite among_nat_not; [lia|]. intros Hi. specialize (Hs k Hi). lia.
Qed.
(** requests for what is kept *)
Lemma olds h (s u : list nat) : length s <= h -> incl u s ->
  strategy Nat.ltb h s u (repeat s (length u)) /\ faults Nat.ltb s u (repeat s (length u)) = 0 /\
  last (repeat s (length u)) s = s.
Proof.
  intros Hh. induction u as [|l u IH]; intros Hu; [repeat split|]. cbn [length repeat]. rewrite last_cons.
  destruct IH as (H1 & H2 & H3). { intros x Hx. apply Hu. right. exact Hx. }
  assert (Hl : among Nat.ltb l s = true) by (apply among_nat; apply Hu; left; reflexivity).
  cbn [strategy faults]. rewrite Hl, H2. repeat split; auto.
  intros x Hx. apply among_nat in Hx. apply among_nat. right. exact Hx.
Qed.

Lemma kept_strategy g n : forall d k, d <> [] -> (forall x, In x d -> x < k) ->
  strategy Nat.ltb (length d) d (worst g n d k) (kept g n d k) /\
  faults Nat.ltb d (worst g n d k) (kept g n d k) = n * (g + 1) /\
  length (worst g n d k) = n * (length d + g).
Proof.
  induction n as [|n IH]; intros d k Hd Hk; [repeat split|]. cbn [worst kept].
  set (e := removelast d).
  assert (He : length e = length d - 1) by apply removelast_len.
  assert (Hp : 0 < length d) by (destruct d; [contradiction|cbn; lia]).
  set (d' := (k + g) :: e).
  assert (Hd' : length d' = length d) by (cbn; lia).
  destruct (news (length d) e ltac:(lia) g k d) as (N1 & N2 & N3 & N4).
  { intros x Hx. apply removelast_In. exact Hx. }
  { exact Hk. }
  set (cs := map (fun x => x :: e) (seq k g)) in *.
  destruct (olds (length d) d' e ltac:(lia)) as (O1 & O2 & O3). { intros x Hx. right. exact Hx. }
  destruct (IH d' (S (k + g))) as (I1 & I2 & I3).
  { discriminate. }
  { intros x [<-|Hx]; [lia|]. specialize (Hk x (removelast_In d x Hx)). lia. }
  rewrite Hd' in I1, I3.
  assert (Hlen : length (seq k g) = length cs) by (unfold cs; rewrite map_length; reflexivity).
  assert (Hrep : repeat d' (length d') = d' :: repeat d' (length e)) by reflexivity.
  rewrite Hrep.
  assert (M1 : strategy Nat.ltb (length d) (last cs d) d' (d' :: repeat d' (length e))).
  { unfold d' at 1. cbn [strategy]. split; [lia|]. split; [apply among_nat; left; reflexivity|]. split; [|exact O1].
    intros x Hx. apply among_nat in Hx. apply among_nat. destruct Hx as [Hx|Hx]; [left; exact Hx|right; auto]. }
  assert (M2 : faults Nat.ltb (last cs d) d' (d' :: repeat d' (length e)) = 1).
  { unfold d' at 1. cbn [faults]. rewrite O2. rewrite among_nat_not; [reflexivity|].
    intros Hi. specialize (N4 _ Hi). lia. }
  assert (M3 : last (d' :: repeat d' (length e)) (last cs d) = d') by (rewrite last_cons; exact O3).
  assert (M4 : length d' = length (d' :: repeat d' (length e))) by (cbn; rewrite repeat_length; reflexivity).
  split; [|split].
  - apply strategy_app; [exact Hlen|exact N1|]. apply strategy_app; [exact M4|exact M1|]. rewrite M3. exact I1.
  - rewrite faults_app by exact Hlen. rewrite faults_app by exact M4. rewrite M3, N2, M2, I2. cbn. lia.
  - rewrite !app_length, seq_length, I3, Hd'. cbn. lia.
Qed.

(** the first h requests *)
Lemma first_strategy h n : forall k s, length s + n <= h -> (forall x, In x s -> x < k) ->
  exists cs, length cs = n /\ strategy Nat.ltb h s (seq k n) cs /\ faults Nat.ltb s (seq k n) cs = n /\
    last cs s = s ++ seq k n.
Proof.
  induction n as [|n IH]; intros k s Hh Hs.
  - exists []. cbn. rewrite app_nil_r. auto.
  - destruct (IH (S k) (s ++ [k])) as (cs & H1 & H2 & H3 & H4).
    { rewrite app_length. cbn. lia. }
    { intros x Hx. apply in_app_or in Hx as [Hx|[<-|[]]]; [specialize (Hs x Hx)|]; lia. }
    exists ((s ++ [k]) :: cs). cbn [seq strategy faults length]. rewrite last_cons, H3, H4.
    rewrite (among_nat_not k s) by (intros Hi; specialize (Hs k Hi); lia).
    split; [lia|]. split; [|split; [reflexivity|rewrite <- app_assoc; reflexivity]].
    split; [rewrite app_length; cbn; lia|]. split; [apply among_nat; apply in_or_app; right; left; reflexivity|].
    split; [|exact H2]. intros x Hx. apply among_nat in Hx. apply among_nat.
    apply in_app_or in Hx as [Hx|[<-|[]]]; [right; exact Hx|left; reflexivity].
Qed.

Section Misses.
  Context {V : Type} (f : nat -> V).
  Lemma stale_misses m ls : 0 < m -> (Z.of_nat m < 2 ^ 64)%Z -> stale m [] ls ->
    misses Nat.ltb f (Z.of_nat m) ls = Some (length ls).
  Proof.
    intros Hm0 Hm Hs.
    assert (Hf : forall a b, eqvb Nat.ltb a b = true -> f a = f b) by (intros a b E; apply same in E; congruence).
    assert (Hr : (0 < Z.of_nat m < 2 ^ 64)%Z) by lia.
    destruct (hits_total Nat.ltb swo_nat f Hf (Z.of_nat m) ls Hr) as (h & Hh & Hl).
    unfold misses. rewrite Hh. cbn [option_map]. f_equal. rewrite <- Hl.
    f_equal. apply filter_id. intros b Hb. apply negb_true_iff. destruct b; [|reflexivity]. exfalso.
    apply In_nth_error in Hb as (i & Hi).
    assert (Hlt : i < length ls) by (rewrite <- Hl; apply nth_error_Some; congruence).
    destruct (nth_error ls i) as [l|] eqn:El; [|apply nth_error_None in El; lia].
    apply nth_error_split in El as (a & b & E & Ha). subst i.
    apply (Hs a l b E). cbn.
    refine (proj1 (hits_recent Nat.ltb swo_nat f Hf (Z.of_nat m) a l b h true Hr _ Hi) eq_refl).
    rewrite <- E. exact Hh.
  Qed.

  Lemma tight m h n : 0 < h <= m -> (Z.of_nat m < 2 ^ 64)%Z ->
    exists ls contents, strategy Nat.ltb h [] ls contents /\
      misses Nat.ltb f (Z.of_nat m) ls = Some (h + n * m) /\
      faults Nat.ltb [] ls contents = h + n * (m - h + 1).
  Proof.
    intros Hh Hm.
    destruct (first_strategy h h 0 [] (le_n _)) as (cs & H1 & H2 & H3 & H4). { intros x []. }
    cbn [app] in H4.
    assert (Hd : seq 0 h <> []) by (destruct h; [lia|discriminate]).
    assert (Hk : forall x, In x (seq 0 h) -> x < h) by (intros x Hx; apply in_seq in Hx; lia).
    destruct (kept_strategy (m - h) n (seq 0 h) h Hd Hk) as (K1 & K2 & K3).
    rewrite seq_length in K1, K3.
    assert (Hlen : length (seq 0 h) = length cs) by (rewrite seq_length; lia).
    exists (seq 0 h ++ worst (m - h) n (seq 0 h) h), (cs ++ kept (m - h) n (seq 0 h) h).
    split; [|split].
    - apply strategy_app; [exact Hlen|exact H2|]. rewrite H4. exact K1.
    - rewrite stale_misses; [|lia|exact Hm|].
      + rewrite app_length, seq_length, K3. do 2 f_equal. replace (h + (m - h)) with m by lia. reflexivity.
      + apply stale_app; [apply seq_stale; intros x []|]. cbn [app].
        assert (W := worst_stale (m - h) n [] (seq 0 h) h Hd (seq_NoDup h 0) Hk).
        rewrite seq_length in W. replace (h + (m - h)) with m in W by lia. exact W.
    - rewrite faults_app by exact Hlen. rewrite H3, H4, K2. reflexivity.
  Qed.

  Lemma best_factor m h p q b : 0 < h <= m -> (Z.of_nat m < 2 ^ 64)%Z ->
    (forall ls contents n, strategy Nat.ltb h [] ls contents -> misses Nat.ltb f (Z.of_nat m) ls = Some n ->
       p * n <= q * faults Nat.ltb [] ls contents + b) ->
    p * m <= q * (m - h + 1).
  Proof.
    intros Hh Hm H. destruct (Nat.le_gt_cases (p * m) (q * (m - h + 1))) as [|Hlt]; [assumption|exfalso].
    destruct (tight m h (q * h + b + 1) Hh Hm) as (ls & cs & Hs & Hmiss & Hf).
    specialize (H ls cs _ Hs Hmiss). rewrite Hf in H. set (g := m - h + 1) in *. clearbody g.
    set (N := q * h + b + 1) in *.
    assert (E1 : p * (h + N * m) = p * h + N * (p * m)) by ring.
    assert (E2 : q * (h + N * g) = q * h + N * (q * g)) by ring.
    rewrite E1, E2 in H.
    assert (E3 : N * (q * g) + N <= N * (p * m)).
    { replace (N * (q * g) + N) with (N * S (q * g)) by ring. apply Nat.mul_le_mono_l. exact Hlt. }
    lia.
  Qed.
End Misses.
