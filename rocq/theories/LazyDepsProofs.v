(** LazyDepsProofs.v -- lemmas about LazyDepsModel. *)
From Verif Require Import Base HandleModel HandleSpec HandleProofs LazyModel LazySpec LazyProofs LazyThreadModel LazyThreadSpec LazyThreadProofs LazyDepsModel LazyDepsSpec.
Local Open Scope monad_scope.

Section Proofs.
  Context {O E : Type} (body : nat -> code O E) (n : nat).
  Notation rst := (rst O E).
  Definition sl (s : rst) d := vslot (r_lst s) d.
  Definition al (s : rst) a v := alive (r_lst s) a v.

  Lemma made_app d (l1 l2 : list (nat * outcome O)) : made d (l1 ++ l2) = made d l1 ++ made d l2.
  Proof. induction l1 as [|[k [v| |e]] l1 IH]; simpl; auto. destruct (Nat.eqb k d); simpl; congruence. Qed.
  Lemma made_in d v (l : list (nat * outcome O)) : In (d, OutObj v) l -> made d l <> [].
  Proof.
    intros Hin. apply in_split in Hin as (l1 & l2 & ->). rewrite made_app. simpl. rewrite Nat.eqb_refl. destruct (made d l1); discriminate.
  Qed.
  Lemma al_object (s : rst) a v : al s a v -> object s a v.
  Proof. intros (c & Hc & Hl & Hv). exists c. unfold live_cell. rewrite Hc, Hl. auto. Qed.
  Lemma al_fun (s : rst) a v v' : al s a v -> al s a v' -> v = v'.
  Proof. intros (c & Hc & _ & Hv) (c' & Hc' & _ & Hv'). congruence. Qed.
  Lemma final_snoc d o (l : list (nat * outcome O)) : final l -> made d l = [] -> final (l ++ [(d, o)]).
  Proof.
    intros Hf Hm k l1 v l2 x He Hin. destruct (exists_last (l := l2)) as (l2' & y & ->); [intros ->; contradiction|].
    change (l1 ++ (k, OutObj v) :: l2' ++ [y]) with (l1 ++ ((k, OutObj v) :: l2') ++ [y]) in He. rewrite app_assoc in He.
    apply app_inj_tail in He as [-> <-]. apply in_app_or in Hin as [Hin|[Hin|[]]]; [exact (Hf k l1 v l2' x eq_refl Hin)|].
    injection Hin as <- <-. eapply made_in; [|exact Hm]. apply in_or_app. right. left. reflexivity.
  Qed.
  Lemma calls_may P (c : code O E) k : calls_only P c -> may_ask c k -> P k.
  Proof.
    intros Hc Hm. induction Hm; simpl in Hc; auto. - apply Hc. - apply IHHm. apply Hc.
  Qed.

  Record R (s : rst) : Prop := mkRI {
    r_sched : sched (ptrs (r_lst s)) = [];
    r_fun : forall d, d < n -> nth_error (funs (r_lst s)) d = Some (Some (body d));
    r_slot : forall d, d < n -> (sl s d = Some Null /\ made d (r_log s) = []) \/
      exists a v, sl s d = Some (Ptr a) /\ al s a v /\ made d (r_log s) = [v];
    r_final : final (r_log s) }.
  (** [P]: the variables whose functions may be called *)
  Record grows (P : nat -> Prop) (s s' : rst) : Prop := mkGr {
    gr_alive : forall a v, al s a v -> al s' a v;
    gr_ptr : forall d a, sl s d = Some (Ptr a) -> sl s' d = Some (Ptr a);
    gr_same : forall d, ~ P d -> sl s' d = sl s d;
    gr_log : exists l, r_log s' = r_log s ++ l /\ forall d o, In (d, o) l -> P d }.
  Lemma grows_refl P s : grows P s s.
  Proof. constructor; auto. exists []. rewrite app_nil_r. split; [reflexivity|]. intros d o []. Qed.
  Lemma grows_trans P s1 s2 s3 : grows P s1 s2 -> grows P s2 s3 -> grows P s1 s3.
  Proof.
    intros [A1 B1 C1 (l1 & D1 & D1')] [A2 B2 C2 (l2 & D2 & D2')]. constructor; auto.
    - intros d Hd. rewrite C2, C1; auto.
    - exists (l1 ++ l2). split; [rewrite D2, D1, app_assoc; reflexivity|]. intros d o Hin. apply in_app_or in Hin as [Hin|Hin]; eauto.
  Qed.
  Lemma grows_le (P Q : nat -> Prop) s s' : (forall d, P d -> Q d) -> grows P s s' -> grows Q s s'.
  Proof.
    intros Hle [A1 B1 C1 (l1 & D1 & D1')]. constructor; auto. - exists l1. split; [exact D1|]. intros d o Hin. eauto.
  Qed.

  (** ** Parts of a call *)
  Lemma rget_slot (s : rst) d x : sl s d = Some x -> x <> Dead -> rlift (lift (get_slot d)) s = Ret x s.
  Proof.
    intros Hs Hd. unfold rlift, lift, get_slot. unfold sl, vslot in Hs. rewrite Hs. destruct x; try congruence; destruct s as [[p f e] l]; reflexivity.
  Qed.
  Lemma rfunc (s : rst) d f : nth_error (funs (r_lst s)) d = Some (Some f) -> rlift (the_func d) s = Ret f s.
  Proof. intros Hf. unfold rlift, the_func. rewrite Hf. destruct s; reflexivity. Qed.
  Lemma raccess (s : rst) d a v : sl s d = Some (Ptr a) -> al s a v ->
    exists c, rlift (lift (const_access d)) s = Ret (a, c) s /\ c_val c = v.
  Proof.
    intros Hs (c & Hc & Hl & Hv). exists c. split; [|exact Hv]. unfold rlift, lift, const_access, bind, get_slot. unfold sl, vslot in Hs.
    rewrite Hs. simpl. unfold bind, live_cell. rewrite Hc, Hl. destruct s as [[p f e] l]; reflexivity.
  Qed.
  (** the state after the object has been stored *)
  Definition stored (s : rst) (d : nat) (v : O) : rst :=
    mkR (mkLst (mkHst (upd d (Ptr (length (heap (ptrs (r_lst s))))) (vars (ptrs (r_lst s)))) (heap (ptrs (r_lst s)) ++ [mkCell v 1 true]) [] (refs (ptrs (r_lst s))))
               (funs (r_lst s)) (env (r_lst s))) (r_log s).
  Lemma rreset (s : rst) d v : sched (ptrs (r_lst s)) = [] -> sl s d = Some Null -> rlift (reset d v) s = Ret tt (stored s d v).
  Proof.
    intros Hsc Hs. unfold rlift, reset, lift, bind, alloc. rewrite Hsc. simpl. unfold get_slot. simpl. unfold sl, vslot in Hs. rewrite Hs. reflexivity.
  Qed.
  Lemma stored_alive s d v a x : al s a x -> al (stored s d v) a x.
  Proof. intros (c & Hc & Hl & Hv). exists c. split; [|auto]. simpl. rewrite nth_error_app1; [exact Hc|]. apply nth_error_Some. congruence. Qed.
  Lemma stored_new s d v : al (stored s d v) (length (heap (ptrs (r_lst s)))) v.
  Proof. exists (mkCell v 1 true). split; [|auto]. simpl. rewrite nth_error_app2 by lia. rewrite Nat.sub_diag. reflexivity. Qed.
  Lemma stored_slot s d v : sl s d = Some Null -> sl (stored s d v) d = Some (Ptr (length (heap (ptrs (r_lst s))))).
  Proof. intros Hs. unfold sl, vslot. simpl. eapply nth_error_upd_some. exact Hs. Qed.
  Lemma stored_other s d v k : k <> d -> sl (stored s d v) k = sl s k.
  Proof. intros Hn. unfold sl, vslot. simpl. apply nth_error_upd_neq. auto. Qed.
  Definition logged (s : rst) d o : rst := mkR (r_lst s) (r_log s ++ [(d, o)]).
  (** the part of a call that evaluates *)
  Definition evaluation fuel d : M rst unit :=
    f <- rlift (the_func d) ;; o <- rcode (rcall fuel) f ;; record_end d o ;;;
    match o with OutObj v => rlift (reset d v) | OutNull => rlift (reset_null d) | OutThrow e => throw e end.
  Lemma rcall_null fuel d (s : rst) : sl s d = Some Null ->
    rcall (S fuel) d s = (evaluation fuel d ;;; ac <- rlift (lift (const_access d)) ;; ret (fst ac, c_val (snd ac))) s.
  Proof. intros Hs. cbn [rcall]. rewrite (bind_ret _ _ _ _ _ (rget_slot s d Null Hs ltac:(discriminate))). reflexivity. Qed.
  Lemma rcall_ptr fuel d (s : rst) a v : sl s d = Some (Ptr a) -> al s a v -> rcall (S fuel) d s = Ret (a, v) s.
  Proof.
    intros Hs Ha. destruct (raccess s d a v Hs Ha) as (c & Ec & Hc). cbn [rcall].
    rewrite (bind_ret _ _ _ _ _ (rget_slot s d (Ptr a) Hs ltac:(discriminate))).
    unfold bind at 1. simpl. rewrite (bind_ret _ _ _ _ _ Ec). simpl. rewrite Hc. reflexivity.
  Qed.
  (** the end of an evaluation *)
  Lemma evaluation_obj fuel d (s s1 : rst) f v : nth_error (funs (r_lst s)) d = Some (Some f) -> rcode (rcall fuel) f s = Ret (OutObj v) s1 ->
    sched (ptrs (r_lst s1)) = [] -> sl s1 d = Some Null -> evaluation fuel d s = Ret tt (stored (logged s1 d (OutObj v)) d v).
  Proof.
    intros Hf E1 Hsc Hs1. unfold evaluation. rewrite (bind_ret _ _ _ _ _ (rfunc s d _ Hf)), (bind_ret _ _ _ _ _ E1).
    assert (El : record_end d (OutObj v) s1 = Ret tt (logged s1 d (OutObj v))) by reflexivity. rewrite (bind_ret _ _ _ _ _ El).
    apply (rreset (logged s1 d (OutObj v)) d v); assumption.
  Qed.
  Lemma rcall_obj fuel d (s s1 : rst) f v : sl s d = Some Null -> nth_error (funs (r_lst s)) d = Some (Some f) -> rcode (rcall fuel) f s = Ret (OutObj v) s1 ->
    sched (ptrs (r_lst s1)) = [] -> sl s1 d = Some Null ->
    rcall (S fuel) d s = Ret (length (heap (ptrs (r_lst s1))), v) (stored (logged s1 d (OutObj v)) d v).
  Proof.
    intros Hs Hf E1 Hsc Hs1. rewrite (rcall_null fuel d s Hs), (bind_ret _ _ _ _ _ (evaluation_obj fuel d s s1 f v Hf E1 Hsc Hs1)).
    set (s3 := stored _ d v). destruct (raccess s3 d (length (heap (ptrs (r_lst s1)))) v) as (c & Ec & Hc).
    - apply (stored_slot (logged s1 d (OutObj v)) d v). exact Hs1.
    - apply (stored_new (logged s1 d (OutObj v)) d v).
    - rewrite (bind_ret _ _ _ _ _ Ec). simpl. rewrite Hc. reflexivity.
  Qed.
  Lemma rcall_throw fuel d (s s1 : rst) f e : sl s d = Some Null -> nth_error (funs (r_lst s)) d = Some (Some f) -> rcode (rcall fuel) f s = Ret (OutThrow e) s1 ->
    rcall (S fuel) d s = Exc e (logged s1 d (OutThrow e)).
  Proof.
    intros Hs Hf E1. rewrite (rcall_null fuel d s Hs). unfold bind at 1. unfold evaluation.
    rewrite (bind_ret _ _ _ _ _ (rfunc s d _ Hf)), (bind_ret _ _ _ _ _ E1). reflexivity.
  Qed.
  Lemma R_stored s d v : R s -> d < n -> sl s d = Some Null -> R (stored (logged s d (OutObj v)) d v).
  Proof.
    intros HR Hd Hs. assert (Hm : made d (r_log s) = []) by (destruct (r_slot _ HR d Hd) as [[_ X]|(a & x & X & _)]; [exact X|congruence]).
    destruct HR as [S1 S2 S3 S4]. constructor; auto.
    - intros k Hk. destruct (Nat.eq_dec k d) as [->|Hn].
      + right. exists (length (heap (ptrs (r_lst s)))), v. split; [apply (stored_slot (logged s d (OutObj v))); exact Hs|].
        split; [apply (stored_new (logged s d (OutObj v)))|]. simpl. rewrite made_app, Hm. simpl. rewrite Nat.eqb_refl. reflexivity.
      + rewrite stored_other by auto. simpl. rewrite made_app. simpl. destruct (Nat.eqb_spec d k); [congruence|]. rewrite app_nil_r.
        destruct (S3 k Hk) as [X|(b & x & X & Y & Z)]; [left; exact X|right]. exists b, x. split; [exact X|]. split; [apply stored_alive; exact Y|exact Z].
    - simpl. apply final_snoc; assumption.
  Qed.
  Lemma R_logged s d e : R s -> d < n -> sl s d = Some Null -> R (logged s d (OutThrow e)).
  Proof.
    intros HR Hd Hs. assert (Hm : made d (r_log s) = []) by (destruct (r_slot _ HR d Hd) as [[_ X]|(a & x & X & _)]; [exact X|congruence]).
    destruct HR as [S1 S2 S3 S4]. constructor; auto.
    - intros k Hk. simpl. rewrite made_app. simpl. rewrite app_nil_r. exact (S3 k Hk).
    - simpl. apply final_snoc; assumption.
  Qed.
  Lemma grows_logged (P Q : nat -> Prop) s s1 d o : grows P s s1 -> (forall k, P k -> Q k) -> Q d -> grows Q s (logged s1 d o).
  Proof.
    intros [A B C (l & D1 & D2)] HPQ Hd. constructor; auto.
    { intros k Hk. change (sl (logged s1 d o) k) with (sl s1 k). apply C. intros X. apply Hk. auto. }
    exists (l ++ [(d, o)]). split; [unfold logged; simpl; rewrite D1, app_assoc; reflexivity|].
    intros k x Hin. apply in_app_or in Hin as [Hin|[Hin|[]]]; [eauto|]. injection Hin as <- <-. exact Hd.
  Qed.
  Lemma grows_stored Q s s1 d v : grows Q s s1 -> sl s d = Some Null -> Q d -> grows Q s (stored s1 d v).
  Proof.
    intros [A B C D] Hs Hd. constructor.
    - intros b x Hb. apply stored_alive. apply A. exact Hb.
    - intros k b Hk. assert (k <> d) by congruence. rewrite stored_other by auto. exact (B k b Hk).
    - intros k Hk. assert (k <> d) by (intros ->; contradiction). rewrite stored_other by auto. exact (C k Hk).
    - exact D.
  Qed.

  Lemma R_start w : R (rstart body n w).
  Proof.
    constructor; simpl; auto.
    - intros d Hd. rewrite nth_error_map. rewrite (nth_error_nth' _ 0) by (rewrite seq_length; exact Hd). rewrite seq_nth by exact Hd. reflexivity.
    - intros d Hd. left. split; [|reflexivity]. unfold sl, vslot. simpl. rewrite (nth_error_nth' _ Null) by (rewrite repeat_length; exact Hd).
      rewrite nth_repeat. reflexivity.
    - intros d l1 v l2 o He. destruct l1; discriminate.
  Qed.

  (** ** Calls with acyclic dependencies *)
  Section Acyclic.
    Context (rank : nat -> nat) (Hac : acyclic body n rank).
    Lemma needs_rank d k : needs body d k -> d < n -> k < n /\ rank k <= rank d.
    Proof.
      induction 1 as [d|d k j Hm Hn IH]; intros Hd; [lia|]. destruct (calls_may _ _ _ (Hac d Hd) Hm) as [Hk Hr]. destruct (IH Hk). lia.
    Qed.
    Definition below (c : code O E) (j : nat) : Prop := exists k, may_ask c k /\ needs body k j.
    Definition good (fuel d : nat) (s : rst) : Prop :=
      (exists a v s', rcall fuel d s = Ret (a, v) s' /\ R s' /\ grows (needs body d) s s' /\ sl s' d = Some (Ptr a) /\ al s' a v) \/
      (exists e s', rcall fuel d s = Exc e s' /\ R s' /\ grows (needs body d) s s' /\ sl s d = Some Null).
    Lemma rcode_ok fuel m : (forall k s, k < n -> rank k < m -> R s -> good fuel k s) ->
      forall c s, calls_only (fun k => k < n /\ rank k < m) c -> R s ->
      exists o s', rcode (rcall fuel) c s = Ret o s' /\ R s' /\ grows (below c) s s' /\ o <> OutNull.
    Proof.
      intros Hcal. induction c as [v| |e|k next IH|g next IH]; intros s Hc Hs; simpl in Hc.
      - exists (OutObj v), s. split; [reflexivity|]. split; [exact Hs|]. split; [apply grows_refl|discriminate].
      - contradiction.
      - exists (OutThrow e), s. split; [reflexivity|]. split; [exact Hs|]. split; [apply grows_refl|discriminate].
      - destruct Hc as [[Hk Hr] Hn]. cbn [rcode]. assert (Hb : forall j, needs body k j -> below (Ask k next) j) by (intros j Hj; exists k; split; [constructor|exact Hj]).
        assert (Hb' : forall x j, below (next x) j -> below (Ask k next) j) by (intros x j (i & Hi & Hj); exists i; split; [econstructor; exact Hi|exact Hj]).
        destruct (Hcal k s Hk Hr Hs) as [(a & v & s1 & -> & H1 & G1 & _)|(e & s1 & -> & H1 & G1 & _)].
        + destruct (IH (inl v) s1 (Hn _) H1) as (o & s2 & E2 & H2 & G2 & Ho). exists o, s2. split; [exact E2|]. split; [exact H2|]. split; [|exact Ho].
          eapply grows_trans; [eapply grows_le; [exact Hb|exact G1]|eapply grows_le; [apply Hb'|exact G2]].
        + destruct (IH (inr e) s1 (Hn _) H1) as (o & s2 & E2 & H2 & G2 & Ho). exists o, s2. split; [exact E2|]. split; [exact H2|]. split; [|exact Ho].
          eapply grows_trans; [eapply grows_le; [exact Hb|exact G1]|eapply grows_le; [apply Hb'|exact G2]].
      - cbn [rcode]. set (s1 := mkR (mkLst (ptrs (r_lst s)) (funs (r_lst s)) (g (env (r_lst s)))) (r_log s)).
        assert (Hs1 : R s1) by (destruct Hs; constructor; auto).
        destruct (IH (env (r_lst s)) s1 (Hc _) Hs1) as (o & s2 & E2 & H2 & G2 & Ho). exists o, s2.
        split; [exact E2|]. split; [exact H2|]. split; [|exact Ho].
        assert (Hb' : forall j, below (next (env (r_lst s))) j -> below (Outside g next) j) by (intros j (i & Hi & Hj); exists i; split; [econstructor; exact Hi|exact Hj]).
        apply (grows_le _ _ _ _ Hb') in G2. destruct G2 as [A B C D]. constructor; auto.
    Qed.
    Lemma rcall_ok fuel : forall d s, d < n -> rank d < fuel -> R s -> good fuel d s.
    Proof.
      induction fuel as [|fuel IH]; intros d s Hd Hf Hs; [lia|]. unfold good.
      destruct (r_slot _ Hs d Hd) as [[Hsl Hm]|(a & v & Hsl & Ha & Hm)].
      - destruct (rcode_ok fuel (rank d)) with (c := body d) (s := s) as (o & s1 & E1 & R1 & G1 & Ho); [|apply Hac; exact Hd|exact Hs|].
        { intros k s0 Hk Hr H0. apply IH; auto. lia. }
        assert (Hlow : forall j, below (body d) j -> needs body d j /\ rank j < rank d).
        { intros j (k & Hk & Hj). split; [econstructor; eassumption|]. destruct (calls_may _ _ _ (Hac d Hd) Hk) as [X Y]. destruct (needs_rank k j Hj X). lia. }
        assert (Hsl1 : sl s1 d = Some Null). { rewrite (gr_same _ _ _ G1); [exact Hsl|]. intros Hb. destruct (Hlow d Hb). lia. }
        assert (Gl : grows (needs body d) s (logged s1 d o)). { eapply grows_logged; [exact G1| |constructor]. intros k Hk. apply Hlow. exact Hk. }
        pose proof (r_fun _ Hs d Hd) as Hfd.
        destruct o as [v| |e]; [|congruence|].
        + left. exists (length (heap (ptrs (r_lst s1)))), v, (stored (logged s1 d (OutObj v)) d v).
          split; [exact (rcall_obj fuel d s s1 _ v Hsl Hfd E1 (r_sched _ R1) Hsl1)|]. split; [apply R_stored; assumption|].
          split; [apply grows_stored; [exact Gl|exact Hsl|constructor]|]. split; [apply (stored_slot (logged s1 d (OutObj v))); exact Hsl1|].
          apply (stored_new (logged s1 d (OutObj v))).
        + right. exists e, (logged s1 d (OutThrow e)). split; [exact (rcall_throw fuel d s s1 _ e Hsl Hfd E1)|]. split; [apply R_logged; assumption|]. auto.
      - left. exists a, v, s. split; [exact (rcall_ptr fuel d s a v Hsl Ha)|]. split; [exact Hs|]. split; [apply grows_refl|auto].
    Qed.

    (** what has been seen of the calls so far *)
    Definition seen (s : rst) (d : nat) (x : lout O) : Prop :=
      match x with LObj a v => sl s d = Some (Ptr a) /\ al s a v | LExc _ => True | LUnit => False end.
    Lemma seen_grows P s s' d x : grows P s s' -> seen s d x -> seen s' d x.
    Proof. intros [A B C D] Hx. destruct x; simpl in *; auto. destruct Hx; auto. Qed.
    Definition isexc (x : lout O) : Prop := match x with LExc _ => True | _ => False end.

    Lemma rrun_ok fuel ds : forall s, (forall d, In d ds -> d < n /\ rank d < fuel) -> R s ->
      exists outs s', rrun fuel ds s = (outs, inl s') /\ R s' /\ length outs = length ds /\
        grows (fun j => exists d, In d ds /\ needs body d j) s s' /\
        (forall d x, In (d, x) (combine ds outs) -> seen s' d x) /\
        (forall d a v x, sl s d = Some (Ptr a) -> al s a v -> In (d, x) (combine ds outs) -> x = LObj a v) /\
        stays (combine ds outs).
    Proof.
      induction ds as [|d ds IH]; intros s Hds Hs.
      - exists [], s. split; [reflexivity|]. split; [exact Hs|]. split; [reflexivity|]. split; [apply grows_refl|]. split; [intros d x []|].
        split; [intros d a v x _ _ []|]. intros d l1 a v l2 x He. destruct l1; discriminate.
      - cbn [rrun].
        assert (Hgo : exists x s1, seen s1 d x /\ R s1 /\ grows (needs body d) s s1 /\
            (forall l f, rrun fuel ds s1 = (l, f) -> match rcall fuel d s with
              | Ret ao s' => let (l, f) := rrun fuel ds s' in (LObj (fst ao) (snd ao) :: l, f)
              | Exc e s' => let (l, f) := rrun fuel ds s' in (LExc e :: l, f)
              | Ub r => ([], inr (Some r)) | Abort => ([], inr (Some UbUninit)) | Fuel => ([], inr None) end = (x :: l, f)) /\
            (forall a v, sl s d = Some (Ptr a) -> al s a v -> x = LObj a v)).
        { destruct (Hds d (or_introl eq_refl)) as [Hd Hf].
          destruct (rcall_ok fuel d s Hd Hf Hs) as [(a & v & s1 & E1 & R1 & G1 & Hp & Ha)|(e & s1 & E1 & R1 & G1 & Hp)].
          - exists (LObj a v), s1. split; [split; assumption|]. split; [exact R1|]. split; [exact G1|]. split; [intros l f Hl; rewrite E1, Hl; reflexivity|].
            intros b x Hb Hx. pose proof (gr_ptr _ _ _ G1 d b Hb). assert (a = b) by congruence. subst b. f_equal. eapply al_fun; [exact Ha|]. apply (gr_alive _ _ _ G1). exact Hx.
          - exists (LExc e), s1. split; [exact I|]. split; [exact R1|]. split; [exact G1|]. split; [intros l f Hl; rewrite E1, Hl; reflexivity|].
            intros b x Hb. congruence. }
        destruct Hgo as (x & s1 & Hx & R1 & G1 & Hrun & Hsame).
        destruct (IH s1 (fun k Hk => Hds k (or_intror Hk)) R1) as (outs & s2 & E2 & R2 & Hlen & G2 & Hseen & Hptr & Hst).
        exists (x :: outs), s2. split; [exact (Hrun _ _ E2)|]. split; [exact R2|]. split; [simpl; lia|].
        split. { eapply grows_trans; [eapply grows_le; [|exact G1]|eapply grows_le; [|exact G2]]; simpl.
                 - intros j Hj. exists d. auto. - intros j (k & Hk & Hj). exists k. auto. }
        split. { intros k y [Hin|Hin]; [|apply Hseen; exact Hin]. injection Hin as <- <-. eapply seen_grows; [exact G2|exact Hx]. }
        split. { intros k a v y Hk Ha [Hin|Hin]; [injection Hin as <- <-; apply Hsame; assumption|].
                 eapply (Hptr k a v y); [|apply (gr_alive _ _ _ G1); exact Ha|exact Hin]. apply (gr_ptr _ _ _ G1). exact Hk. }
        intros k l1 a v l2 y He Hin. destruct l1 as [|z l1]; simpl in He.
        + injection He as <- -> <-. simpl in Hx. destruct Hx as [Hx Hx']. exact (Hptr d a v y Hx Hx' Hin).
        + injection He as _ H2. exact (Hst k l1 a v l2 y H2 Hin).
    Qed.

    Lemma acyclic_run fuel ds w : (forall d, In d ds -> d < n /\ rank d < fuel) ->
      exists outs s', rrun fuel ds (rstart body n w) = (outs, inl s') /\ length outs = length ds /\
        final (r_log s') /\ stays (combine ds outs) /\
        (forall d a v, In (d, LObj a v) (combine ds outs) -> object s' a v /\ made d (r_log s') = [v]) /\
        (forall d o, In (d, o) (r_log s') -> exists d0, In d0 ds /\ needs body d0 d).
    Proof.
      intros Hds. destruct (rrun_ok fuel ds (rstart body n w) Hds (R_start w)) as (outs & s' & E1 & R1 & Hl & G1 & Hseen & _ & Hst).
      exists outs, s'. split; [exact E1|]. split; [exact Hl|]. split; [apply (r_final _ R1)|]. split; [exact Hst|]. split.
      - intros d a v Hin. destruct (Hseen _ _ Hin) as [Hs Ha]. split; [apply al_object; exact Ha|].
        assert (Hd : d < n) by (apply in_combine_l in Hin; apply Hds; exact Hin).
        destruct (r_slot _ R1 d Hd) as [[X _]|(b & x & X & Y & Z)]; [congruence|]. assert (a = b) by congruence. subst b.
        rewrite (al_fun _ _ _ _ Ha Y). exact Z.
      - intros d o Hin. destruct (gr_log _ _ _ G1) as (l & Hlog & Hp). rewrite Hlog in Hin. simpl in Hin. exact (Hp d o Hin).
    Qed.

    (** ** Pure functions *)
    Section Pure.
      Context (Hpure : forall d, d < n -> pure (body d)) (val : nat -> O) (Hval : solves body n val).
      Definition V (s : rst) : Prop := forall d o, In (d, o) (r_log s) -> o = OutObj (val d).
      Lemma rcode_pure fuel m : (forall k s, k < n -> rank k < m -> R s -> V s ->
          exists a s', rcall fuel k s = Ret (a, val k) s' /\ R s' /\ V s' /\ env (r_lst s') = env (r_lst s)) ->
        forall c s, calls_only (fun k => k < n /\ rank k < m) c -> pure c -> R s -> V s ->
        forall v, result val c = Some v -> exists s', rcode (rcall fuel) c s = Ret (OutObj v) s' /\ V s' /\ env (r_lst s') = env (r_lst s).
      Proof.
        intros Hcal. induction c as [x| |e|k next IH|g next IH]; intros s Hc Hp Hs HV v Hr; simpl in Hc, Hp, Hr; try contradiction; try discriminate.
        - injection Hr as <-. exists s. auto.
        - destruct Hc as [[Hk Hrk] Hn]. cbn [rcode]. destruct (Hcal k s Hk Hrk Hs HV) as (a & s1 & -> & R1 & V1 & W1).
          destruct (IH (inl (val k)) s1 (Hn _) (Hp _) R1 V1 v Hr) as (s2 & E2 & V2 & W2). exists s2. split; [exact E2|]. split; [exact V2|congruence].
      Qed.
      Lemma V_ptr s d a v : R s -> V s -> d < n -> sl s d = Some (Ptr a) -> al s a v -> v = val d.
      Proof.
        intros HR HV Hd Hs Ha. destruct (r_slot _ HR d Hd) as [[X _]|(b & x & X & Y & Z)]; [congruence|]. assert (a = b) by congruence. subst b.
        rewrite (al_fun _ _ _ _ Ha Y). clear - HV Z. unfold V in HV. revert HV Z. generalize (r_log s). intros l HV Z.
        assert (Hin : In (d, OutObj x) l).
        { clear HV. induction l as [|[k [y| |e]] l IH]; simpl in Z; [discriminate| |right; auto|right; auto].
          destruct (Nat.eqb_spec k d) as [->|Hn]; [injection Z as <- _; left; reflexivity|right; auto]. }
        specialize (HV _ _ Hin). congruence.
      Qed.
      Lemma rcall_pure fuel : forall d s, d < n -> rank d < fuel -> R s -> V s ->
        exists a s', rcall fuel d s = Ret (a, val d) s' /\ R s' /\ V s' /\ env (r_lst s') = env (r_lst s).
      Proof.
        induction fuel as [|fuel IH]; intros d s Hd Hf Hs HV; [lia|].
        destruct (r_slot _ Hs d Hd) as [[Hsl Hm]|(a & v & Hsl & Ha & Hm)].
        - assert (Hcal : forall k s, k < n -> rank k < rank d -> R s -> V s -> exists a s', rcall fuel k s = Ret (a, val k) s' /\ R s' /\ V s' /\ env (r_lst s') = env (r_lst s)).
          { intros k s0 Hk Hr H0 V0. apply IH; auto. lia. }
          destruct (rcode_pure fuel (rank d) Hcal (body d) s (Hac d Hd) (Hpure d Hd) Hs HV (val d) (Hval d Hd)) as (s1 & E1 & V1 & W1).
          destruct (rcode_ok fuel (rank d)) with (c := body d) (s := s) as (o & s1' & E1' & R1 & G1 & Ho); [|apply Hac; exact Hd|exact Hs|].
          { intros k s0 Hk Hr H0. apply rcall_ok; auto. lia. }
          rewrite E1 in E1'. injection E1' as <- <-.
          assert (Hsl1 : sl s1 d = Some Null).
          { rewrite (gr_same _ _ _ G1); [exact Hsl|]. intros (k & Hk & Hj). destruct (calls_may _ _ _ (Hac d Hd) Hk) as [X Y]. destruct (needs_rank k d Hj X). lia. }
          eexists. eexists. split; [exact (rcall_obj fuel d s s1 _ (val d) Hsl (r_fun _ Hs d Hd) E1 (r_sched _ R1) Hsl1)|].
          split; [apply R_stored; assumption|]. split; [|exact W1]. intros k o Hin. simpl in Hin. apply in_app_or in Hin as [Hin|[Hin|[]]]; [apply V1; exact Hin|].
          injection Hin as <- <-. reflexivity.
        - rewrite (V_ptr s d a v Hs HV Hd Hsl Ha) in Ha. exists a, s. split; [exact (rcall_ptr fuel d s a (val d) Hsl Ha)|]. auto.
      Qed.
      Lemma rrun_pure fuel ds : forall s, (forall d, In d ds -> d < n /\ rank d < fuel) -> R s -> V s ->
        exists outs s', rrun fuel ds s = (outs, inl s') /\ R s' /\ V s' /\ env (r_lst s') = env (r_lst s) /\
          Forall2 (fun d x => exists a, x = LObj a (val d)) ds outs.
      Proof.
        induction ds as [|d ds IH]; intros s Hds Hs HV; cbn [rrun].
        - exists [], s. auto.
        - destruct (Hds d (or_introl eq_refl)) as [Hd Hf]. destruct (rcall_pure fuel d s Hd Hf Hs HV) as (a & s1 & -> & R1 & V1 & W1).
          destruct (IH s1 (fun k Hk => Hds k (or_intror Hk)) R1 V1) as (outs & s2 & -> & R2 & V2 & W2 & F2).
          exists (LObj a (val d) :: outs), s2. split; [reflexivity|]. split; [exact R2|]. split; [exact V2|]. split; [congruence|]. constructor; eauto.
      Qed.
      Lemma final_nodup (l : list (nat * outcome O)) : final l -> (forall d o, In (d, o) l -> o = OutObj (val d)) -> NoDup (map fst l).
      Proof.
        intros Hf. induction l as [|[d o] l IH]; intros HV; simpl; [constructor|]. constructor.
        - intros Hin. apply in_map_iff in Hin as ([k x] & Hk & Hin). simpl in Hk. subst k. pose proof (HV d o (or_introl eq_refl)). subst o.
          exact (Hf d [] (val d) l x eq_refl Hin).
        - apply IH; [|intros k x Hin; apply HV; right; exact Hin]. intros k l1 v l2 x He. apply (Hf k ((d, o) :: l1) v l2 x). simpl. rewrite He. reflexivity.
      Qed.
    End Pure.

    (** ** The equations have one solution *)
    Lemma result_ext (val val' : nat -> O) (P : nat -> Prop) : (forall k, P k -> val k = val' k) -> forall c : code O E, calls_only P c -> result val c = result val' c.
    Proof. intros Hv. induction c as [x| |e|k next IH|g next IH]; intros Hc; simpl in *; auto. destruct Hc as [Hk Hn]. rewrite Hv by exact Hk. apply IH. apply Hn. Qed.
    Lemma result_some (val : nat -> O) (c : code O E) : pure c -> exists v, result val c = Some v.
    Proof. induction c as [x| |e|k next IH|g next IH]; simpl; intros Hp; try contradiction; eauto. Qed.
    Lemma unique_solution (val val' : nat -> O) : solves body n val -> solves body n val' -> forall d, d < n -> val d = val' d.
    Proof.
      intros H1 H2. assert (Hr : forall m d, rank d < m -> d < n -> val d = val' d).
      { induction m as [|m IH]; intros d Hm Hd; [lia|]. pose proof (H1 d Hd) as A1. pose proof (H2 d Hd) as A2.
        rewrite (result_ext val val' (fun k => k < n /\ rank k < rank d)) in A1; [congruence| |exact (Hac d Hd)]. intros k [Hk Hr]. apply IH; lia. }
      intros d Hd. exact (Hr (S (rank d)) d ltac:(lia) Hd).
    Qed.
    Fixpoint approx (o : O) (m d : nat) : O :=
      match m with 0 => o | S m' => match result (approx o m') (body d) with Some v => v | None => o end end.
    Lemma approx_stable o m : forall m' d, d < n -> rank d < m -> rank d < m' -> approx o m d = approx o m' d.
    Proof.
      induction m as [|m IH]; intros m' d Hd H1 H2; [lia|]. destruct m' as [|m']; [lia|]. simpl.
      rewrite (result_ext (approx o m) (approx o m') (fun k => k < n /\ rank k < rank d)); [reflexivity| |exact (Hac d Hd)]. intros k [Hk Hr]. apply IH; lia.
    Qed.
    Lemma solution (o : O) : (forall d, d < n -> pure (body d)) -> exists val, solves body n val.
    Proof.
      intros Hp. exists (fun d => approx o (S (rank d)) d). intros d Hd. simpl.
      rewrite (result_ext _ (approx o (rank d)) (fun k => k < n /\ rank k < rank d)); [| |exact (Hac d Hd)].
      2:{ intros k [Hk Hr]. apply (approx_stable o (S (rank k)) (rank d) k Hk); lia. }
      destruct (result_some (approx o (rank d)) (body d) (Hp d Hd)) as (v & ->). reflexivity.
    Qed.
    Lemma pure_run (o : O) : (forall d, d < n -> pure (body d)) ->
      exists val, solves body n val /\ (forall val', solves body n val' -> forall d, d < n -> val' d = val d) /\
        forall fuel ds w, (forall d, In d ds -> d < n /\ rank d < fuel) ->
        exists outs s', rrun fuel ds (rstart body n w) = (outs, inl s') /\
          Forall2 (fun d x => exists a, x = LObj a (val d)) ds outs /\
          NoDup (map fst (r_log s')) /\ env (r_lst s') = w.
    Proof.
      intros Hp. destruct (solution o Hp) as (val & Hval). exists val. split; [exact Hval|]. split; [intros val' Hv' d Hd; apply unique_solution; assumption|].
      intros fuel ds w Hds. assert (V0 : V val (rstart body n w)) by (intros d x []).
      destruct (rrun_pure Hp val Hval fuel ds (rstart body n w) Hds (R_start w) V0) as (outs & s' & E1 & R1 & V1 & W1 & F1).
      exists outs, s'. split; [exact E1|]. split; [exact F1|]. split; [|exact W1]. eapply final_nodup; [apply (r_final _ R1)|exact V1].
    Qed.
  End Acyclic.

  (** ** Cycles *)
  Lemma cycle (C : nat -> Prop) : (forall d, C d -> d < n /\ asks_first C (body d)) ->
    forall fuel d w, C d -> rcall fuel d (rstart body n w) = Fuel.
  Proof.
    intros HC.
    set (Z := fun s : rst => exists w, s = mkR (mkLst (ptrs (r_lst (rstart body n w))) (funs (r_lst (rstart body n w))) w) []).
    assert (Hcall : forall fuel d s, C d -> Z s -> rcall fuel d s = Fuel).
    { induction fuel as [|fuel IH]; intros d s Hd Hs; [reflexivity|]. destruct (HC d Hd) as [Hn Ha].
      assert (Hcode : forall c s, asks_first C c -> Z s -> rcode (rcall fuel) c s = Fuel).
      { induction c as [v| |e|k next _|g next IHc]; intros s0 Hc H0; simpl in Hc; try contradiction.
        - cbn [rcode]. rewrite (IH k s0 Hc H0). reflexivity.
        - cbn [rcode]. destruct H0 as (w & ->). unfold bind, rlift, act_outside. simpl. apply IHc; [apply Hc|]. exists (g w). reflexivity. }
      destruct Hs as (w & Hs). assert (HR : R (rstart body n w)) by apply R_start.
      assert (Es : s = rstart body n w) by (rewrite Hs; reflexivity).
      assert (Hsl : sl s d = Some Null).
      { rewrite Es. unfold sl, vslot. simpl. rewrite (nth_error_nth' _ Null) by (rewrite repeat_length; exact Hn). rewrite nth_repeat. reflexivity. }
      rewrite (rcall_null fuel d s Hsl). unfold bind at 1. unfold evaluation.
      rewrite (bind_ret _ _ _ _ _ (rfunc s d (body d) ltac:(rewrite Es; exact (r_fun _ HR d Hn)))).
      unfold bind at 1. rewrite (Hcode (body d) s Ha); [reflexivity|]. exists w. exact Hs. }
    intros fuel d w Hd. apply Hcall; [exact Hd|]. exists w. reflexivity.
  Qed.

  (** ** Agreement with LazyModel *)
  Lemma rcode_plain callee : forall (c : code O E) (s : rst), no_ask c ->
    rcode callee c s = Ret (fst (effect c (env (r_lst s)))) (mkR (mkLst (ptrs (r_lst s)) (funs (r_lst s)) (snd (effect c (env (r_lst s))))) (r_log s)).
  Proof.
    induction c as [v| |e|k next _|g next IH]; intros s Hc; simpl in Hc; try contradiction; try (destruct s as [[p f w] l]; reflexivity).
    cbn [rcode]. unfold bind, rlift, act_outside. cbn. rewrite IH by apply Hc. reflexivity.
  Qed.
  Lemma upd_same {A} (l : list A) d x : nth_error l d = Some x -> upd d x l = l.
  Proof. revert d. induction l as [|y l IH]; intros [|d] H; simpl in *; try discriminate; [congruence|]. rewrite IH; auto. Qed.
  Lemma agree_lift {A} (m : M (lst O (code O E) E) A) (s : rst) : agree (rlift m s) (m (r_lst s)).
  Proof. unfold agree, rlift. destruct (m (r_lst s)); auto. Qed.
  Lemma agree_bind {A B} (m : M rst A) (k : A -> M rst B) m' k' s l : agree (m s) (m' l) ->
    (forall a s', m s = Ret a s' -> agree (k a s') (k' a (r_lst s'))) -> agree (bind m k s) (bind m' k' l).
  Proof.
    unfold bind. intros H Hk. destruct (m s) as [a s1|e s1|r| |] eqn:E1, (m' l); simpl in H; try contradiction; auto. destruct H as [<- <-]. apply Hk. reflexivity.
  Qed.
  Lemma plain_call fuel d (s : rst) c : nth_error (funs (r_lst s)) d = Some (Some c) -> no_ask c ->
    agree (rcall (S fuel) d s) (lazy_call plain d (r_lst s)).
  Proof.
    intros Hf Hc. cbn [rcall]. unfold lazy_call. apply agree_bind; [apply agree_lift|]. intros x s1 E1.
    assert (Hf1 : nth_error (funs (r_lst s1)) d = Some (Some c)).
    { unfold rlift, lift, get_slot in E1. destruct (nth_error (vars (ptrs (r_lst s))) d) as [[| |a]|]; try discriminate; injection E1 as <- <-; exact Hf. }
    apply agree_bind; [|intros [] s2 _; apply agree_bind; [apply agree_lift|]; intros ac s3 _; simpl; auto].
    destruct x; try (simpl; auto; fail).
    rewrite (bind_ret _ _ _ _ _ (rfunc s1 d c Hf1)), (bind_ret _ _ _ _ _ (rcode_plain (rcall fuel) c s1 Hc)).
    set (o := fst (effect c (env (r_lst s1)))). set (l := mkLst (ptrs (r_lst s1)) (funs (r_lst s1)) (snd (effect c (env (r_lst s1))))).
    assert (Ec : call_func plain d (r_lst s1) = Ret o l) by (unfold call_func, plain; rewrite Hf1, (upd_same _ _ _ Hf1); reflexivity).
    rewrite (bind_ret _ _ _ _ _ Ec). unfold bind at 1. unfold record_end at 1. cbn [r_lst r_log].
    destruct o; [apply (agree_lift (reset d v) (mkR l _))|apply (agree_lift (reset_null d) (mkR l _))|simpl; auto].
  Qed.
  Lemma constructed (w : E) : lrun plain (map (fun d => LNew d (body d)) (seq 0 n)) (linit n w) = (repeat LUnit n, inl (r_lst (rstart body n w))).
  Proof.
    assert (Hgen : forall m k, k + m = n ->
      lrun plain (map (fun d => LNew d (body d)) (seq k m)) (mkLst (mkHst (repeat Null k ++ repeat Dead m) [] [] (fun _ => None)) (map (fun d => Some (body d)) (seq 0 k) ++ repeat None m) w)
      = (repeat LUnit m, inl (r_lst (rstart body n w)))).
    { induction m as [|m IH]; intros k Hk.
      - simpl. replace n with k by lia. unfold rstart. simpl. rewrite !app_nil_r. reflexivity.
      - assert (Es : lstep plain (LNew k (body k)) (mkLst (mkHst (repeat Null k ++ repeat Dead (S m)) [] [] (fun _ => None)) (map (fun d => Some (body d)) (seq 0 k) ++ repeat None (S m)) w)
          = Ret LUnit (mkLst (mkHst (repeat Null (S k) ++ repeat Dead m) [] [] (fun _ => None)) (map (fun d => Some (body d)) (seq 0 (S k)) ++ repeat None m) w)).
        { assert (Ev : nth_error (repeat Null k ++ Dead :: repeat Dead m) k = Some Dead).
          { pose proof (nth_error_app_mid (repeat Null k) (repeat Dead m) Dead) as X. rewrite repeat_length in X. exact X. }
          cbn [repeat]. unfold lstep, lazy_new, lift, h_null, fresh_slot, bind. cbn [ptrs vars]. rewrite Ev.
          unfold put_slot. cbn [ptrs vars funs env heap sched refs].
          unfold put_fun. cbn [ptrs vars funs env heap sched refs]. unfold ret. f_equal. f_equal.
          - f_equal. pose proof (upd_app_mid (repeat Null k) (repeat Dead m) Dead Null) as X. rewrite repeat_length in X. rewrite X.
            rewrite (repeat_cons k Null), <- app_assoc. reflexivity.
          - replace (upd k (Some (body k)) (map (fun d => Some (body d)) (seq 0 k) ++ None :: repeat None m)) with (map (fun d => Some (body d)) (seq 0 k) ++ Some (body k) :: repeat None m).
            + change (Some (body 0) :: map (fun d => Some (body d)) (seq 1 k)) with (map (fun d => Some (body d)) (seq 0 (S k))). rewrite seq_S, map_app, <- app_assoc. reflexivity.
            + pose proof (upd_app_mid (map (fun d => Some (body d)) (seq 0 k)) (repeat None m) None (Some (body k))) as X.
              rewrite map_length, seq_length in X. symmetry. exact X. }
        cbn [seq map lrun]. rewrite Es. rewrite (IH (S k)) by lia. reflexivity. }
    apply (Hgen n 0). reflexivity.
  Qed.
End Proofs.
