(** LruSyncProofs.v -- lemmas about an LRU cache shared by threads. *)
From Verif Require Import Base StdOrd LruModel LruSpec LruProofs SyncModel SyncSpec SyncProofs LruSyncModel LruSyncSpec.

(** ** calls that only read need no mutex *)
Section Readers.
  Context {S Loc Op Out : Type} (code : Op -> act S Loc Out) (call : Op -> S -> res S Out).
  Notation config := (config S Loc Op Out).
  Notation thread := (thread S Loc Op Out).
  Context (ts : list (list (stm Op))) (s0 : S).
  (** the call only reads when it finds the state [s0] *)
  Inductive readonly : act S Loc Out -> Prop :=
  | ro_fin a : readonly (Fin a)
  | ro_read l k : readonly (k s0) -> readonly (Read l k).
  Context (Hcall : forall o s, alone (code o) s = call o s).
  Context (Hread : forall p o, In p ts -> In o (does p) -> readonly (code o)).
  Context (Hguard : forall p, In p ts -> guarded false false p).

  Record rinv (c : config) : Prop := {
    r_len : length (threads c) = length ts;
    r_shared : shared c = s0;
    r_log : forall i o x, In (i, o, x) (log c) -> i < length ts /\ call o s0 = Ret x s0;
    r_cur : forall i t o a, nth_error (threads c) i = Some t -> cur t = Some (o, a) -> readonly a /\ alone a s0 = call o s0;
    r_thread : forall i t p, nth_error (threads c) i = Some t -> nth_error ts i = Some p ->
      guarded false (held_by c i) (rest t) /\ does p = map fst (outs t) ++ curop t ++ does (rest t) /\ outs t = of_thread i (tlog c);
    r_held : forall j, held c = Some j -> j < length ts }.

  Lemma rinv_put c i t t' lg : rinv c -> nth_error (threads c) i = Some t ->
    (forall i' o x, In (i', o, x) lg -> i' < length ts /\ call o s0 = Ret x s0) ->
    (forall o a, cur t' = Some (o, a) -> readonly a /\ alone a s0 = call o s0) ->
    (forall j, j <> i -> of_thread j (map (fun x => (fst (fst x), (snd (fst x), snd x))) lg) = of_thread j (tlog c)) ->
    (forall p, nth_error ts i = Some p -> guarded false (held_by c i) (rest t') /\ does p = map fst (outs t') ++ curop t' ++ does (rest t') /\
      outs t' = of_thread i (map (fun x => (fst (fst x), (snd (fst x), snd x))) lg)) ->
    rinv (mkC (shared c) (held c) (put_thread c i t') lg).
  Proof.
    intros H Et Hlg Hcur Hoth Ht'. assert (i < length (threads c)) as Hi by (apply nth_error_Some; congruence).
    split; cbn [threads shared held log].
    - unfold put_thread. rewrite upd_length. apply (r_len _ H).
    - apply (r_shared _ H).
    - exact Hlg.
    - intros j u o a Hu. rewrite threads_put in Hu by exact Hi. destruct (Nat.eqb_spec i j) as [->|Hn]; [injection Hu as <-; apply Hcur|apply (r_cur _ H j u o a Hu)].
    - intros j u p Hu Hp. rewrite threads_put in Hu by exact Hi. unfold tlog, held_by. cbn [log held]. destruct (Nat.eqb_spec i j) as [->|Hn].
      + injection Hu as <-. apply (Ht' p Hp).
      + rewrite Hoth by congruence. apply (r_thread _ H j u p Hu Hp).
    - apply (r_held _ H).
  Qed.
  Lemma rinv_lock c i t q h : rinv c -> nth_error (threads c) i = Some t -> cur t = None -> does (rest t) = does q ->
    (forall j, h = Some j -> j < length ts) -> guarded false (match h with Some k => Nat.eqb i k | None => false end) q ->
    (forall j, j <> i -> held_by c j = match h with Some k => Nat.eqb j k | None => false end) ->
    rinv (mkC (shared c) h (put_thread c i (mkT None q (outs t))) (log c)).
  Proof.
    intros H Et Ec Hdq Hh Hg Hho. assert (i < length (threads c)) as Hi by (apply nth_error_Some; congruence).
    split; cbn [threads shared held log].
    - unfold put_thread. rewrite upd_length. apply (r_len _ H).
    - apply (r_shared _ H).
    - apply (r_log _ H).
    - intros j u o a Hu. rewrite threads_put in Hu by exact Hi. destruct (Nat.eqb_spec i j) as [->|Hn]; [injection Hu as <-; discriminate|apply (r_cur _ H j u o a Hu)].
    - intros j u p Hu Hp. rewrite threads_put in Hu by exact Hi. unfold tlog, held_by. cbn [log held]. destruct (Nat.eqb_spec i j) as [->|Hn].
      + injection Hu as <-. destruct (r_thread _ H _ _ _ Et Hp) as (_ & Hd & Ho). simpl. unfold curop in *. rewrite Ec, Hdq in Hd. auto.
      + destruct (r_thread _ H _ _ _ Hu Hp) as (Hg' & Hd & Ho). rewrite <- (Hho j) by congruence. auto.
    - exact Hh.
  Qed.

  Lemma rinv_step c i : rinv c -> exists c', cstep code i c = inl c' /\ rinv c'.
  Proof.
    intros H. unfold cstep. destruct (nth_error (threads c) i) as [t|] eqn:Et; [|eauto].
    assert (i < length (threads c)) as Hi by (apply nth_error_Some; congruence).
    assert (i < length ts) as Hit by (rewrite <- (r_len _ H); exact Hi).
    destruct (nth_error ts i) as [p|] eqn:Ep; [|apply nth_error_None in Ep; lia].
    destruct (r_thread _ H _ _ _ Et Ep) as (Hg & Hd & Ho).
    destruct (cur t) as [[o a]|] eqn:Ec.
    - destruct (r_cur _ H i t o a Et Ec) as [Hr Ha]. inversion Hr as [x Hx|l k Hk Hx]; subst a.
      + eexists. split; [reflexivity|]. apply (rinv_put c i t); auto.
        * intros i' o' x' Hin. apply in_app_or in Hin. destruct Hin as [Hin|[Hin|[]]]; [apply (r_log _ H _ _ _ Hin)|].
          injection Hin as <- <- <-. split; [exact Hit|]. rewrite <- Ha. reflexivity.
        * discriminate.
        * intros j Hn. rewrite map_app, of_thread_app. simpl. rewrite of_thread_one, (proj2 (Nat.eqb_neq _ _)) by congruence. apply app_nil_r.
        * intros p' Hp'. rewrite Ep in Hp'. injection Hp' as <-. cbn [rest outs]. split; [exact Hg|]. split.
          -- rewrite Hd. unfold curop. rewrite Ec. cbn [cur]. rewrite map_app, <- app_assoc. reflexivity.
          -- rewrite map_app, of_thread_app. simpl. rewrite of_thread_one, Nat.eqb_refl, Ho. reflexivity.
      + eexists. split; [reflexivity|]. apply (rinv_put c i t); auto.
        * apply (r_log _ H).
        * intros o' a' E. injection E as <- <-. rewrite (r_shared _ H). split; [exact Hk|exact Ha].
        * intros p' Hp'. rewrite Ep in Hp'. injection Hp' as <-. cbn [rest outs]. split; [exact Hg|]. split; [|exact Ho].
          rewrite Hd. unfold curop. rewrite Ec. reflexivity.
    - destruct (rest t) as [|[| |o] q] eqn:Er; simpl in Hg.
      + eauto.
      + destruct Hg as [Hh Hg]. unfold held_by in Hh. destruct (held c) as [j|] eqn:Ehc.
        * rewrite Hh. eauto.
        * eexists. split; [reflexivity|]. apply rinv_lock; auto.
          -- rewrite Er. reflexivity.
          -- intros j E. injection E as <-. exact Hit.
          -- rewrite Nat.eqb_refl. exact Hg.
          -- intros j Hn. unfold held_by. rewrite Ehc. symmetry. apply Nat.eqb_neq. exact Hn.
      + destruct Hg as [Hh Hg]. rewrite Hh. unfold held_by in Hh. destruct (held c) as [j|] eqn:Ehc; [|discriminate].
        apply Nat.eqb_eq in Hh. subst j. eexists. split; [reflexivity|]. apply rinv_lock; auto.
        * rewrite Er. reflexivity.
        * discriminate.
        * intros j Hn. unfold held_by. rewrite Ehc. apply Nat.eqb_neq. exact Hn.
      + eexists. split; [reflexivity|]. apply (rinv_put c i t); auto.
        * apply (r_log _ H).
        * intros o' a' E. injection E as <- <-. split; [|apply Hcall]. apply (Hread p); [apply (nth_error_In _ _ Ep)|].
          rewrite Hd. apply in_or_app. right. apply in_or_app. right. left. reflexivity.
        * intros p' Hp'. rewrite Ep in Hp'. injection Hp' as <-. cbn [rest outs]. split; [apply Hg|]. split; [|exact Ho].
          rewrite Hd. unfold curop. rewrite Ec. reflexivity.
  Qed.
  Lemma rinv_fork : rinv (fork s0 ts).
  Proof.
    assert (forall i t, nth_error (threads (@fork S Loc Op Out s0 ts)) i = Some t -> exists p, nth_error ts i = Some p /\ t = mkT None p []) as Ht.
    { intros i t H. unfold fork in H. simpl in H. rewrite nth_error_map in H. destruct (nth_error ts i) as [p|]; [|discriminate].
      injection H as <-. eauto. }
    split.
    - apply map_length.
    - reflexivity.
    - intros i o x [].
    - intros i t o a H Hc. apply Ht in H. destruct H as (p & _ & ->). discriminate.
    - intros i t p H Hp. apply Ht in H. destruct H as (p' & Hp' & ->). rewrite Hp in Hp'. injection Hp' as <-.
      split; [apply Hguard; apply (nth_error_In _ _ Hp)|]. split; reflexivity.
    - discriminate.
  Qed.
  Lemma rinv_run sch : forall c, rinv c -> exists c', crun code sch c = inl c' /\ rinv c'.
  Proof.
    induction sch as [|i sch IH]; simpl; intros c H; [eauto|]. destruct (rinv_step c i H) as (c' & -> & H'). apply (IH c' H').
  Qed.
  Lemma rinv_good c : rinv c -> as_if_sequential call s0 ts c.
  Proof.
    intros H.
    assert (forall lg : list (nat * Op * Out), (forall i o x, In (i, o, x) lg -> call o s0 = Ret x s0) ->
      seqrun call (map snd (map fst lg)) s0 = Ret (map snd lg) s0) as Hseq.
    { induction lg as [|[[i o] x] lg IH]; simpl; intros Hl; [reflexivity|]. rewrite (Hl i o x (or_introl eq_refl)), IH; [reflexivity|].
      intros i' o' x' Hin. apply (Hl i' o' x'). right. exact Hin. }
    split.
    - intros (l & i & j & t & u & wi & wj & Hn & Ht & Hu & Ai & Aj & Hw).
      assert (forall i t w, nth_error (threads c) i = Some t -> access t = Some (l, w) -> w = false) as Hro.
      { intros i' t' w Ht' Aw. unfold access in Aw. destruct (cur t') as [[o a]|] eqn:Ec; [|discriminate].
        destruct (r_cur _ H i' t' o a Ht' Ec) as [Hr _]. inversion Hr; subst a; congruence. }
      rewrite (Hro i t wi Ht Ai), (Hro j u wj Hu Aj) in Hw. discriminate.
    - exists s0. split; [|intros _; apply (r_shared _ H)]. apply Hseq. intros i o x Hin. apply (r_log _ H i o x Hin).
    - split.
      + intros i o Hin. unfold history in Hin. apply in_map_iff in Hin. destruct Hin as ([[i' o'] x] & E & Hin). simpl in E. injection E as -> ->.
        apply (r_log _ H _ _ _ Hin).
      + intros i p Hp. assert (i < length (threads c)) as Hi by (rewrite (r_len _ H); apply nth_error_Some; congruence).
        destruct (nth_error (threads c) i) as [t|] eqn:Et; [|apply nth_error_None in Et; lia].
        destruct (r_thread _ H _ _ _ Et Hp) as (_ & Hd & Ho). rewrite history_tlog, <- Ho. eauto.
    - intros i t Ht. assert (i < length ts) as Hi by (rewrite <- (r_len _ H); apply nth_error_Some; congruence).
      destruct (nth_error ts i) as [p|] eqn:Ep; [|apply nth_error_None in Ep; lia]. apply (r_thread _ H _ _ _ Ht Ep).
    - intros Hf i p Hp. assert (i < length (threads c)) as Hi by (rewrite (r_len _ H); apply nth_error_Some; congruence).
      destruct (nth_error (threads c) i) as [t|] eqn:Et; [|apply nth_error_None in Et; lia].
      destruct (r_thread _ H _ _ _ Et Hp) as (_ & Hd & Ho). destruct (Hf t (nth_error_In _ _ Et)) as [Ec Er].
      rewrite history_tlog, <- Ho, Hd. unfold curop. rewrite Ec, Er. simpl. apply app_nil_r.
    - intros (t & Hin & Hnf). destruct (held c) as [j|] eqn:Eh.
      + pose proof (r_held _ H j Eh) as Hj. pose proof Hj as Hj'. rewrite <- (r_len _ H) in Hj'. apply nth_error_Some in Hj, Hj'.
        destruct (nth_error (threads c) j) as [u|] eqn:Eu; [|congruence]. destruct (nth_error ts j) as [p|] eqn:Ep; [|congruence].
        destruct (r_thread _ H _ _ _ Eu Ep) as (Hg & _ & _). unfold held_by in Hg. rewrite Eh, Nat.eqb_refl in Hg.
        exists u. split; [apply (nth_error_In _ _ Eu)|]. split.
        * intros [_ Er]. rewrite Er in Hg. discriminate.
        * intros (_ & _ & q & Er). rewrite Er in Hg. destruct Hg. discriminate.
      + exists t. split; [exact Hin|]. split; [exact Hnf|]. intros (_ & X & _). congruence.
  Qed.
  Lemma readers_good sch : exists c, crun code sch (fork s0 ts) = inl c /\ as_if_sequential call s0 ts c /\ shared c = s0.
  Proof.
    destruct (rinv_run sch _ rinv_fork) as (c & E & H). exists c. split; [exact E|]. split; [apply (rinv_good c H)|apply (r_shared _ H)].
  Qed.
End Readers.

(** ** the calls of a cache, made alone *)
Section LruSync.
  Context {L V : Type} (ltb : L -> L -> bool) (HO : SWO ltb).
  Notation cache := (cache L V).
  Notation lact := (act cache lloc (out V)).
  Notation code := (lru_code (V := V) ltb).

  Lemma write_age_some (c : cache) i n a : nth_error (c_elems c) i = Some n -> write_age i a c = set_elems c (upd i (set_age n a) (c_elems c)).
  Proof. intros H. unfold write_age. rewrite H. reflexivity. Qed.
  Lemma get_loop_alone e (k : lact) todo : forall c, alone (get_loop_code e todo k) c =
    match get_loop e todo c with Ret _ c' => alone k c' | Exc x c' => Exc x c' | Ub r => Ub r | Abort => Abort | Fuel => Fuel end.
  Proof.
    induction todo as [|i todo IH]; intros c; [reflexivity|]. cbn [get_loop_code alone get_loop]. unfold read_age. cbn [alone].
    destruct (nth_error (c_elems c) i) as [n|] eqn:Ei; [|reflexivity]. cbn [alone]. destruct (nth_error (c_elems c) e) as [m|]; [|reflexivity].
    destruct (n_age n <? n_age m)%Z; [|apply IH]. unfold age_incr, read_age. cbn [alone]. rewrite Ei. cbn [alone]. rewrite (write_age_some _ _ _ _ Ei). apply IH.
  Qed.
  Lemma put_loop_alone (k : lact) todo : forall r c, alone (put_loop_code todo r k) c =
    match put_loop todo r c with
    | Ret (Some i) c' => alone k (set_elems c' (erase_at i (c_elems c'))) | Ret None _ => Ub UbEraseEnd
    | Exc x c' => Exc x c' | Ub r => Ub r | Abort => Abort | Fuel => Fuel
    end.
  Proof.
    induction todo as [|i todo IH]; intros r c; [destruct r; reflexivity|]. cbn [put_loop_code alone put_loop]. unfold read_age. cbn [alone].
    destruct (nth_error (c_elems c) i) as [n|] eqn:Ei; [|reflexivity]. cbn [alone]. unfold age_incr, read_age. cbn [alone]. rewrite Ei. cbn [alone].
    rewrite (write_age_some _ _ _ _ Ei). apply IH.
  Qed.
  Lemma age_all_alone (k : lact) (c : cache) : alone (age_all_code (seq 0 (length (c_elems c))) k) c = alone k (set_elems c (map incr_age (c_elems c))).
  Proof.
    assert (forall rest (done : list (node L V)) mx nx,
      alone (age_all_code (seq (length done) (length rest)) k) (mkCache mx (done ++ rest) nx) = alone k (mkCache mx (done ++ map incr_age rest) nx)) as Hgen.
    { induction rest as [|x rest IH]; intros done mx nx; [reflexivity|]. cbn [length seq age_all_code alone map]. unfold age_incr, read_age. cbn [alone c_elems].
      rewrite nth_error_app_mid. cbn [alone]. rewrite (write_age_some _ _ x) by apply nth_error_app_mid. unfold set_elems. cbn [c_elems c_max c_next].
      rewrite upd_app_mid. specialize (IH (done ++ [incr_age x]) mx nx). rewrite app_length in IH. simpl in IH. rewrite Nat.add_1_r, <- !app_assoc in IH. exact IH. }
    destruct c as [mx es nx]. apply (Hgen es [] mx nx).
  Qed.

  Lemma find_elem_pos l (es : list (node L V)) n : find_elem n_key ltb l es = Some n -> exists e, find_pos n_key ltb l es = Some e /\ nth_error es e = Some n.
  Proof.
    intros H. destruct (find_pos n_key ltb l es) as [e|] eqn:Ep.
    - exists e. split; [reflexivity|]. destruct (find_pos_nth _ _ _ _ _ Ep) as (x & Hx & Hf). congruence.
    - apply find_pos_None in Ep. congruence.
  Qed.

  Lemma code_step (c : cache) s o : R ltb c s ->
    exists c', step ltb c o = (Some c', snd (spec_step ltb s o)) /\ R ltb c' (fst (spec_step ltb s o)) /\ alone (code o) c = Ret (snd (spec_step ltb s o)) c'.
  Proof.
    intros HR. destruct (step_refines ltb HO c s o HR) as (c' & Hs & HR'). exists c'. split; [exact Hs|]. split; [exact HR'|].
    revert Hs. generalize (snd (spec_step ltb s o)) as r. clear HR'. destruct o as [l|l|l|l v| |]; intros r Hs; cbn [lru_code step] in *.
    - unfold has_label in Hs. cbn [has_code alone]. destruct (find_pos n_key ltb l (c_elems c)); injection Hs as <- <-; reflexivity.
    - unfold get_code. cbn [alone]. unfold get, bind in Hs. destruct (find_pos n_key ltb l (c_elems c)) as [e|] eqn:Ep; [|injection Hs as <- <-; reflexivity].
      rewrite get_loop_alone. destruct (find_pos_nth _ _ _ _ _ Ep) as (n & Hn & _). rewrite (get_loop_map c e n Hn) in *.
      unfold get_end_code. cbn [alone]. set (c1 := set_elems c _) in *. destruct (nth_error (c_elems c1) e) as [n1|] eqn:En1; [|discriminate].
      rewrite (write_age_some _ _ _ _ En1). cbn [c_elems set_elems] in *. assert (e < length (c_elems c1)) as Hlt by (apply nth_error_Some; congruence).
      unfold set_elems at 1. cbn [c_elems]. rewrite nth_error_upd_eq by exact Hlt. cbn [alone].
      set (c2 := set_elems c1 _) in *. assert (NoDup (map n_addr (c_elems c2))) as Hnd.
      { assert (map n_addr (c_elems c2) = map n_addr (c_elems c)) as ->; [|apply (R_addr _ _ _ HR)].
        assert (map n_addr (c_elems c1) = map n_addr (c_elems c)) as <- by (unfold c1; cbn [c_elems set_elems]; apply map_addr_pres; intros m; destruct (n_age m <? n_age n)%Z; reflexivity).
        unfold c2. cbn [c_elems set_elems]. clear -En1. revert e En1. induction (c_elems c1) as [|x es IH]; intros [|e] E; simpl in *; try discriminate.
        - injection E as ->. reflexivity.
        - f_equal. apply (IH e E). }
      assert (read_node (n_addr (set_age n1 0%Z)) c2 = Some (n_val (set_age n1 0%Z))) as Hrd.
      { apply read_node_get; [exact Hnd|]. unfold c2. cbn [c_elems set_elems]. apply (nth_error_In _ e). apply nth_error_upd_eq. exact Hlt. }
      cbn [n_addr set_age n_val] in Hrd. rewrite Hrd in Hs. injection Hs as <- <-. reflexivity.
    - unfold age in Hs. unfold age_code. cbn [alone]. destruct (find_elem n_key ltb l (c_elems c)) as [n|] eqn:Ef.
      + destruct (find_elem_pos _ _ _ Ef) as (e & -> & Hn). unfold read_age. cbn [alone]. rewrite Hn. injection Hs as <- <-. reflexivity.
      + apply find_pos_None in Ef. rewrite Ef. injection Hs as <- <-. reflexivity.
    - unfold put_code. cbn [alone]. unfold put, bind in Hs. destruct (find_pos n_key ltb l (c_elems c)) as [e|] eqn:Ep; [injection Hs as <- <-; reflexivity|].
      cbn [alone]. destruct (Z.of_nat (length (c_elems c)) <? c_max c)%Z.
      + rewrite age_all_alone. unfold insert_code. cbn [alone]. unfold put_age_all, put_insert, read_vref, bind in Hs. injection Hs as <- <-. reflexivity.
      + rewrite put_loop_alone. destruct (put_loop_map (L := L) (V := V) c) as (r0 & E0 & _). rewrite E0 in *. destruct r0 as [i|]; [|discriminate].
        unfold put_erase, put_insert, read_vref, bind in Hs. unfold insert_code. cbn [alone]. injection Hs as <- <-. reflexivity.
    - injection Hs as <- <-. reflexivity.
    - injection Hs as <- <-. reflexivity.
  Qed.

  Lemma run_app_some (ops1 : list (op L V)) : forall ops2 c c1 o1, run ltb c ops1 = (Some c1, o1) ->
    run ltb c (ops1 ++ ops2) = (fst (run ltb c1 ops2), o1 ++ snd (run ltb c1 ops2)).
  Proof.
    induction ops1 as [|o ops1 IH]; simpl; intros ops2 c c1 o1 H.
    - injection H as <- <-. destruct (run ltb c ops2); reflexivity.
    - destruct (step ltb c o) as [[c'|] x]; [|discriminate]. destruct (run ltb c' ops1) as [y z] eqn:E. injection H as -> <-.
      rewrite (IH ops2 _ _ _ E). reflexivity.
  Qed.
  Lemma spec_run_app (ops1 : list (op L V)) : forall ops2 s, fst (spec_run ltb s (ops1 ++ ops2)) = fst (spec_run ltb (fst (spec_run ltb s ops1)) ops2).
  Proof.
    induction ops1 as [|o ops1 IH]; simpl; intros ops2 s; [reflexivity|]. destruct (spec_step ltb s o) as [s1 x]. specialize (IH ops2 s1).
    destruct (spec_run ltb s1 (ops1 ++ ops2)), (spec_run ltb s1 ops1). exact IH.
  Qed.
  Lemma recency_R (c : cache) r : recency ltb c r -> R ltb c r.
  Proof.
    intros (m & c0 & ops & outs & Hm & Hnew & Hrun & ->). unfold lru_new in Hnew. destruct (0 <? m)%Z; [injection Hnew as <-|discriminate].
    destruct (run_refines_gen ltb HO ops _ _ (R_new ltb m Hm)) as (c' & Hc & HR). rewrite Hrun in Hc. injection Hc as -> _. exact HR.
  Qed.
  Lemma recency_step (c : cache) r o c' x : recency ltb c r -> step ltb c o = (Some c', x) -> recency ltb c' (fst (spec_step ltb r o)).
  Proof.
    intros (m & c0 & ops & outs & Hm & Hnew & Hrun & ->) Hs. exists m, c0, (ops ++ [o]), (outs ++ [x]). split; [exact Hm|]. split; [exact Hnew|]. split.
    - rewrite (run_app_some _ _ _ _ _ Hrun). simpl. rewrite Hs. reflexivity.
    - rewrite spec_run_app. simpl. destruct (spec_step ltb _ o); reflexivity.
  Qed.
  Lemma seqrun_recency (ops : list (op L V)) : forall c r, recency ltb c r ->
    exists c', seqrun (fun o => alone (code o)) ops c = Ret (snd (spec_run ltb r ops)) c' /\ recency ltb c' (fst (spec_run ltb r ops)).
  Proof.
    induction ops as [|o ops IH]; intros c r Hr; simpl; [eauto|].
    destruct (code_step c r o (recency_R c r Hr)) as (c1 & Hs & _ & ->). pose proof (recency_step c r o c1 _ Hr Hs) as Hr1.
    destruct (IH c1 _ Hr1) as (c2 & -> & Hr2). exists c2. destruct (spec_step ltb r o) as [r1 x]. simpl in *. destruct (spec_run ltb r1 ops). split; auto.
  Qed.

  (** ** with a mutex *)
  Lemma cache_good (ts : list (list (stm (op L V)))) (s0 : cache) r : recency ltb s0 r -> protected ts ->
    forall sch, exists c, crun code sch (fork s0 ts) = inl c /\ as_if_sequential (fun o => alone (code o)) s0 ts c /\
      results c = snd (spec_run ltb r (map snd (history c))) /\
      (idle c -> recency ltb (shared c) (fst (spec_run ltb r (map snd (history c))))) /\
      exists sch' c', crun code (sch ++ sch') (fork s0 ts) = inl c' /\ forall t, In t (threads c') -> finished t.
  Proof.
    intros Hr Hp sch.
    assert (forall l, merged ts l -> exists outs s', seqrun (fun o => alone (code o)) (map snd l) s0 = Ret outs s') as Hok.
    { intros l _. destruct (seqrun_recency (map snd l) s0 r Hr) as (c' & E & _). eauto. }
    destruct (protected_good code (fun o => alone (code o)) ts s0 (fun o s => eq_refl) Hp Hok sch) as (c & E & Hg).
    exists c. split; [exact E|]. split; [exact Hg|]. destruct (sequential _ _ _ _ Hg) as (s1 & Es & Hid).
    destruct (seqrun_recency (map snd (history c)) s0 r Hr) as (c' & Es' & Hr'). rewrite Es in Es'. injection Es' as -> ->.
    split; [reflexivity|]. split; [intros Hi; rewrite (Hid Hi); exact Hr'|].
    apply (protected_completes code (fun o => alone (code o)) ts s0 (fun o s => eq_refl) Hp Hok sch).
  Qed.

  (** ** threads that only look *)
  Lemma looks_readonly (s0 : cache) o : looks o -> readonly s0 (code o).
  Proof.
    destruct o as [l|l|l|l v| |]; intros H; try contradiction; cbn [lru_code].
    - constructor. constructor.
    - constructor. destruct (find_pos n_key ltb l (c_elems s0)) as [e|] eqn:Ep; [|constructor].
      constructor. destruct (find_pos_nth _ _ _ _ _ Ep) as (n & -> & _). constructor.
    - constructor. constructor.
    - constructor. constructor.
  Qed.
  Lemma looks_spec (r : rlist L V) o : looks o -> fst (spec_step ltb r o) = r.
  Proof. destruct o as [l|l|l|l v| |]; intros H; try contradiction; simpl; try reflexivity. destruct (take_label ltb l (r_items r)) as [[[? ?] ?]|]; reflexivity. Qed.
  Lemma lookers_good (ts : list (list (stm (op L V)))) (s0 : cache) r : recency ltb s0 r -> (forall p, In p ts -> only_looks p /\ guarded false false p) ->
    forall sch, exists c, crun code sch (fork s0 ts) = inl c /\ as_if_sequential (fun o => alone (code o)) s0 ts c /\ shared c = s0 /\
      forall i o x, In (i, o, x) (log c) -> x = snd (spec_step ltb r o).
  Proof.
    intros Hr Hts sch.
    assert (forall p o, In p ts -> In o (does p) -> readonly s0 (code o)) as Hro by (intros p o Hp Ho; apply looks_readonly; apply (Hts p Hp); exact Ho).
    assert (forall p, In p ts -> guarded false false p) as Hg by (intros p Hp; apply (Hts p Hp)).
    destruct (rinv_run code (fun o => alone (code o)) ts s0 (fun o s => eq_refl) Hro sch _ (rinv_fork (Loc := lloc) (Out := out V) (fun o => alone (code o)) ts s0 Hg)) as (c & E & H).
    exists c. split; [exact E|]. split; [apply (rinv_good _ _ _ _ H)|]. split; [apply (r_shared _ _ _ _ H)|].
    intros i o x Hin. destruct (r_log _ _ _ _ H i o x Hin) as [_ Hc]. destruct (code_step s0 r o (recency_R _ _ Hr)) as (c' & _ & _ & Ea).
    congruence.
  Qed.

  (** ** without a mutex, two gets race *)
  Lemma upd_upd {A} i (x y : A) l : upd i x (upd i y l) = upd i x l.
  Proof. revert i. induction l as [|a l IH]; intros [|i]; simpl; try reflexivity. rewrite IH. reflexivity. Qed.
  Lemma find_pos_keys l (es es' : list (node L V)) : map n_key es = map n_key es' -> find_pos n_key ltb l es = find_pos n_key ltb l es'.
  Proof.
    revert es'. induction es as [|x es IH]; intros [|y es'] H; simpl in *; try discriminate; [reflexivity|].
    injection H as -> H. rewrite (IH es' H). reflexivity.
  Qed.
  Lemma write_age_keys i a (c : cache) : map n_key (c_elems (write_age i a c)) = map n_key (c_elems c).
  Proof.
    unfold write_age. destruct (nth_error (c_elems c) i) as [n|] eqn:E; [|reflexivity]. unfold set_elems. cbn [c_elems]. revert i E.
    induction (c_elems c) as [|x es IH]; intros [|i] E; simpl in *; try discriminate; [injection E as ->; reflexivity|]. f_equal. apply (IH i E).
  Qed.
  Notation config := (config cache lloc (op L V) (out V)).
  Definition at_code (c : config) (i : nat) (t : thread cache lloc (op L V) (out V)) (o : op L V) (a : lact) : list (thread cache lloc (op L V) (out V)) :=
    upd i (mkT (Some (o, a)) (rest t) (outs t)) (threads c).
  Definition samekeys (c c' : cache) : Prop := map n_key (c_elems c') = map n_key (c_elems c).
  (** thread [i] works through the loop of get *)
  Lemma loop_runs todo : forall (c : config) i t o e (k : lact), i < length (threads c) -> e < length (c_elems (shared c)) ->
    (forall j, In j todo -> j < length (c_elems (shared c))) -> threads c = at_code c i t o (get_loop_code e todo k) ->
    exists sch c', crun code sch c = inl c' /\ samekeys (shared c) (shared c') /\ threads c' = at_code c i t o k.
  Proof.
    induction todo as [|j todo IH]; intros c i t o e k Hi He Hin Ht.
    - exists [], c. split; [reflexivity|]. split; [reflexivity|]. exact Ht.
    - assert (forall s h lg (a : lact), threads (mkC s h (upd i (mkT (Some (o, a)) (rest t) (outs t)) (threads c)) lg) = at_code c i t o a) as Hth by reflexivity.
      assert (forall s h lg a, nth_error (threads (mkC s h (at_code c i t o a) lg)) i = Some (mkT (Some (o, a)) (rest t) (outs t))) as Hnth
        by (intros; cbn [threads]; apply nth_error_upd_eq; exact Hi).
      assert (forall s h lg a a', put_thread (mkC s h (at_code c i t o a) lg) i (mkT (Some (o, a')) (rest t) (outs t)) = at_code c i t o a') as Hput
        by (intros; unfold put_thread, at_code; cbn [threads]; apply upd_upd).
      set (s := shared c) in *. set (h := held c). set (lg := log c).
      assert (nth_error (threads c) i = Some (mkT (Some (o, get_loop_code e (j :: todo) k)) (rest t) (outs t))) as H0
        by (rewrite Ht; apply nth_error_upd_eq; exact Hi).
      destruct (nth_error (c_elems s) j) as [n|] eqn:Ej; [|apply nth_error_None in Ej; specialize (Hin j (or_introl eq_refl)); lia].
      destruct (nth_error (c_elems s) e) as [m|] eqn:Ee; [|apply nth_error_None in Ee; lia].
      assert (crun code [i; i; i] c = inl (mkC s h (at_code c i t o (if (n_age n <? n_age m)%Z then age_incr j (get_loop_code e todo k) else get_loop_code e todo k)) lg)) as E3.
      { cbn [crun]. unfold cstep at 1. rewrite H0. cbn [get_loop_code cur rest outs shared held log].
        change (put_thread c i ?x) with (upd i x (threads c)). fold s h lg. match goal with |- context [upd i (mkT (Some (o, ?a)) (rest t) (outs t)) (threads c)] => change (upd i (mkT (Some (o, a)) (rest t) (outs t)) (threads c)) with (at_code c i t o a) end.
        unfold cstep at 1. rewrite (Hnth s h lg). unfold read_age. cbn [cur rest outs shared held log]. rewrite (Hput s h lg), Ej.
        unfold cstep at 1. rewrite (Hnth s h lg). unfold read_age. cbn [cur rest outs shared held log]. rewrite (Hput s h lg), Ee. reflexivity. }
      destruct (n_age n <? n_age m)%Z.
      + assert (crun code [i; i] (mkC s h (at_code c i t o (age_incr j (get_loop_code e todo k))) lg) =
          inl (mkC (write_age j (wrap64 (n_age n + 1)) s) h (at_code c i t o (get_loop_code e todo k)) lg)) as E2.
        { cbn [crun]. unfold cstep at 1. rewrite (Hnth s h lg). unfold age_incr, read_age. cbn [cur rest outs shared held log]. rewrite (Hput s h lg), Ej.
          unfold cstep at 1. rewrite (Hnth s h lg). cbn [cur rest outs shared held log]. rewrite (Hput s h lg). reflexivity. }
        assert (samekeys s (write_age j (wrap64 (n_age n + 1)) s)) as Hsk by apply write_age_keys.
        assert (length (c_elems (write_age j (wrap64 (n_age n + 1)) s)) = length (c_elems s)) as Hlen by (rewrite <- (map_length n_key), Hsk, map_length; reflexivity).
        edestruct (IH (mkC (write_age j (wrap64 (n_age n + 1)) s) h (at_code c i t o (get_loop_code e todo k)) lg) i t o e k) as (sch & c' & E & Hk & Ht').
        * cbn [threads]. unfold at_code. rewrite upd_length. exact Hi.
        * cbn [shared]. rewrite Hlen. exact He.
        * intros j' Hj'. cbn [shared]. rewrite Hlen. apply Hin. right. exact Hj'.
        * unfold at_code. cbn [threads]. symmetry. apply upd_upd.
        * exists ([i; i; i] ++ [i; i] ++ sch), c'. rewrite crun_app, E3, crun_app, E2, E. split; [reflexivity|]. split.
          -- unfold samekeys in *. cbn [shared] in *. congruence.
          -- rewrite Ht'. unfold at_code. cbn [threads]. apply upd_upd.
      + edestruct (IH (mkC s h (at_code c i t o (get_loop_code e todo k)) lg) i t o e k) as (sch & c' & E & Hk & Ht').
        * cbn [threads]. unfold at_code. rewrite upd_length. exact Hi.
        * exact He.
        * intros j' Hj'. apply Hin. right. exact Hj'.
        * unfold at_code. cbn [threads]. symmetry. apply upd_upd.
        * exists ([i; i; i] ++ sch), c'. rewrite crun_app, E3, E. split; [reflexivity|]. split; [exact Hk|].
          rewrite Ht'. unfold at_code. cbn [threads]. apply upd_upd.
  Qed.

  Lemma get_loop_code_app e l1 l2 (k : lact) : get_loop_code e (l1 ++ l2) k = get_loop_code e l1 (get_loop_code e l2 k).
  Proof. induction l1 as [|i l1 IH]; simpl; [reflexivity|]. rewrite IH. reflexivity. Qed.
  (** thread [i] begins a get and has found the element *)
  Lemma get_begins (c : config) i t l q e : nth_error (threads c) i = Some t -> cur t = None -> rest t = StDo (OGet l) :: q ->
    find_pos n_key ltb l (c_elems (shared c)) = Some e ->
    crun code [i; i] c = inl (mkC (shared c) (held c)
      (upd i (mkT (Some (OGet l, get_loop_code e (seq 0 (length (c_elems (shared c)))) (get_end_code e))) q (outs t)) (threads c)) (log c)).
  Proof.
    intros Ht Hc Hr Hf. assert (i < length (threads c)) as Hi by (apply nth_error_Some; congruence).
    cbn [crun]. unfold cstep at 1. rewrite Ht, Hc, Hr. unfold cstep. unfold put_thread at 1. cbn [threads]. rewrite nth_error_upd_eq by exact Hi.
    cbn [cur lru_code]. unfold get_code. cbn [shared rest outs held log]. rewrite Hf. unfold put_thread. cbn [threads]. rewrite upd_upd. reflexivity.
  Qed.
  Lemma gets_race (ts : list (list (stm (op L V)))) (s0 : cache) i j p q l l' : i <> j -> contains ltb s0 l -> contains ltb s0 l' ->
    nth_error ts i = Some (StDo (OGet l) :: p) -> nth_error ts j = Some (StDo (OGet l') :: q) ->
    exists sch c, crun code sch (fork s0 ts) = inl c /\ race c.
  Proof.
    intros Hn Hl Hl' Hi Hj.
    assert (forall x, contains ltb s0 x -> exists e, find_pos n_key ltb x (c_elems s0) = Some e) as Hfind.
    { intros x Hx. unfold contains, has_label in Hx. destruct (find_pos n_key ltb x (c_elems s0)); [eauto|discriminate]. }
    destruct (Hfind l Hl) as [e He]. destruct (Hfind l' Hl') as [e' He']. clear Hfind.
    assert (forall x y (s : cache), find_pos n_key ltb x (c_elems s) = Some y -> y < length (c_elems s)) as Hlt.
    { intros x y s H. apply nth_error_Some. destruct (find_pos_nth _ _ _ _ _ H) as (n & -> & _). discriminate. }
    set (c0 := fork s0 ts : config).
    assert (nth_error (threads c0) i = Some (mkT None (StDo (OGet l) :: p) [])) as Ti by (unfold c0; simpl; rewrite nth_error_map, Hi; reflexivity).
    assert (nth_error (threads c0) j = Some (mkT None (StDo (OGet l') :: q) [])) as Tj by (unfold c0; simpl; rewrite nth_error_map, Hj; reflexivity).
    assert (i < length (threads c0)) as Li by (apply nth_error_Some; congruence). assert (j < length (threads c0)) as Lj by (apply nth_error_Some; congruence).
    pose proof (get_begins c0 i _ l p e Ti eq_refl eq_refl He) as E1. cbn [outs] in E1. set (c1 := mkC (shared c0) _ _ _) in E1.
    set (n := length (c_elems (shared c0))) in *.
    edestruct (loop_runs (seq 0 n) c1 i (mkT None p []) (OGet l) e (get_end_code e)) as (sch2 & c2 & E2 & K2 & T2).
    { unfold c1. cbn [threads]. rewrite upd_length. exact Li. }
    { apply (Hlt l). exact He. }
    { intros x Hx. apply in_seq in Hx. unfold c1. cbn [shared]. unfold n in Hx. lia. }
    { unfold c1, at_code. cbn [threads rest outs]. symmetry. apply upd_upd. }
    assert (length (c_elems (shared c2)) = n) as Hlen2 by (rewrite <- (map_length n_key), K2, map_length; reflexivity).
    assert (threads c2 = upd i (mkT (Some (OGet l, get_end_code e)) p []) (threads c0)) as T2' by (rewrite T2; unfold at_code, c1; cbn [threads rest outs]; apply upd_upd).
    assert (nth_error (threads c2) j = Some (mkT None (StDo (OGet l') :: q) [])) as Tj2 by (rewrite T2', nth_error_upd_neq by exact Hn; exact Tj).
    assert (find_pos n_key ltb l' (c_elems (shared c2)) = Some e') as He2 by (rewrite (find_pos_keys l' _ (c_elems s0) K2); exact He').
    pose proof (get_begins c2 j _ l' q e' Tj2 eq_refl eq_refl He2) as E3. cbn [outs] in E3. rewrite Hlen2 in E3. set (c3 := mkC (shared c2) _ _ _) in E3.
    assert (e < n) as Hen by (apply (Hlt l); exact He). assert (e' < n) as Hen' by (rewrite <- Hlen2; apply (Hlt l'); exact He2).
    assert (seq 0 n = seq 0 e ++ e :: seq (S e) (n - S e)) as Hseq.
    { replace n with (e + S (n - S e)) at 1 by lia. rewrite seq_app. simpl. reflexivity. }
    edestruct (loop_runs (seq 0 e) c3 j (mkT None q []) (OGet l') e' (get_loop_code e' (e :: seq (S e) (n - S e)) (get_end_code e'))) as (sch4 & c4 & E4 & K4 & T4).
    { unfold c3. cbn [threads]. rewrite upd_length, T2', upd_length. exact Lj. }
    { unfold c3. cbn [shared]. lia. }
    { intros x Hx. apply in_seq in Hx. unfold c3. cbn [shared]. lia. }
    { unfold at_code. rewrite <- get_loop_code_app, <- Hseq. unfold c3. cbn [threads rest outs]. symmetry. apply upd_upd. }
    assert (threads c4 = upd j (mkT (Some (OGet l', get_loop_code e' (e :: seq (S e) (n - S e)) (get_end_code e'))) q []) (threads c2)) as T4'
      by (rewrite T4; unfold at_code, c3; cbn [threads rest outs]; apply upd_upd).
    assert (j < length (threads c2)) as Lj2 by (rewrite T2', upd_length; exact Lj).
    set (c5 := mkC (shared c4) (held c4) (put_thread c4 j (mkT (Some (OGet l', read_age e (fun a => read_age e' (fun b =>
      if (a <? b)%Z then age_incr e (get_loop_code e' (seq (S e) (n - S e)) (get_end_code e')) else get_loop_code e' (seq (S e) (n - S e)) (get_end_code e'))))) q [])) (log c4)).
    assert (crun code [j] c4 = inl c5) as E5.
    { cbn [crun]. unfold cstep. rewrite T4', nth_error_upd_eq by exact Lj2. reflexivity. }
    exists ([i; i] ++ sch2 ++ [j; j] ++ sch4 ++ [j]), c5. split.
    - rewrite crun_app, E1, crun_app, E2, crun_app, E3, crun_app, E4. exact E5.
    - exists (LAge e), i, j, (mkT (Some (OGet l, get_end_code e)) p []).
      eexists. exists true, false. split; [exact Hn|]. split.
      + unfold c5, put_thread. cbn [threads]. rewrite nth_error_upd_neq, T4', nth_error_upd_neq, T2' by congruence. apply nth_error_upd_eq. exact Li.
      + split; [unfold c5, put_thread; cbn [threads]; apply nth_error_upd_eq; rewrite T4', upd_length; exact Lj2|].
        split; [reflexivity|]. split; reflexivity.
  Qed.
End LruSync.

(** two gets at the same time leave two elements of age 0 *)
Lemma gets_break :
  exists (s0 : cache nat nat) r (ts : list (list (stm (op nat nat)))) sch c,
  recency Nat.ltb s0 r /\ crun (lru_code Nat.ltb) sch (fork s0 ts) = inl c /\ idle c /\ map snd (history c) = [OGet 2; OGet 1] /\
  forall v, step Nat.ltb (shared c) (OPut 3 v) = (None, RUb).
Proof.
  exists (mkCache 2 [mkNode 0 1 1%Z 10; mkNode 1 2 0%Z 20] 2), (mkRlist 2 [(2, 20); (1, 10)]), [[StDo (OGet 1)]; [StDo (OGet 2)]],
    (repeat 0 10 ++ repeat 1 20 ++ repeat 0 20). eexists. split.
  { exists 2%Z, (mkCache 2 [] 0), [OPut 1 10; OPut 2 20], [RUnit; RUnit]. vm_compute. repeat split; reflexivity. }
  split; [vm_compute; reflexivity|]. split; [intros t [<-|[<-|[]]]; reflexivity|]. split; [reflexivity|]. intros v. vm_compute. reflexivity.
Qed.
