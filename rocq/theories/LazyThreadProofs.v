(** LazyThreadProofs.v -- lemmas about LazyThreadModel. *)
From Verif Require Import Base HandleModel HandleSpec HandleProofs ThreadModel LazyModel LazySpec LazyProofs LazyThreadModel LazyThreadSpec.
Local Open Scope monad_scope.

Section Proofs.
  Context {O F E : Type} (call : F -> E -> outcome O * F * E).
  Notation lst := (lst O F E).
  Notation pc := (pc O).
  Notation lthread := (lthread O).
  Notation lconfig := (lconfig O F E).
  Notation pstep := (pstep call).
  Notation ltstep := (ltstep call).
  Notation lcrun := (lcrun call).
  Context (Hnull : never_null call).

  Definition vslot (s : lst) (d : nat) : option slot := nth_error (vars (ptrs s)) d.
  Definition vfun (s : lst) (d : nat) : option (option F) := nth_error (funs s) d.
  Definition alive (s : lst) (a : nat) (v : O) : Prop :=
    exists c, nth_error (heap (ptrs s)) a = Some c /\ c_live c = true /\ c_val c = v.
  Lemma alive_det s a v v' : alive s a v -> alive s a v' -> v = v'.
  Proof. intros (c & H1 & _ & <-) (c' & H1' & _ & <-). congruence. Qed.

  (** ** Before the threads start *)
  Lemma evaluated_slot s d a v : linv s -> evaluated call s d a v -> vslot s d = Some (Ptr a) /\ alive s a v.
  Proof.
    intros Hi He. unfold evaluated in He. destruct (step_ret call s (LCall d) _ _ Hi He) as [_ Hs].
    destruct (obj_done call _ _ _ _ _ Hs) as [Hd Hv].
    assert (Hp : nth_error (vars (ptrs s)) d = Some (Ptr a)).
    { simpl in Hd. rewrite nth_error_map, nth_combine in Hd. destruct (nth_error (funs s) d) as [f|]; [|discriminate].
      destruct (nth_error (vars (ptrs s)) d) as [sl|]; [|discriminate]. destruct f, sl; simpl in Hd; congruence. }
    split; [exact Hp|]. destruct (inv_val _ _ _ _ (li_inv _ Hi) Hp) as (c & Hc & _ & Hl & _).
    exists c. split; [exact Hc|]. split; [exact Hl|]. simpl in Hv. rewrite nth_error_map, Hc in Hv. injection Hv as <-. reflexivity.
  Qed.
  Lemma slot_evaluated s d a : linv s -> vslot s d = Some (Ptr a) -> exists v, evaluated call s d a v /\ alive s a v.
  Proof.
    intros Hi Hp. destruct (inv_val _ _ _ _ (li_inv _ Hi) Hp) as (c & Hc & _ & Hl & _). exists (c_val c). split; [|exists c; auto].
    apply call_done; auto.
    - destruct (fun_at s d _ Hi Hp) as [f Hf]. rewrite (labs_at s d _ _ Hf Hp). destruct f; reflexivity.
    - simpl. rewrite nth_error_map, Hc. reflexivity.
  Qed.

  (** ** Lists of calls and outputs *)
  Lemma returned_app d (l1 l2 : list (nat * outcome O)) : returned d (l1 ++ l2) = returned d l1 ++ returned d l2.
  Proof. induction l1 as [|[k [v| |e]] l1 IH]; simpl; auto. destruct (Nat.eqb k d); simpl; congruence. Qed.
  Lemma thrown_app d (l1 l2 : list (nat * outcome O)) : thrown d (l1 ++ l2) = thrown d l1 ++ thrown d l2.
  Proof. induction l1 as [|[k [v| |e]] l1 IH]; simpl; auto. destruct (Nat.eqb k d); simpl; congruence. Qed.
  Lemma caught_app d (l1 l2 : list (top * lout O)) : caught d (l1 ++ l2) = caught d l1 ++ caught d l2.
  Proof. induction l1 as [|[[k|] [|a v|e]] l1 IH]; simpl; auto. destruct (Nat.eqb k d); simpl; congruence. Qed.
  (** what the last successful call gave *)
  Definition lastobj (k : lout O) (l : list (top * lout O)) : lout O :=
    fold_left (fun k p => match p with (TCall _, LObj a v) => LObj a v | _ => k end) l k.
  Lemma lastobj_app k l1 l2 : lastobj k (l1 ++ l2) = lastobj (lastobj k l1) l2.
  Proof. apply fold_left_app. Qed.
  Lemma rereads_app l1 : forall k l2, rereads k (l1 ++ l2) <-> rereads k l1 /\ rereads (lastobj k l1) l2.
  Proof.
    induction l1 as [|[[d|] x] l1 IH]; intros k l2; simpl; [tauto| |].
    - destruct x; apply IH.
    - rewrite IH. assert (lastobj k ((TReread, x) :: l1) = lastobj k l1) by reflexivity. tauto.
  Qed.

  (** ** The invariant *)
  Section Inv.
    Context (owner : nat -> option nat) (s0 : lst) (Hi0 : linv s0).
    Definition owned (i d : nat) : Prop := owner d = Some i /\ unevaluated s0 d.
    Definition common (d : nat) : Prop := exists a, vslot s0 d = Some (Ptr a).
    Lemma owned_not_common i d : owned i d -> ~ common d.
    Proof. intros [_ [Hn _]] [a Ha]. unfold vslot in Ha. congruence. Qed.
    Lemma may_call_ok i o : may_call call owner s0 i o -> match o with TCall d => common d \/ owned i d | TReread => True end.
    Proof.
      destruct o as [d|]; simpl; [|auto]. intros [(a & v & He)|[H1 H2]]; [left|right; split; assumption].
      exists a. apply (evaluated_slot s0 d a v Hi0 He).
    Qed.

    Record G (s : lst) (L : list (nat * outcome O)) : Prop := mkG {
      g_sched : sched (ptrs s) = [];
      g_alive : forall d a, vslot s d = Some (Ptr a) -> exists v, alive s a v;
      g_common : forall d a, vslot s0 d = Some (Ptr a) -> vslot s d = Some (Ptr a) /\ forall o, ~ In (d, o) L;
      g_value : forall a v, alive s0 a v -> alive s a v;
      g_once : forall d, length (returned d L) <= 1 }.
    (** the owner of [d] is between the return of its function and the assignment of the pointer *)
    Definition busy (p : option pc) (d : nat) : Prop :=
      match p with
      | Some (AtMake k _) | Some (AtSwap k _) | Some (AtStore k _ _) => k = d
      | _ => False
      end.
    Definition at_pc (i : nat) (s : lst) (L : list (nat * outcome O)) (kept : option nat) (p : pc) : Prop :=
      match p with
      | AtTest d => common d \/ owned i d
      | AtFunc d => owned i d /\ vslot s d = Some Null
      | AtMake d v => owned i d /\ vslot s d = Some Null /\ returned d L = [v]
      | AtSwap d new => owned i d /\ vslot s d = Some Null /\ exists a v, new = Ptr a /\ alive s a v /\ returned d L = [v]
      | AtStore d new old => owned i d /\ vslot s d = Some Null /\ old = Null /\ exists a v, new = Ptr a /\ alive s a v /\ returned d L = [v]
      | AtDrop d old => (common d \/ owned i d) /\ old = Null /\ exists a, vslot s d = Some (Ptr a)
      | AtKill _ _ => False
      | AtDeref d => (common d \/ owned i d) /\ exists a, vslot s d = Some (Ptr a)
      | AtRead d a => (common d \/ owned i d) /\ vslot s d = Some (Ptr a)
      | AtReread a => kept = Some a
      end.
    Record T (i : nat) (s : lst) (L : list (nat * outcome O)) (q : list top) (t : lthread) : Prop := mkTI {
      t_pc : match l_pc t with Some p => at_pc i s L (l_kept t) p | None => True end;
      t_own : forall d, owned i d ->
        (exists f, vfun s d = Some (Some f)) /\
        ((vslot s d = Some Null /\ (busy (l_pc t) d \/ returned d L = [])) \/
         exists a v, vslot s d = Some (Ptr a) /\ alive s a v /\ returned d L = [v]);
      t_todo : Forall (fun o => match o with TCall d => common d \/ owned i d | TReread => True end) (l_rest t);
      t_obj : forall d x, In (TCall d, x) (l_outs t) -> (common d \/ owned i d) /\
        match x with
        | LObj a v => vslot s d = Some (Ptr a) /\ alive s a v
        | LExc _ => owned i d
        | LUnit => False
        end;
      t_exc : forall d, owned i d -> caught d (l_outs t) = thrown d L;
      t_rr : rereads LUnit (l_outs t);
      t_kept : match l_kept t with
               | None => lastobj LUnit (l_outs t) = LUnit
               | Some a => exists v, alive s a v /\ lastobj LUnit (l_outs t) = LObj a v
               end;
      t_prog : map fst (l_outs t) ++ (match l_pc t with Some p => [statement p] | None => [] end) ++ l_rest t = q }.

    (** what a step of thread [i] leaves unchanged *)
    Record ext (i : nat) (s s' : lst) (L L' : list (nat * outcome O)) : Prop := mkExt {
      e_alive : forall a v, alive s a v -> alive s' a v;
      e_ptr : forall d a, vslot s d = Some (Ptr a) -> vslot s' d = Some (Ptr a);
      e_slot : forall d, ~ owned i d -> vslot s' d = vslot s d;
      e_fun : forall d, ~ owned i d -> vfun s' d = vfun s d;
      e_ret : forall d, ~ owned i d -> returned d L' = returned d L;
      e_thr : forall d, ~ owned i d -> thrown d L' = thrown d L }.
    Lemma ext_refl i s L : ext i s s L (L ++ []).
    Proof. rewrite app_nil_r. constructor; auto. Qed.

    Lemma at_pc_ext i j s s' L L' k p : i <> j -> ext i s s' L L' -> at_pc j s L k p -> at_pc j s' L' k p.
    Proof.
      intros Hn He. assert (Ho : forall d, owned j d -> ~ owned i d) by (intros d [A _] [B _]; congruence).
      destruct p as [d|d|d v|d new|d new old|d old|d a|d|d a|a]; simpl; auto.
      - intros [H1 H2]. split; [exact H1|]. rewrite (e_slot _ _ _ _ _ He) by auto. exact H2.
      - intros (H1 & H2 & H3). split; [exact H1|]. rewrite (e_slot _ _ _ _ _ He), (e_ret _ _ _ _ _ He) by auto. auto.
      - intros (H1 & H2 & a & v & H3 & H4 & H5). split; [exact H1|]. rewrite (e_slot _ _ _ _ _ He), (e_ret _ _ _ _ _ He) by auto.
        split; [exact H2|]. exists a, v. split; [exact H3|]. split; [eapply e_alive; eauto|exact H5].
      - intros (H1 & H2 & H0 & a & v & H3 & H4 & H5). split; [exact H1|]. rewrite (e_slot _ _ _ _ _ He), (e_ret _ _ _ _ _ He) by auto.
        split; [exact H2|]. split; [exact H0|]. exists a, v. split; [exact H3|]. split; [eapply e_alive; eauto|exact H5].
      - intros (H0 & H1 & a & H2). split; [exact H0|]. split; [exact H1|]. exists a. eapply e_ptr; eauto.
      - intros (H0 & a & H2). split; [exact H0|]. exists a. eapply e_ptr; eauto.
      - intros (H0 & H2). split; [exact H0|]. eapply e_ptr; eauto.
    Qed.
    Lemma T_ext i j s s' L L' q t : i <> j -> ext i s s' L L' -> T j s L q t -> T j s' L' q t.
    Proof.
      intros Hn He Ht. assert (Ho : forall d, owned j d -> ~ owned i d) by (intros d [A _] [B _]; congruence).
      destruct Ht as [H1 H2 H3 H4 H5 H6 H7 H8]. constructor; auto.
      - destruct (l_pc t) as [p|]; auto. eapply at_pc_ext; eauto.
      - intros d Hd. rewrite (e_slot _ _ _ _ _ He), (e_fun _ _ _ _ _ He), (e_ret _ _ _ _ _ He) by auto.
        destruct (H2 d Hd) as [A [B|(a & v & B & C & D)]]; split; auto. right. exists a, v. split; [exact B|]. split; [eapply e_alive; eauto|exact D].
      - intros d x Hx. destruct (H4 d x Hx) as [A B]. split; [exact A|]. destruct x as [|a v|e]; auto. destruct B. split; [eapply e_ptr|eapply e_alive]; eauto.
      - intros d Hd. rewrite (e_thr _ _ _ _ _ He) by auto. auto.
      - destruct (l_kept t) as [a|]; auto. destruct H7 as (v & A & B). exists v. split; [eapply e_alive; eauto|exact B].
    Qed.

    (** ** Steps *)
    Lemma T_goto i s L q p p' r o k : T i s L q (mkLT (Some p) r o k) -> at_pc i s L k p' -> statement p' = statement p ->
      (forall d, busy (Some p) d -> busy (Some p') d) -> T i s L q (mkLT (Some p') r o k).
    Proof.
      intros [H1 H2 H3 H4 H5 H6 H7 H8] Hp Hs Hb. constructor; cbn [l_pc l_rest l_outs l_kept] in *; auto.
      - intros d Hd. destruct (H2 d Hd) as [A [[B [C|C]]|B]]; split; auto.
      - rewrite Hs. exact H8.
    Qed.
    Lemma T_obj i s L q p r o k d a v : T i s L q (mkLT (Some p) r o k) -> statement p = TCall d -> (forall d', ~ busy (Some p) d') ->
      common d \/ owned i d -> vslot s d = Some (Ptr a) -> alive s a v ->
      T i s L q (mkLT None r (o ++ [(TCall d, LObj a v)]) (Some a)).
    Proof.
      intros [H1 H2 H3 H4 H5 H6 H7 H8] Hs Hb Hc Hp Ha. constructor; cbn [l_pc l_rest l_outs l_kept] in *; auto.
      - intros d' Hd. destruct (H2 d' Hd) as [A [[B [C|C]]|B]]; split; auto. exfalso. exact (Hb _ C).
      - intros d' x Hin. apply in_app_or in Hin as [Hin|[Hin|[]]]; [apply H4; exact Hin|]. injection Hin as <- <-. auto.
      - intros d' Hd. rewrite caught_app. simpl. rewrite app_nil_r. auto.
      - apply rereads_app. simpl. auto.
      - exists v. split; [exact Ha|]. rewrite lastobj_app. reflexivity.
      - rewrite map_app. simpl. rewrite <- app_assoc. rewrite Hs in H8. exact H8.
    Qed.
    Lemma T_reread i s L q r o a v : T i s L q (mkLT (Some (AtReread a)) r o (Some a)) -> alive s a v ->
      T i s L q (mkLT None r (o ++ [(TReread, LObj a v)]) (Some a)).
    Proof.
      intros [H1 H2 H3 H4 H5 H6 H7 H8] Ha. constructor; cbn [l_pc l_rest l_outs l_kept] in *; auto.
      - intros d' x Hin. apply in_app_or in Hin as [Hin|[Hin|[]]]; [apply H4; exact Hin|]. discriminate.
      - intros d' Hd. rewrite caught_app. simpl. rewrite app_nil_r. auto.
      - apply rereads_app. simpl. split; [exact H6|]. split; [|exact I]. destruct H7 as (v' & A & ->). f_equal. eapply alive_det; eauto.
      - destruct H7 as (v' & A & B). exists v'. split; [exact A|]. rewrite lastobj_app, B. reflexivity.
      - rewrite map_app. simpl. rewrite <- app_assoc. exact H8.
    Qed.
    Lemma on_get_slot s d sl k : vslot s d = Some sl -> sl <> Dead -> on_ptrs (get_slot d) s k = (k sl, s).
    Proof.
      intros Hs Hd. unfold on_ptrs, lift, get_slot. unfold vslot in Hs. rewrite Hs. destruct sl; try congruence; destruct s; reflexivity.
    Qed.
    Lemma on_a_get s a v k : alive s a v -> on_ptrs (a_get a) s k = (k v, s).
    Proof.
      intros (c & Hc & Hl & <-). unfold on_ptrs, lift, a_get, live_cell. rewrite Hc, Hl. destruct s; reflexivity.
    Qed.

    Definition step_good (i : nat) (s : lst) (L : list (nat * outcome O)) (q : list top) (t : lthread) : Prop :=
      exists t' s' l, ltstep t s = inl (t', s', l) /\ ext i s s' L (L ++ l) /\ G s' (L ++ l) /\ T i s' (L ++ l) q t'.
    Lemma good_same i s L q t t' : G s L -> ltstep t s = inl (t', s, []) -> T i s L q t' -> step_good i s L q t.
    Proof.
      intros Hg He Ht. exists t', s, []. split; [exact He|]. split; [apply ext_refl|]. rewrite app_nil_r. auto.
    Qed.
    (** the state after a call of the function *)
    Definition fstate (s : lst) (d : nat) (f' : F) (w' : E) : lst := mkLst (ptrs s) (upd d (Some f') (funs s)) w'.
    Lemma fun_ext i s L d f f' w' o : owned i d -> vfun s d = Some (Some f) -> ext i s (fstate s d f' w') L (L ++ [(d, o)]).
    Proof.
      intros Hd Hf. constructor; auto.
      - intros d' Hd'. unfold vfun. simpl. apply nth_error_upd_neq. congruence.
      - intros d' Hd'. rewrite returned_app. simpl. destruct (Nat.eqb_spec d d') as [<-|_]; [contradiction|]. destruct o; apply app_nil_r.
      - intros d' Hd'. rewrite thrown_app. simpl. destruct (Nat.eqb_spec d d') as [<-|_]; [contradiction|]. destruct o; apply app_nil_r.
    Qed.
    Lemma fun_G i s L d f' w' o : G s L -> owned i d -> returned d L = [] -> G (fstate s d f' w') (L ++ [(d, o)]).
    Proof.
      intros [H1 H2 H3 H4 H5] Hd Hr. constructor; auto.
      - intros d' a Ha. destruct (H3 d' a Ha) as [A B]. split; [exact A|]. intros o' Hin. apply in_app_or in Hin as [Hin|[Hin|[]]]; [eapply B; eauto|].
        injection Hin as -> ->. apply (owned_not_common i d' Hd). exists a. exact Ha.
      - intros d'. rewrite returned_app, app_length. simpl. specialize (H5 d'). destruct o as [v| |e]; simpl; try lia.
        destruct (Nat.eqb_spec d d') as [<-|_]; simpl; [rewrite Hr; simpl; lia|lia].
    Qed.
    Lemma step_func i s L q d r o k : G s L -> T i s L q (mkLT (Some (AtFunc d)) r o k) -> step_good i s L q (mkLT (Some (AtFunc d)) r o k).
    Proof.
      intros Hg Ht. pose proof (t_pc _ _ _ _ _ Ht) as Hp. cbn [l_pc at_pc] in Hp. destruct Hp as [Hd Hs].
      destruct (t_own _ _ _ _ _ Ht d Hd) as [(f & Hf) Hst]. cbn [l_pc busy] in Hst.
      destruct Hst as [[_ [[]|Hr]]|(a & v & Ha & _)]; [|unfold vslot in *; congruence].
      destruct (call f (env s)) as [[oc f'] w'] eqn:Ec.
      assert (Ecall : call_func call d s = Ret oc (fstate s d f' w')) by (unfold call_func, vfun in *; rewrite Hf, Ec; reflexivity).
      pose proof (fun_ext i s L d f f' w' oc Hd Hf) as He. pose proof (fun_G i s L d f' w' oc Hg Hd Hr) as Hg'.
      assert (Hfs : exists f0, vfun (fstate s d f' w') d = Some (Some f0)).
      { exists f'. unfold vfun, fstate. simpl. eapply nth_error_upd_some. exact Hf. }
      destruct Ht as [H1 H2 H3 H4 H5 H6 H7 H8]. cbn [l_pc l_rest l_outs l_kept] in *.
      destruct oc as [v| |e].
      - exists (mkLT (Some (AtMake d v)) r o k), (fstate s d f' w'), [(d, OutObj v)].
        split; [unfold LazyThreadModel.ltstep; cbn [l_pc LazyThreadModel.pstep]; rewrite Ecall; reflexivity|]. split; [exact He|]. split; [exact Hg'|].
        assert (Hr' : returned d (L ++ [(d, OutObj v)]) = [v]) by (rewrite returned_app, Hr; simpl; rewrite Nat.eqb_refl; reflexivity).
        constructor; cbn [l_pc l_rest l_outs l_kept] in *; auto.
        + simpl. auto.
        + intros d' Hd'. destruct (Nat.eq_dec d d') as [<-|Hn]; [split; [exact Hfs|left; simpl; auto]|].
          destruct (H2 d' Hd') as [(f0 & A) B]. split.
          * exists f0. unfold vfun, fstate in *. simpl. rewrite nth_error_upd_neq by auto. exact A.
          * rewrite returned_app. simpl. destruct (Nat.eqb_spec d d'); [congruence|]. rewrite app_nil_r.
            destruct B as [[B [[]|C]]|B]; [left; split; [exact B|right; exact C]|right; exact B].
        + intros d' Hd'. rewrite thrown_app. simpl. rewrite app_nil_r. auto.
      - exfalso. exact (Hnull _ _ _ _ Ec).
      - exists (mkLT None r (o ++ [(TCall d, LExc e)]) k), (fstate s d f' w'), [(d, OutThrow e)].
        split; [unfold LazyThreadModel.ltstep; cbn [l_pc LazyThreadModel.pstep]; rewrite Ecall; destruct k; reflexivity|]. split; [exact He|]. split; [exact Hg'|].
        constructor; cbn [l_pc l_rest l_outs l_kept] in *; auto.
        + intros d' Hd'. rewrite returned_app. simpl. rewrite app_nil_r.
          destruct (Nat.eq_dec d d') as [<-|Hn]; [split; [exact Hfs|left; auto]|].
          destruct (H2 d' Hd') as [(f0 & A) B]. split.
          * exists f0. unfold vfun, fstate in *. simpl. rewrite nth_error_upd_neq by auto. exact A.
          * destruct B as [[B [[]|C]]|B]; [left; split; [exact B|right; exact C]|right; exact B].
        + intros d' x Hin. apply in_app_or in Hin as [Hin|[Hin|[]]]; [apply H4; exact Hin|]. injection Hin as <- <-. auto.
        + intros d' Hd'. rewrite caught_app, thrown_app. simpl. rewrite (H5 d' Hd'). reflexivity.
        + apply rereads_app. simpl. auto.
        + rewrite lastobj_app. exact H7.
        + rewrite map_app. simpl. rewrite <- app_assoc. exact H8.
    Qed.
    Lemma step_make i s L q d v r o k : G s L -> T i s L q (mkLT (Some (AtMake d v)) r o k) -> step_good i s L q (mkLT (Some (AtMake d v)) r o k).
    Proof.
      intros Hg Ht. pose proof (t_pc _ _ _ _ _ Ht) as Hp. cbn [l_pc at_pc] in Hp. destruct Hp as (Hd & Hs & Hr).
      set (s' := mkLst (mkHst (vars (ptrs s)) (heap (ptrs s) ++ [mkCell v 1 true]) [] (refs (ptrs s))) (funs s) (env s)).
      set (a := length (heap (ptrs s))).
      assert (Ha : forall b x, alive s b x -> alive s' b x).
      { intros b x (c & Hc & Hl & Hv). exists c. split; [|auto]. simpl. rewrite nth_error_app1; [exact Hc|]. apply nth_error_Some. congruence. }
      assert (Hn : alive s' a v). { exists (mkCell v 1 true). split; [|auto]. simpl. unfold a. rewrite nth_error_app2 by lia. rewrite Nat.sub_diag. reflexivity. }
      exists (mkLT (Some (AtSwap d (Ptr a))) r o k), s', [].
      split; [|split; [|split]].
      - unfold LazyThreadModel.ltstep. cbn [l_pc LazyThreadModel.pstep]. unfold on_ptrs, lift, alloc. rewrite (g_sched _ _ Hg). reflexivity.
      - rewrite app_nil_r. constructor; auto.
      - rewrite app_nil_r. destruct Hg as [G1 G2 G3 G4 G5]. constructor; auto. intros d' b Hb. destruct (G2 d' b Hb) as [x Hx]. eauto.
      - rewrite app_nil_r. destruct Ht as [H1 H2 H3 H4 H5 H6 H7 H8]. cbn [l_pc l_rest l_outs l_kept] in *. constructor; cbn [l_pc l_rest l_outs l_kept] in *; auto.
        + simpl. split; [exact Hd|]. split; [exact Hs|]. exists a, v. auto.
        + intros d' Hd'. destruct (H2 d' Hd') as [A [[B C]|(b & x & B & C & D)]]; split; auto. right. exists b, x. auto.
        + intros d' x Hx. destruct (H4 d' x Hx) as [A B]. split; [exact A|]. destruct x; auto. destruct B. auto.
        + destruct k as [b|]; auto. destruct H7 as (x & A & B). exists x. auto.
    Qed.
    Lemma step_store i s L q d new old r o k : G s L -> T i s L q (mkLT (Some (AtStore d new old)) r o k) ->
      step_good i s L q (mkLT (Some (AtStore d new old)) r o k).
    Proof.
      intros Hg Ht. pose proof (t_pc _ _ _ _ _ Ht) as Hp. cbn [l_pc at_pc] in Hp. destruct Hp as (Hd & Hs & -> & a & v & -> & Ha & Hr).
      set (s' := mkLst (mkHst (upd d (Ptr a) (vars (ptrs s))) (heap (ptrs s)) (sched (ptrs s)) (refs (ptrs s))) (funs s) (env s)).
      assert (Hsame : vslot s' d = Some (Ptr a)) by (unfold vslot; simpl; eapply nth_error_upd_some; exact Hs).
      assert (Hother : forall d', d' <> d -> vslot s' d' = vslot s d') by (intros d' Hn; unfold vslot; simpl; apply nth_error_upd_neq; auto).
      assert (Hkeep : forall d' b, vslot s d' = Some (Ptr b) -> vslot s' d' = Some (Ptr b)).
      { intros d' b Hb. destruct (Nat.eq_dec d' d) as [->|Hn]; [congruence|]. rewrite Hother; auto. }
      exists (mkLT (Some (AtDrop d Null)) r o k), s', [].
      split; [|split; [|split]].
      - reflexivity.
      - rewrite app_nil_r. constructor; auto. intros d' Hd'. apply Hother. congruence.
      - rewrite app_nil_r. destruct Hg as [G1 G2 G3 G4 G5]. constructor; auto.
        + intros d' b Hb. destruct (Nat.eq_dec d' d) as [->|Hn]; [|rewrite Hother in Hb by auto; eauto].
          rewrite Hsame in Hb. injection Hb as <-. exists v. exact Ha.
        + intros d' b Hb. destruct (G3 d' b Hb). auto.
      - rewrite app_nil_r. destruct Ht as [H1 H2 H3 H4 H5 H6 H7 H8]. cbn [l_pc l_rest l_outs l_kept] in *. constructor; cbn [l_pc l_rest l_outs l_kept] in *; auto.
        + simpl. split; [auto|]. split; [reflexivity|]. exists a. exact Hsame.
        + intros d' Hd'. destruct (H2 d' Hd') as [A B]. split; [exact A|]. destruct (Nat.eq_dec d' d) as [->|Hn].
          * right. exists a, v. auto.
          * rewrite Hother by auto. destruct B as [[B [C|C]]|B]; auto. simpl in C. congruence.
        + intros d' x Hx. destruct (H4 d' x Hx) as [A B]. split; [exact A|]. destruct x; auto. destruct B. auto.
    Qed.
    Lemma step_ok i s L q t : G s L -> T i s L q t -> step_good i s L q t.
    Proof.
      intros Hg Ht. pose proof (t_pc _ _ _ _ _ Ht) as Hp. destruct t as [[p|] r o k]; cbn [l_pc] in Hp.
      - destruct p as [d|d|d v|d new|d new old|d old|d a|d|d a|a]; cbn [at_pc] in Hp.
        + (* AtTest *)
          assert (Hsl : vslot s d = Some Null /\ owned i d \/ exists a, vslot s d = Some (Ptr a)).
          { destruct Hp as [(a & Ha)|Hd]; [right; exists a; apply (g_common _ _ Hg d a Ha)|].
            destruct (t_own _ _ _ _ _ Ht d Hd) as [_ [[A _]|(a & v & A & _)]]; eauto. }
          destruct Hsl as [[Hsl Hd]|(a & Hsl)].
          * eapply good_same; [exact Hg| |].
            -- unfold LazyThreadModel.ltstep. cbn [l_pc LazyThreadModel.pstep]. rewrite (on_get_slot _ _ _ _ Hsl) by discriminate. reflexivity.
            -- eapply T_goto; [exact Ht| | |]; simpl; auto.
          * eapply good_same; [exact Hg| |].
            -- unfold LazyThreadModel.ltstep. cbn [l_pc LazyThreadModel.pstep]. rewrite (on_get_slot _ _ _ _ Hsl) by discriminate. reflexivity.
            -- eapply T_goto; [exact Ht| | |]; simpl; eauto.
        + apply step_func; assumption.
        + apply step_make; assumption.
        + destruct Hp as (Hd & Hs & Hx). eapply good_same; [exact Hg| |].
          * unfold LazyThreadModel.ltstep. cbn [l_pc LazyThreadModel.pstep]. rewrite (on_get_slot _ _ _ _ Hs) by discriminate. reflexivity.
          * eapply T_goto; [exact Ht| | |]; simpl; auto.
        + apply step_store; assumption.
        + destruct Hp as (Hd & -> & Hx). eapply good_same; [exact Hg|reflexivity|].
          eapply T_goto; [exact Ht| | |]; simpl; auto.
        + contradiction.
        + destruct Hp as (Hd & a & Hs). eapply good_same; [exact Hg| |].
          * unfold LazyThreadModel.ltstep. cbn [l_pc LazyThreadModel.pstep]. rewrite (on_get_slot _ _ _ _ Hs) by discriminate. reflexivity.
          * eapply T_goto; [exact Ht| | |]; simpl; auto.
        + destruct Hp as (Hd & Hs). destruct (g_alive _ _ Hg d a Hs) as [v Hv]. eapply good_same; [exact Hg| |].
          * unfold LazyThreadModel.ltstep. cbn [l_pc LazyThreadModel.pstep]. rewrite (on_a_get _ _ _ _ Hv). reflexivity.
          * eapply T_obj; eauto.
        + cbn [l_kept] in Hp. subst k. pose proof (t_kept _ _ _ _ _ Ht) as Hk. cbn [l_kept] in Hk. destruct Hk as (v & Hv & _). eapply good_same; [exact Hg| |].
          * unfold LazyThreadModel.ltstep. cbn [l_pc LazyThreadModel.pstep]. rewrite (on_a_get _ _ _ _ Hv). reflexivity.
          * eapply T_reread; eauto.
      - destruct r as [|[d|] r].
        + eapply good_same; [exact Hg|reflexivity|exact Ht].
        + eapply good_same; [exact Hg|reflexivity|]. destruct Ht as [H1 H2 H3 H4 H5 H6 H7 H8]. cbn [l_pc l_rest l_outs l_kept] in *.
          inversion H3; subst. constructor; cbn [l_pc l_rest l_outs l_kept] in *; auto.
        + destruct k as [a|].
          * eapply good_same; [exact Hg|reflexivity|]. destruct Ht as [H1 H2 H3 H4 H5 H6 H7 H8]. cbn [l_pc l_rest l_outs l_kept] in *.
            inversion H3; subst. constructor; cbn [l_pc l_rest l_outs l_kept] in *; auto. reflexivity.
          * eapply good_same; [exact Hg|reflexivity|]. destruct Ht as [H1 H2 H3 H4 H5 H6 H7 H8]. cbn [l_pc l_rest l_outs l_kept] in *.
            inversion H3; subst. constructor; cbn [l_pc l_rest l_outs l_kept] in *; auto.
            -- intros d' x Hin. apply in_app_or in Hin as [Hin|[Hin|[]]]; [apply H4; exact Hin|]. discriminate.
            -- intros d' Hd. rewrite caught_app. simpl. rewrite app_nil_r. auto.
            -- apply rereads_app. simpl. auto.
            -- rewrite lastobj_app. exact H7.
            -- rewrite map_app. simpl. rewrite <- app_assoc. reflexivity.
    Qed.

    (** ** Executions *)
    Definition CI (ts : list (list top)) (c : lconfig) : Prop :=
      G (lshared c) (calls c) /\ length (lthreads c) = length ts /\
      forall i t q, nth_error (lthreads c) i = Some t -> nth_error ts i = Some q -> T i (lshared c) (calls c) q t.
    Lemma lcstep_ok ts c i : CI ts c -> exists c', lcstep call i c = inl c' /\ CI ts c'.
    Proof.
      intros (Hg & Hl & Ht). unfold lcstep. destruct (nth_error (lthreads c) i) as [t|] eqn:Ei; [|exists c; split; [reflexivity|]; split; [exact Hg|]; split; assumption].
      destruct (nth_error ts i) as [q|] eqn:Eq.
      2:{ apply nth_error_None in Eq. assert (i < length (lthreads c)) by (apply nth_error_Some; congruence). lia. }
      destruct (step_ok i _ _ q t Hg (Ht i t q Ei Eq)) as (t' & s' & l & Es & He & Hg' & Ht').
      rewrite Es. eexists. split; [reflexivity|]. split; [exact Hg'|]. cbn [lshared calls lthreads]. split.
      - rewrite <- Hl. apply upd_length.
      - intros j u qj Hj Hq. destruct (Nat.eq_dec i j) as [<-|Hn].
        + rewrite (nth_error_upd_some _ _ _ _ Ei) in Hj. injection Hj as <-. assert (q = qj) by congruence. subst. exact Ht'.
        + rewrite nth_error_upd_neq in Hj by auto. eapply T_ext; [exact Hn|exact He|]. eauto.
    Qed.
    Lemma lcrun_ok ts sch : forall c, CI ts c -> exists c', lcrun sch c = inl c' /\ CI ts c'.
    Proof.
      induction sch as [|i sch IH]; intros c Hc; simpl; [eauto|].
      destruct (lcstep_ok ts c i Hc) as (c1 & -> & H1). apply IH. exact H1.
    Qed.
    Lemma CI_fork ts : (forall i q, nth_error ts i = Some q -> Forall (may_call call owner s0 i) q) -> CI ts (lfork s0 ts).
    Proof.
      intros Hm. split; [|split].
      - constructor; simpl; auto.
        + apply (li_sched _ Hi0).
        + intros d a Ha. destruct (slot_evaluated s0 d a Hi0 Ha) as (v & _ & Hv). eauto.
      - apply map_length.
      - intros i t q Hi Hq. simpl in Hi. rewrite nth_error_map, Hq in Hi. injection Hi as <-.
        constructor; cbn [l_pc l_rest l_outs l_kept lshared calls lfork]; auto; simpl; auto; try tauto.
        + intros d (Ho & Hs & f & Hf). split; [exists f; exact Hf|]. left. auto.
        + specialize (Hm i q Hq). clear Hq. induction Hm as [|o q Ho _ IH]; constructor; auto. apply may_call_ok. exact Ho.
    Qed.
    Lemma CI_race ts c : CI ts c -> ~ lrace c.
    Proof.
      intros (Hg & Hl & Ht) (l & i & j & t & u & wi & wj & Hn & Hi & Hj & Ni & Nj & Hw).
      assert (Hti : exists q, T i (lshared c) (calls c) q t).
      { destruct (nth_error ts i) as [q|] eqn:Eq; [eauto|]. apply nth_error_None in Eq. assert (i < length (lthreads c)) by (apply nth_error_Some; congruence). lia. }
      assert (Htj : exists q, T j (lshared c) (calls c) q u).
      { destruct (nth_error ts j) as [q|] eqn:Eq; [eauto|]. apply nth_error_None in Eq. assert (j < length (lthreads c)) by (apply nth_error_Some; congruence). lia. }
      destruct Hti as [qi Hti], Htj as [qj Htj].
      pose proof (t_pc _ _ _ _ _ Hti) as Pi. pose proof (t_pc _ _ _ _ _ Htj) as Pj. unfold lnext in Ni, Nj.
      destruct (l_pc t) as [p|]; [|discriminate]. destruct (l_pc u) as [p'|]; [|discriminate].
      assert (Hex : forall d, owned i d -> ~ owned j d) by (intros d [A _] [B _]; congruence).
      (* whoever writes owns *)
      assert (Key : forall i j p p' (l : lloc) w, i <> j -> at_pc i (lshared c) (calls c) (l_kept t) p \/ at_pc i (lshared c) (calls c) (l_kept u) p ->
                at_pc j (lshared c) (calls c) (l_kept t) p' \/ at_pc j (lshared c) (calls c) (l_kept u) p' ->
                laccess p = Some (l, true) -> laccess p' = Some (l, w) -> False).
      { clear - Hg Hi0. intros i j p p' l w Hn Pi Pj Ni Nj.
        assert (Hcom : forall d, common d -> vslot (lshared c) d <> Some Null) by (intros d (a & Ha); destruct (g_common _ _ Hg d a Ha); congruence).
        destruct p as [d|d|d v|d new|d new old|d old|d a|d|d a|a]; simpl in Ni; try discriminate; injection Ni as <-; simpl in Pi.
        - assert (Hd : owned i d) by tauto.
          destruct p' as [d'|d'|d' v'|d' new'|d' new' old'|d' old'|d' a'|d'|d' a'|a']; simpl in Nj; inversion Nj; subst; simpl in Pj; 
            assert (owned j d) by tauto; destruct Hd as [A _], H as [B _]; congruence.
        - assert (Hd : owned i d /\ vslot (lshared c) d = Some Null) by tauto. destruct Hd as [Hd Hs].
          destruct p' as [d'|d'|d' v'|d' new'|d' new' old'|d' old'|d' a'|d'|d' a'|a']; simpl in Nj; inversion Nj; subst; simpl in Pj;
            assert (Hj : common d \/ owned j d) by tauto; (destruct Hj as [Hj|Hj]; [eapply owned_not_common; eauto|destruct Hd as [A _], Hj as [B _]; congruence]).
        - tauto. }
      apply orb_prop in Hw as [->| ->].
      - eapply (Key i j p p'); eauto.
      - eapply (Key j i p' p); eauto.
    Qed.
  End Inv.

  Theorem one_caller n w p l (s0 : lst) : lrun call p (linit n w) = (l, inl s0) ->
    forall owner ts sch, (forall i q, nth_error ts i = Some q -> Forall (may_call call owner s0 i) q) ->
    exists cfg, lcrun sch (lfork s0 ts) = inl cfg /\ ~ lrace cfg /\
      (forall i j t u d a v b x, nth_error (lthreads cfg) i = Some t -> nth_error (lthreads cfg) j = Some u ->
         In (TCall d, LObj a v) (l_outs t) -> In (TCall d, LObj b x) (l_outs u) -> a = b /\ v = x) /\
      (forall d, length (returned d (calls cfg)) <= 1) /\
      (forall d a v, evaluated call s0 d a v -> (forall o, ~ In (d, o) (calls cfg)) /\
         forall i t x, nth_error (lthreads cfg) i = Some t -> In (TCall d, x) (l_outs t) -> x = LObj a v) /\
      (forall i t d, nth_error (lthreads cfg) i = Some t -> owner d = Some i -> unevaluated s0 d ->
         caught d (l_outs t) = thrown d (calls cfg) /\
         forall a v, In (TCall d, LObj a v) (l_outs t) -> returned d (calls cfg) = [v]) /\
      (forall i t q, nth_error (lthreads cfg) i = Some t -> nth_error ts i = Some q ->
         rereads LUnit (l_outs t) /\ (exists q', map fst (l_outs t) ++ q' = q) /\ (lfinished t -> map fst (l_outs t) = q)).
  Proof.
    intros Hr owner ts sch Hm. pose proof (reach_inv call n w p l s0 Hr) as Hi0.
    destruct (lcrun_ok owner s0 ts sch _ (CI_fork owner s0 Hi0 ts Hm)) as (cfg & Hc & HI).
    exists cfg. split; [exact Hc|]. split; [eapply CI_race; eauto|]. destruct HI as (Hg & Hl & Ht).
    assert (Hti : forall i t, nth_error (lthreads cfg) i = Some t -> exists q, nth_error ts i = Some q /\ T owner s0 i (lshared cfg) (calls cfg) q t).
    { intros i t Hi. destruct (nth_error ts i) as [q|] eqn:Eq; [eauto|]. apply nth_error_None in Eq. assert (i < length (lthreads cfg)) by (apply nth_error_Some; congruence). lia. }
    repeat split.
    - destruct (Hti _ _ H) as (q1 & _ & T1), (Hti _ _ H0) as (q2 & _ & T2).
      destruct (t_obj _ _ _ _ _ _ _ T1 _ _ H1) as [_ [A1 B1]], (t_obj _ _ _ _ _ _ _ T2 _ _ H2) as [_ [A2 B2]]. congruence.
    - destruct (Hti _ _ H) as (q1 & _ & T1), (Hti _ _ H0) as (q2 & _ & T2).
      destruct (t_obj _ _ _ _ _ _ _ T1 _ _ H1) as [_ [A1 B1]], (t_obj _ _ _ _ _ _ _ T2 _ _ H2) as [_ [A2 B2]].
      assert (a = b) by congruence. subst. eapply alive_det; eauto.
    - apply (g_once _ _ _ Hg).
    - destruct (evaluated_slot s0 d a v Hi0 H) as [Hs _]. apply (g_common _ _ _ Hg d a Hs).
    - destruct (evaluated_slot s0 d a v Hi0 H) as [Hs Hv]. destruct (g_common _ _ _ Hg d a Hs) as [Hs' _]. intros i t x H0 H1.
      destruct (Hti _ _ H0) as (q1 & _ & T1). destruct (t_obj _ _ _ _ _ _ _ T1 _ _ H1) as [_ B]. destruct x as [|b y|e].
      + contradiction.
      + destruct B as [B1 B2]. assert (b = a) by congruence. subst. f_equal. eapply alive_det; [exact B2|]. apply (g_value _ _ _ Hg). exact Hv.
      + exfalso. eapply owned_not_common; [exact B|]. exists a. exact Hs.
    - destruct (Hti _ _ H) as (q1 & _ & T1). apply (t_exc _ _ _ _ _ _ _ T1). split; assumption.
    - destruct (Hti _ _ H) as (q1 & _ & T1). intros a v Hin. destruct (t_obj _ _ _ _ _ _ _ T1 _ _ Hin) as [_ [A B]].
      destruct (t_own _ _ _ _ _ _ _ T1 d (conj H0 H1)) as [_ [[C _]|(b & y & C & D & Eq)]]; [congruence|].
      assert (a = b) by congruence. subst. rewrite Eq. f_equal. eapply alive_det; eauto.
    - destruct (Hti _ _ H) as (q1 & _ & T1). apply (t_rr _ _ _ _ _ _ _ T1).
    - pose proof (Ht _ _ _ H H0) as T1. eexists. exact (t_prog _ _ _ _ _ _ _ T1).
    - intros [Hf1 Hf2]. pose proof (t_prog _ _ _ _ _ _ _ (Ht _ _ _ H H0)) as Hp. rewrite Hf1, Hf2, !app_nil_r in Hp. exact Hp.
  Qed.
End Proofs.

Section More.
  Context {O F E : Type} (call : F -> E -> outcome O * F * E).
  Notation lst := (lst O F E).
  (** ** Without interruption *)
  Lemma alone_call (s : lst) d : linv s -> alone call 10 (AtTest d) s = lstep call (LCall d) s.
  Proof.
    intros Hi. assert (Es : mkLst (ptrs s) (funs s) (env s) = s) by (destruct s; reflexivity).
    destruct (nth_error (vars (ptrs s)) d) as [[| |a]|] eqn:Ev.
    - simpl. unfold lazy_call, on_ptrs, bind, lift, get_slot. rewrite Ev. reflexivity.
    - cbn [alone pstep]. rewrite (on_get_slot s d Null) by (auto; discriminate).
      destruct (nth_error (funs s) d) as [[f|]|] eqn:Ef.
      2,3: cbn [pstep]; unfold call_func; rewrite Ef; simpl; unfold lazy_call, bind, lift, get_slot; rewrite Ev; simpl; unfold call_func; simpl; rewrite Ef; reflexivity.
      destruct (call f (env s)) as [[oc f'] w'] eqn:Ec. cbn [pstep]. unfold call_func. rewrite Ef, Ec. destruct oc as [v| |e].
      + pose proof (li_sched _ Hi) as Hsc.
        cbn [pstep]. unfold on_ptrs at 1, lift, alloc. cbn [ptrs funs env]. rewrite Hsc.
        cbn [pstep]. unfold on_ptrs at 1, lift, get_slot. cbn [ptrs funs env vars]. rewrite Ev.
        cbn [pstep]. unfold on_ptrs at 1, lift, put_slot. cbn [ptrs funs env vars heap sched refs].
        cbn [pstep]. unfold on_ptrs at 1, lift, get_slot. cbn [ptrs funs env vars]. rewrite (nth_error_upd_some _ _ _ _ Ev).
        cbn [pstep]. unfold on_ptrs at 1, lift, a_get, live_cell. cbn [ptrs funs env vars heap].
        rewrite nth_error_app2, Nat.sub_diag by lia. simpl.
        unfold lazy_call, bind, lift, get_slot. rewrite Ev. simpl. unfold call_func. simpl. rewrite Ef, Ec. unfold reset, bind, lift, alloc. simpl. rewrite Hsc.
        unfold get_slot. simpl. rewrite Ev. simpl. unfold const_access, bind, get_slot. simpl. rewrite (nth_error_upd_some _ _ _ _ Ev). simpl.
        unfold bind, live_cell. simpl. rewrite nth_error_app2, Nat.sub_diag by lia. reflexivity.
      + rewrite (call_null call s d f f' w' Ev Ef Ec).
        cbn [pstep]. unfold on_ptrs at 1, lift, get_slot. cbn [ptrs funs env vars]. rewrite Ev.
        cbn [pstep]. unfold on_ptrs at 1, lift, put_slot. cbn [ptrs funs env vars heap sched refs].
        cbn [pstep]. unfold on_ptrs at 1, lift, get_slot. cbn [ptrs funs env vars]. rewrite (nth_error_upd_some _ _ _ _ Ev). reflexivity.
      + rewrite (call_throw call s d f e f' w' Ev Ef Ec). reflexivity.
    - destruct (slot_evaluated call s d a Hi Ev) as (v & He & Hv). unfold evaluated in He. rewrite He.
      cbn [alone pstep]. rewrite (on_get_slot s d (Ptr a)) by (auto; discriminate). cbn [pstep].
      rewrite (on_get_slot s d (Ptr a)) by (auto; discriminate). cbn [pstep]. rewrite (on_a_get _ _ _ _ Hv). reflexivity.
    - simpl. unfold lazy_call, on_ptrs, bind, lift, get_slot. rewrite Ev. reflexivity.
  Qed.
  Lemma alone_reachable n w p l (s : lst) d : lrun call p (linit n w) = (l, inl s) -> alone call 10 (AtTest d) s = lstep call (LCall d) s.
  Proof. intros Hr. apply alone_call. eapply reach_inv; eauto. Qed.

  (** ** Two callers *)
  Lemma two_callers n w p l (s0 : lst) d f v f' w' ts i j q q' : lrun call p (linit n w) = (l, inl s0) ->
    nth_error (vars (ptrs s0)) d = Some Null -> nth_error (funs s0) d = Some (Some f) -> call f (env s0) = (OutObj v, f', w') ->
    i <> j -> nth_error ts i = Some (TCall d :: q) -> nth_error ts j = Some (TCall d :: q') ->
    exists sch cfg, lcrun call sch (lfork s0 ts) = inl cfg /\ race_at (LPtr d) cfg.
  Proof.
    intros Hr Hv Hf Hc Hn Hi Hj. pose proof (li_sched _ (reach_inv call n w p l s0 Hr)) as Hsc.
    set (T0 := lthreads (lfork s0 ts)).
    assert (Ti : nth_error T0 i = Some (mkLT None (TCall d :: q) [] None)) by (unfold T0; simpl; rewrite nth_error_map, Hi; reflexivity).
    assert (Tj : nth_error T0 j = Some (mkLT None (TCall d :: q') [] None)) by (unfold T0; simpl; rewrite nth_error_map, Hj; reflexivity).
    assert (Step : forall (s : lst) L (T : list (lthread O)) t t' s' l', nth_error T i = Some t -> ltstep call t s = inl (t', s', l') ->
              lcstep call i (mkLC s L T) = inl (mkLC s' (L ++ l') (upd i t' T)) /\ nth_error (upd i t' T) i = Some t').
    { intros s L T t t' s' l' Ht Es. unfold lcstep. cbn [lthreads lshared calls]. rewrite Ht, Es. split; [reflexivity|]. eapply nth_error_upd_some; eauto. }
    exists [j; i; i; i; i; i].
    cbn [lcrun].
    assert (E0 : lcstep call j (lfork s0 ts) = inl (mkLC s0 [] (upd j (mkLT (Some (AtTest d)) q' [] None) T0))).
    { unfold lcstep. fold T0. rewrite Tj. reflexivity. }
    rewrite E0.
    assert (Ti1 : nth_error (upd j (mkLT (Some (AtTest d)) q' [] None) T0) i = Some (mkLT None (TCall d :: q) [] None)) by (rewrite nth_error_upd_neq by auto; exact Ti).
    assert (Tj1 : nth_error (upd j (mkLT (Some (AtTest d)) q' [] None) T0) j = Some (mkLT (Some (AtTest d)) q' [] None)) by (eapply nth_error_upd_some; eauto).
    set (T1 := upd j (mkLT (Some (AtTest d)) q' [] None) T0) in *.
    set (s1 := mkLst (ptrs s0) (upd d (Some f') (funs s0)) w').
    set (s2 := mkLst (mkHst (vars (ptrs s0)) (heap (ptrs s0) ++ [mkCell v 1 true]) [] (refs (ptrs s0))) (upd d (Some f') (funs s0)) w').
    set (a := length (heap (ptrs s0))).
    assert (S1 : ltstep call (mkLT None (TCall d :: q) [] None) s0 = inl (mkLT (Some (AtTest d)) q [] None, s0, [])) by reflexivity.
    assert (S2 : ltstep call (mkLT (Some (AtTest d)) q [] None) s0 = inl (mkLT (Some (AtFunc d)) q [] None, s0, [])).
    { unfold ltstep. cbn [l_pc pstep]. rewrite (on_get_slot s0 d Null) by (auto; discriminate). reflexivity. }
    assert (S3 : ltstep call (mkLT (Some (AtFunc d)) q [] None) s0 = inl (mkLT (Some (AtMake d v)) q [] None, s1, [(d, OutObj v)])).
    { unfold ltstep. cbn [l_pc pstep]. unfold call_func. rewrite Hf, Hc. reflexivity. }
    assert (S4 : ltstep call (mkLT (Some (AtMake d v)) q [] None) s1 = inl (mkLT (Some (AtSwap d (Ptr a))) q [] None, s2, [])).
    { unfold ltstep. cbn [l_pc pstep]. unfold on_ptrs, lift, alloc. cbn [s1 ptrs]. rewrite Hsc. reflexivity. }
    assert (S5 : ltstep call (mkLT (Some (AtSwap d (Ptr a))) q [] None) s2 = inl (mkLT (Some (AtStore d (Ptr a) Null)) q [] None, s2, [])).
    { unfold ltstep. cbn [l_pc pstep]. rewrite (on_get_slot s2 d Null) by (auto; discriminate). reflexivity. }
    destruct (Step s0 [] T1 _ _ _ _ Ti1 S1) as [-> Ti2]. destruct (Step _ ([] ++ []) _ _ _ _ _ Ti2 S2) as [-> Ti3].
    destruct (Step _ (([] ++ []) ++ []) _ _ _ _ _ Ti3 S3) as [-> Ti4].
    destruct (Step _ ((([] ++ []) ++ []) ++ [(d, OutObj v)]) _ _ _ _ _ Ti4 S4) as [-> Ti5].
    destruct (Step _ (((([] ++ []) ++ []) ++ [(d, OutObj v)]) ++ []) _ _ _ _ _ Ti5 S5) as [-> Ti6].
    eexists. split; [reflexivity|]. do 6 eexists. split; [exact Hn|]. cbn [lthreads]. split; [exact Ti6|].
    split; [rewrite !nth_error_upd_neq by auto; exact Tj1|]. cbn. split; [reflexivity|]. split; [reflexivity|]. reflexivity.
  Qed.
End More.
