(** LazyProofs.v -- lemmas about LazyModel. *)
From Verif Require Import Base HandleModel HandleSpec HandleProofs LazyModel LazySpec.
Local Open Scope monad_scope.

Lemma nth_combine {A B} (l1 : list A) (l2 : list B) i :
  nth_error (combine l1 l2) i =
  match nth_error l1 i, nth_error l2 i with Some a, Some b => Some (a, b) | _, _ => None end.
Proof.
  revert l2 i; induction l1 as [|a l1 IH]; intros l2 i.
  - destruct i; reflexivity.
  - destruct l2 as [|b l2].
    + simpl. destruct i; simpl; [reflexivity|]. destruct (nth_error l1 i); reflexivity.
    + destruct i; simpl; [reflexivity|]. apply IH.
Qed.
Lemma combine_upd {A B} (l1 : list A) (l2 : list B) i a b :
  combine (upd i a l1) (upd i b l2) = upd i (a, b) (combine l1 l2).
Proof.
  revert l2 i; induction l1 as [|x l1 IH]; intros l2 i; [destruct i; reflexivity|].
  destruct l2 as [|y l2]; destruct i; simpl; try reflexivity.
  rewrite IH. reflexivity.
Qed.

Section Lazy.
  Context {O F E : Type} (call : F -> E -> outcome O * F * E).
  Notation lst := (lst O F E).
  Notation lstep := (lstep call).
  Notation lrun := (lrun call).

  Definition aslot (p : option F * slot) : lslot F :=
    match p with
    | (_, Dead) => LDead
    | (_, Ptr a) => LDone a
    | (Some f, Null) => LPending f
    | (None, Null) => LMoved
    end.
  Definition labs (s : lst) : spst O F E :=
    mkSp (map aslot (combine (funs s) (vars (ptrs s)))) (map c_val (heap (ptrs s))) (refs (ptrs s)) (env s).
  Record linv (s : lst) : Prop := mkLinv {
    li_inv : inv [] (ptrs s);
    li_len : length (funs s) = length (vars (ptrs s));
    li_sched : sched (ptrs s) = [] }.

  Lemma fun_at (s : lst) i sl : linv s -> nth_error (vars (ptrs s)) i = Some sl -> exists f, nth_error (funs s) i = Some f.
  Proof.
    intros Hi Hn. destruct (nth_error (funs s) i) as [f|] eqn:Ef; [eauto|]. apply nth_error_None in Ef.
    assert (i < length (vars (ptrs s))) by (apply nth_error_Some; congruence). rewrite (li_len _ Hi) in Ef. lia.
  Qed.
  Lemma labs_at (s : lst) i f sl : nth_error (funs s) i = Some f -> nth_error (vars (ptrs s)) i = Some sl ->
    nth_error (slots (labs s)) i = Some (aslot (f, sl)).
  Proof. intros Hf Hs. simpl. rewrite nth_error_map, nth_combine, Hf, Hs. reflexivity. Qed.
  Lemma labs_out (s : lst) i : nth_error (vars (ptrs s)) i = None -> nth_error (slots (labs s)) i = None.
  Proof. intros Hs. simpl. rewrite nth_error_map, nth_combine, Hs. destruct (nth_error (funs s) i); reflexivity. Qed.

  (** what variable [i] is *)
  Inductive lview (s : lst) (i : nat) : Prop :=
  | lview_out : (nth_error (vars (ptrs s)) i = None \/ nth_error (vars (ptrs s)) i = Some Dead) ->
      (nth_error (slots (labs s)) i = None \/ nth_error (slots (labs s)) i = Some LDead) -> lview s i
  | lview_in f sl : nth_error (funs s) i = Some f -> nth_error (vars (ptrs s)) i = Some sl -> sl <> Dead ->
      nth_error (slots (labs s)) i = Some (aslot (f, sl)) -> live_slot (Some (aslot (f, sl))) -> lview s i.
  Lemma lview_ok (s : lst) i : linv s -> lview s i.
  Proof.
    intros Hi. destruct (nth_error (vars (ptrs s)) i) as [sl|] eqn:Es.
    - destruct (fun_at s i sl Hi Es) as [f Ef]. pose proof (labs_at s i f sl Ef Es) as Ha.
      destruct (slot_eq_dec sl Dead) as [->|Hne].
      + apply lview_out; [auto|]. right. rewrite Ha. destruct f; reflexivity.
      + eapply lview_in; eauto. destruct f, sl; simpl; auto.
    - apply lview_out; [auto|]. left. apply labs_out. exact Es.
  Qed.
  Lemma lfresh_dec (s : lst) d : linv s ->
    (exists f, nth_error (funs s) d = Some f /\ nth_error (vars (ptrs s)) d = Some Dead /\ nth_error (slots (labs s)) d = Some LDead) \/
    (fresh_slot d (ptrs s) = Ub UbUninit /\ nth_error (slots (labs s)) d <> Some LDead).
  Proof.
    intros Hi. destruct (nth_error (vars (ptrs s)) d) as [sl|] eqn:Es.
    - destruct (fun_at s d sl Hi Es) as [f Ef]. pose proof (labs_at s d f sl Ef Es) as Ha.
      destruct (slot_eq_dec sl Dead) as [->|Hne].
      + left. exists f. split; [exact Ef|]. split; [reflexivity|]. rewrite Ha. destruct f; reflexivity.
      + right. split; [apply fresh_bad; congruence|]. rewrite Ha. destruct f, sl; simpl; congruence.
    - right. split; [apply fresh_bad; congruence|]. rewrite labs_out by exact Es. discriminate.
  Qed.

  Lemma vals_eq (p p' : hst O) : length (heap p') = length (heap p) -> (forall b, val p' b = val p b) ->
    map c_val (heap p') = map c_val (heap p).
  Proof.
    intros Hl Hv. apply nth_error_ext. intros i. rewrite !nth_error_map. exact (Hv i).
  Qed.
  (** after changing the pointers and functions of variables *)
  Lemma labs_same (s : lst) p' fs vs : same_vals (ptrs s) p' -> vars p' = vs ->
    labs (mkLst p' fs (env s)) = mkSp (map aslot (combine fs vs)) (objs (labs s)) (held (labs s)) (env s).
  Proof.
    intros (H1 & H2 & H3 & H4) Hv. unfold labs. simpl. rewrite Hv, H2, (vals_eq (ptrs s) p') by assumption. reflexivity.
  Qed.
  Lemma linv_same (s : lst) p' fs : linv s -> inv [] p' -> same_vals (ptrs s) p' -> length fs = length (vars p') ->
    linv (mkLst p' fs (env s)).
  Proof.
    intros Hi Hp (H1 & _) Hl. split; simpl; [exact Hp|exact Hl|]. rewrite H1. apply (li_sched _ Hi).
  Qed.

  Lemma lift_ret {A} (m : M (hst O) A) (s : lst) a p : m (ptrs s) = Ret a p -> lift m s = Ret a (mkLst p (funs s) (env s)).
  Proof. intros H. unfold lift. rewrite H. reflexivity. Qed.
  Lemma lift_ub {A} (m : M (hst O) A) (s : lst) r : m (ptrs s) = Ub r -> lift m s = Ub r.
  Proof. intros H. unfold lift. rewrite H. reflexivity. Qed.
  Lemma lift_ret' {A} (m : M (hst O) A) p fs e a p' : m p = Ret a p' -> lift m (mkLst p fs e) = Ret a (mkLst (F:=F) (E:=E) p' fs e).
  Proof. intros H. unfold lift. simpl. rewrite H. reflexivity. Qed.
  Lemma get_fun_ok (s : lst) d f : nth_error (funs s) d = Some f -> get_fun d s = Ret f s.
  Proof. intros H. unfold get_fun. rewrite H. reflexivity. Qed.

  Definition lsim (s : lst) (o : lop F) : Prop :=
    match lstep o s with
    | Ret x s' => linv s' /\ lsstep call (labs s) o x (labs s')
    | Exc e s' => linv s' /\ lsstep call (labs s) o (LExc e) (labs s')
    | Ub _ => forall x m, ~ lsstep call (labs s) o x m
    | Abort | Fuel => False
    end.

  Lemma lout_scope (x y : option (lslot F)) : x = None \/ x = Some LDead -> x = y -> live_slot y -> False.
  Proof. intros [-> | ->] <- Hin; exact Hin. Qed.
  Lemma live_some (x : option (lslot F)) y : x = Some y -> live_slot (Some y) -> live_slot x.
  Proof. intros -> H. exact H. Qed.

  Lemma lsim_new s d f : linv s -> lsim s (LNew d f).
  Proof.
    intros Hi. unfold lsim. simpl. unfold lazy_new. destruct (lfresh_dec s d Hi) as [(f0 & Hf & Hd & Ha)|[Ef Hna]].
    - destruct (h_null_ok d (ptrs s) (li_inv _ Hi) Hd) as [Eh Hih].
      pose proof (up_same_vals (ptrs s) d Null) as Hsv.
      unfold bind at 1 2. rewrite (lift_ret _ _ _ _ Eh). simpl. split.
      + apply (linv_same s (up (ptrs s) d Null)); auto. simpl. rewrite !upd_length. apply (li_len _ Hi).
      + rewrite (labs_same s (up (ptrs s) d Null) _ (upd d Null (vars (ptrs s))) Hsv eq_refl).
        rewrite combine_upd, map_upd. apply LSNew. exact Ha.
    - assert (Eh : h_null d (ptrs s) = Ub UbUninit) by (apply bind_ub; exact Ef).
      unfold bind at 1 2. rewrite (lift_ub _ _ _ Eh). intros x m Hs. inversion Hs; subst; auto.
  Qed.
  Lemma lsim_copy s d k : linv s -> lsim s (LCopy d k).
  Proof.
    intros Hi. unfold lsim. simpl. unfold lazy_copy. destruct (lfresh_dec s d Hi) as [(f0 & Hf & Hd & Ha)|[Ef Hna]].
    - destruct (lview_ok s k Hi) as [Hk Hak|f sl Hfk Hk Hsl Hak Hin].
      + assert (Eh : h_copy d k (ptrs s) = Ub UbDangling).
        { unfold h_copy. rewrite (bind_ret _ _ _ _ _ (fresh_ok _ _ Hd)). apply bind_ub. apply get_bad. exact Hk. }
        unfold bind at 1 2. rewrite (lift_ub _ _ _ Eh). intros x m Hs. inversion Hs; subst. eapply lout_scope; eassumption.
      + destruct (h_copy_ok d k (ptrs s) sl (li_inv _ Hi) Hd Hk Hsl) as (p' & Eh & Hih & Hv & Hsv).
        unfold bind at 1 2. rewrite (lift_ret _ _ _ _ Eh). unfold bind at 1. rewrite (get_fun_ok _ _ f) by exact Hfk. simpl. split.
        * apply (linv_same s p'); auto. rewrite Hv, !upd_length. apply (li_len _ Hi).
        * rewrite (labs_same s p' _ _ Hsv Hv), combine_upd, map_upd. apply LSCopy; assumption.
    - assert (Eh : h_copy d k (ptrs s) = Ub UbUninit) by (apply bind_ub; exact Ef).
      unfold bind at 1 2. rewrite (lift_ub _ _ _ Eh). intros x m Hs. inversion Hs; subst; auto.
  Qed.
  Lemma lsim_move s d k : linv s -> lsim s (LMove d k).
  Proof.
    intros Hi. unfold lsim. simpl. unfold lazy_move. destruct (lfresh_dec s d Hi) as [(f0 & Hf & Hd & Ha)|[Ef Hna]].
    - destruct (lview_ok s k Hi) as [Hk Hak|f sl Hfk Hk Hsl Hak Hin].
      + assert (Eh : h_move d k (ptrs s) = Ub UbDangling).
        { unfold h_move. rewrite (bind_ret _ _ _ _ _ (fresh_ok _ _ Hd)). apply bind_ub. apply get_bad. exact Hk. }
        unfold bind at 1 2. rewrite (lift_ub _ _ _ Eh). intros x m Hs. inversion Hs; subst. eapply lout_scope; eassumption.
      + destruct (h_move_ok d k (ptrs s) sl (li_inv _ Hi) Hd Hk Hsl) as (p' & Eh & Hih & Hv & Hsv).
        unfold bind at 1 2. rewrite (lift_ret _ _ _ _ Eh). unfold bind at 1. rewrite (get_fun_ok _ _ f) by exact Hfk. simpl. split.
        * apply (linv_same s p'); auto. rewrite Hv, !upd_length. apply (li_len _ Hi).
        * rewrite (labs_same s p' _ _ Hsv Hv), !combine_upd, !map_upd. apply LSMove; assumption.
    - assert (Eh : h_move d k (ptrs s) = Ub UbUninit) by (apply bind_ub; exact Ef).
      unfold bind at 1 2. rewrite (lift_ub _ _ _ Eh). intros x m Hs. inversion Hs; subst; auto.
  Qed.
  Lemma lsim_assign s d k : linv s -> lsim s (LAssign d k).
  Proof.
    intros Hi. unfold lsim. simpl. unfold lazy_assign. destruct (lview_ok s k Hi) as [Hk Hak|f sl Hfk Hk Hsl Hak Hin].
    - assert (Eh : h_assign d k (ptrs s) = Ub UbDangling) by (apply bind_ub; apply get_bad; exact Hk).
      unfold bind at 1 2. rewrite (lift_ub _ _ _ Eh). intros x m Hs. inversion Hs; subst. eapply lout_scope; eassumption.
    - destruct (lview_ok s d Hi) as [Hd Had|f' sl' Hfd Hd Hsl' Had Hin'].
      + assert (Eh : h_assign d k (ptrs s) = Ub UbDangling).
        { assert (Ho : forall a, sl = Ptr a -> 0 < occ a [] + occ a (vars (ptrs s))).
          { intros a ->. eapply in_vars_owned. exact Hk. }
          destruct (acquire_ok _ _ _ (li_inv _ Hi) Ho) as (s1 & E1 & Hi1 & Hs1).
          unfold h_assign. rewrite (bind_ret _ _ _ _ _ (get_ok _ _ _ Hk Hsl)), (bind_ret _ _ _ _ _ E1).
          apply bind_ub. apply get_bad. destruct Hs1 as (-> & _). exact Hd. }
        unfold bind at 1 2. rewrite (lift_ub _ _ _ Eh). intros x m Hs. inversion Hs; subst. eapply lout_scope; [exact Had|reflexivity|assumption].
      + destruct (h_assign_ok d k (ptrs s) sl sl' (li_inv _ Hi) Hd Hsl' Hk Hsl) as (p' & Eh & Hih & Hv & Hsv).
        unfold bind at 1 2. rewrite (lift_ret _ _ _ _ Eh). unfold bind at 1. rewrite (get_fun_ok _ _ f) by exact Hfk. simpl. split.
        * apply (linv_same s p'); auto. rewrite Hv, !upd_length. apply (li_len _ Hi).
        * rewrite (labs_same s p' _ _ Hsv Hv), combine_upd, map_upd. apply LSAssign; try assumption. eapply live_some; eassumption.
  Qed.
  Lemma lsim_move_assign s d k : linv s -> lsim s (LMoveAssign d k).
  Proof.
    intros Hi. unfold lsim. simpl. unfold lazy_move_assign. destruct (lview_ok s k Hi) as [Hk Hak|f sl Hfk Hk Hsl Hak Hin].
    - assert (Eh : h_move_assign d k (ptrs s) = Ub UbDangling) by (apply bind_ub; apply get_bad; exact Hk).
      unfold bind at 1 2. rewrite (lift_ub _ _ _ Eh). intros x m Hs. inversion Hs; subst. eapply lout_scope; eassumption.
    - destruct (lview_ok s d Hi) as [Hd Had|f' sl' Hfd Hd Hsl' Had Hin'].
      + assert (Eh : h_move_assign d k (ptrs s) = Ub UbDangling).
        { unfold h_move_assign. rewrite (bind_ret _ _ _ _ _ (get_ok _ _ _ Hk Hsl)), (bind_ret _ _ _ _ _ (put_slot_eq _ _ _)).
          apply bind_ub. apply get_bad. simpl. destruct (Nat.eq_dec k d) as [->|Hne].
          - destruct Hd; congruence.
          - rewrite nth_error_upd_neq by exact Hne. exact Hd. }
        unfold bind at 1 2. rewrite (lift_ub _ _ _ Eh). intros x m Hs. inversion Hs; subst. eapply lout_scope; [exact Had|reflexivity|assumption].
      + destruct (h_move_assign_ok d k (ptrs s) sl sl' (li_inv _ Hi) Hd Hsl' Hk Hsl) as (p' & Eh & Hih & Hv & Hsv).
        unfold bind at 1 2. rewrite (lift_ret _ _ _ _ Eh). unfold bind at 1. rewrite (get_fun_ok _ _ f) by exact Hfk. simpl. split.
        * apply (linv_same s p'); auto. rewrite Hv, !upd_length. apply (li_len _ Hi).
        * rewrite (labs_same s p' _ _ Hsv Hv), !combine_upd, !map_upd. apply LSMoveAssign; try assumption. eapply live_some; eassumption.
  Qed.
  Lemma lsim_destroy s d : linv s -> lsim s (LDestroy d).
  Proof.
    intros Hi. unfold lsim. simpl. unfold lazy_destroy. destruct (lview_ok s d Hi) as [Hd Had|f sl Hf Hd Hsl Had Hin].
    - assert (Eh : h_destroy d (ptrs s) = Ub UbDangling) by (apply bind_ub; apply get_bad; exact Hd).
      unfold bind at 1 2. rewrite (lift_ub _ _ _ Eh). intros x m Hs. inversion Hs; subst. eapply lout_scope; [exact Had|reflexivity|assumption].
    - destruct (h_destroy_ok d (ptrs s) sl (li_inv _ Hi) Hd Hsl) as (p' & Eh & Hih & Hv & Hsv).
      unfold bind at 1 2. rewrite (lift_ret _ _ _ _ Eh). simpl. split.
      + apply (linv_same s p'); auto. rewrite Hv, !upd_length. apply (li_len _ Hi).
      + rewrite (labs_same s p' _ _ Hsv Hv), combine_upd, map_upd. apply LSDestroy. eapply live_some; eassumption.
  Qed.

  (** the call *)
  Definition csim (s : lst) (d : nat) : Prop :=
    match lazy_call call d s with
    | Ret ao s' => linv s' /\ evals call (labs s) d (inl ao) (labs s')
    | Exc e s' => linv s' /\ evals call (labs s) d (inr e) (labs s')
    | Ub _ => forall x m, ~ evals call (labs s) d x m
    | Abort | Fuel => False
    end.
  Lemma call_sim s d : linv s -> csim s d.
  Proof.
    intros Hi. unfold csim, lazy_call. destruct (lview_ok s d Hi) as [Hd Had|f sl Hf Hd Hsl Had Hin].
    - unfold bind at 1. rewrite (lift_ub _ _ UbDangling) by (apply get_bad; exact Hd).
      intros x m Hs. inversion Hs; subst; destruct Had as [Had|Had]; simpl in Had; congruence.
    - unfold bind at 1. rewrite (lift_ret _ _ _ _ (get_ok _ _ _ Hd Hsl)).
      assert (Es : mkLst (ptrs s) (funs s) (env s) = s) by (destruct s; reflexivity). rewrite Es.
      destruct sl as [| |a]; [congruence| |].
      + destruct f as [f|].
        * destruct (call f (env s)) as [[o f'] e'] eqn:Ec. unfold bind at 1 2. unfold call_func at 1. rewrite Hf, Ec.
          destruct o as [v| |e].
          -- destruct (alloc_ok [] (ptrs s) v (li_inv _ Hi) ltac:(rewrite (li_sched _ Hi); reflexivity))
               as (p1 & E1 & Hi1 & Hv1 & Hsc1 & Hr1 & Hl1 & Hn1 & Ho1 & _).
             assert (Hd1 : nth_error (vars p1) d = Some Null) by congruence.
             pose proof (put_slot_ok _ _ _ _ _ Hi1 Hd1) as Hi2.
             destruct (release_ok _ _ _ Hi2) as (p3 & E3 & Hi3 & Hs3).
             assert (Er : reset d v (mkLst (ptrs s) (upd d (Some f') (funs s)) e') = Ret tt (mkLst p3 (upd d (Some f') (funs s)) e')).
             { unfold reset. unfold bind at 1. rewrite (lift_ret' _ _ _ _ _ _ E1). simpl.
               unfold bind at 1. rewrite (lift_ret' _ _ _ _ _ _ (get_ok d p1 Null Hd1 ltac:(discriminate))). simpl.
               unfold bind at 1. simpl. rewrite (lift_ret' _ _ _ _ _ _ E3). reflexivity. }
             rewrite Er.
             assert (Hv3 : vars p3 = upd d (Ptr (length (heap (ptrs s)))) (vars (ptrs s))).
             { destruct Hs3 as (-> & _). simpl. rewrite Hv1. reflexivity. }
             assert (Hd3 : nth_error (vars p3) d = Some (Ptr (length (heap (ptrs s))))).
             { rewrite Hv3. eapply nth_error_upd_some. exact Hd. }
             destruct (const_access_ok d p3 _ Hi3 Hd3) as (c & Ea & Hc & Hvc & _).
             unfold bind at 1. rewrite (lift_ret' _ _ _ _ _ _ Ea). simpl.
             destruct Hs3 as (A1 & A2 & A3 & A4 & A5). simpl in *.
             assert (Hcv : c_val c = v).
             { rewrite A5 in Hvc. unfold up in Hvc. simpl in Hvc. unfold val in *. simpl in *. congruence. }
             split.
             ++ split; simpl; [exact Hi3| |rewrite A2, Hsc1, (li_sched _ Hi); reflexivity].
                rewrite Hv3, !upd_length. apply (li_len _ Hi).
             ++ assert (Hobj : map c_val (heap p3) = map c_val (heap (ptrs s)) ++ [v]).
                { apply nth_error_ext. intros i. rewrite nth_error_map. change (val p3 i = nth_error (map c_val (heap (ptrs s)) ++ [v]) i).
                  rewrite A5. change (val p1 i = nth_error (map c_val (heap (ptrs s)) ++ [v]) i).
                  destruct (Nat.lt_ge_cases i (length (heap (ptrs s)))) as [Hlt|Hge].
                  - rewrite Ho1 by exact Hlt. rewrite nth_error_app1 by (rewrite map_length; exact Hlt). rewrite nth_error_map. reflexivity.
                  - destruct (Nat.eq_dec i (length (heap (ptrs s)))) as [->|Hne].
                    + rewrite Hn1. rewrite nth_error_app2 by (rewrite map_length; lia). rewrite map_length, Nat.sub_diag. reflexivity.
                    + unfold val. rewrite (proj2 (nth_error_None (heap p1) i)) by lia. simpl. symmetry.
                      apply nth_error_None. rewrite app_length, map_length. simpl. lia. }
                unfold labs at 2. simpl. rewrite Hobj, Hv3, combine_upd, map_upd, A3, Hr1, Hcv. simpl.
                pose proof (EvFirst call (slots (labs s)) (objs (labs s)) (held (labs s)) (world (labs s)) d f v f' e' Had Ec) as Hev.
                simpl in Hev. rewrite map_length in Hev. exact Hev.
          -- assert (Er : bind (reset_null d) (fun _ => bind (lift (const_access d)) (fun ac => ret (fst ac, c_val (snd ac))))
                        (mkLst (ptrs s) (upd d (Some f') (funs s)) e') = Ub UbNull).
             { unfold reset_null. unfold bind at 1 2. rewrite (lift_ret' _ _ _ _ _ _ (get_ok _ _ _ Hd Hsl)). simpl.
               unfold bind at 1.
               rewrite (lift_ub _ _ UbNull); [reflexivity|]. apply const_access_null. simpl. eapply nth_error_upd_some. exact Hd. }
             unfold bind at 1 in Er. rewrite Er. intros x m Hs. inversion Hs; subst; simpl in Had; try congruence.
          -- simpl. split.
             ++ split; simpl; [apply (li_inv _ Hi)|rewrite upd_length; apply (li_len _ Hi)|apply (li_sched _ Hi)].
             ++ unfold labs at 2. simpl. rewrite <- (upd_same d Null (vars (ptrs s)) Hd). rewrite combine_upd, map_upd.
                exact (EvThrow call (slots (labs s)) (objs (labs s)) (held (labs s)) (world (labs s)) d f e f' e' Had Ec).
        * unfold bind at 1 2. unfold call_func at 1. rewrite Hf. intros x m Hs. inversion Hs; subst; simpl in Had; congruence.
      + unfold bind at 1. simpl. destruct (const_access_ok d (ptrs s) a (li_inv _ Hi) Hd) as (c & Ea & Hc & Hvc & _).
        unfold bind at 1. rewrite (lift_ret _ _ _ _ Ea). simpl. rewrite Es. split; [exact Hi|].
        replace (labs s) with (mkSp (slots (labs s)) (objs (labs s)) (held (labs s)) (world (labs s))) by reflexivity.
        apply EvDone; [destruct f; exact Had|]. simpl. rewrite nth_error_map, Hc. reflexivity.
  Qed.
  Lemma lsim_call s d : linv s -> lsim s (LCall d).
  Proof.
    intros Hi. pose proof (call_sim s d Hi) as Hc. unfold csim in Hc. unfold lsim. simpl. unfold bind.
    destruct (lazy_call call d s) as [[i v] s'|e s'|r| |]; try contradiction; simpl.
    - destruct Hc as [H1 H2]. split; [exact H1|]. constructor. exact H2.
    - destruct Hc as [H1 H2]. split; [exact H1|]. constructor. exact H2.
    - intros x m Hs. inversion Hs; subst; eapply Hc; eassumption.
  Qed.
  Lemma lsim_hold s r d : linv s -> lsim s (LHold r d).
  Proof.
    intros Hi. pose proof (call_sim s d Hi) as Hc. unfold csim in Hc. unfold lsim. simpl. unfold bind.
    destruct (lazy_call call d s) as [[i v] s'|e s'|u| |]; try contradiction; simpl.
    - destruct Hc as [H1 H2]. split.
      + destruct H1 as [A B C]. split; simpl; [apply inv_ref; exact A|exact B|exact C].
      + unfold labs at 2. simpl. eapply LSHold. exact H2.
    - destruct Hc as [H1 H2]. split; [exact H1|]. constructor. exact H2.
    - intros x m Hs. inversion Hs; subst; eapply Hc; eassumption.
  Qed.
  Lemma done_iff (s : lst) a : linv s -> In (LDone a) (slots (labs s)) <-> In (Ptr a) (vars (ptrs s)).
  Proof.
    intros Hi. split; intros Hin.
    - apply In_nth_error in Hin as [i Hn]. simpl in Hn. rewrite nth_error_map, nth_combine in Hn.
      destruct (nth_error (funs s) i) as [f|]; [|discriminate]. destruct (nth_error (vars (ptrs s)) i) as [sl|] eqn:Es; [|discriminate].
      simpl in Hn. assert (sl = Ptr a) by (destruct f, sl; simpl in Hn; congruence). subst. eapply nth_error_In. exact Es.
    - apply In_nth_error in Hin as [i Hn]. destruct (fun_at s i _ Hi Hn) as [f Hf].
      apply nth_error_In with (n := i). rewrite (labs_at s i f _ Hf Hn). destruct f; reflexivity.
  Qed.
  Lemma lsim_readref s r : linv s -> lsim s (LReadRef r).
  Proof.
    intros Hi. unfold lsim. simpl. unfold bind at 1. unfold lift at 1, get_ref.
    assert (Es : mkLst (ptrs s) (funs s) (env s) = s) by (destruct s; reflexivity).
    destruct (refs (ptrs s) r) as [a|] eqn:Er.
    - rewrite Es. destruct (li_inv _ Hi) as [Hcs Hp]. unfold bind at 1. unfold lift at 1. unfold live_cell.
      destruct (nth_error (heap (ptrs s)) a) as [c|] eqn:Ec.
      + destruct (Hcs a c Ec) as [H1 H2]. destruct (c_live c) eqn:El.
        * rewrite Es. simpl. split; [exact Hi|].
          replace (labs s) with (mkSp (slots (labs s)) (objs (labs s)) (held (labs s)) (world (labs s))) by reflexivity.
          apply LSReadRef; [exact Er|simpl; rewrite nth_error_map, Ec; reflexivity|].
          apply (done_iff s a Hi). apply occ_in. simpl in H1. destruct (Nat.eqb_spec (c_cnt c) 0); [discriminate|lia].
        * intros x m Hs. inversion Hs; subst. assert (i = a) by congruence. subst i.
          match goal with Hin : In _ _ |- _ => apply (done_iff s a Hi) in Hin; apply occ_in in Hin end.
          simpl in H1. destruct (Nat.eqb_spec (c_cnt c) 0); [lia|discriminate].
      + intros x m Hs. inversion Hs; subst. assert (i = a) by congruence. subst i.
        match goal with Hn : nth_error (map c_val _) _ = _ |- _ => rewrite nth_error_map, Ec in Hn; discriminate end.
    - intros x m Hs. inversion Hs; subst. congruence.
  Qed.
  Lemma lstep_sim s o : linv s -> lsim s o.
  Proof.
    intros Hi. destruct o; [apply lsim_new|apply lsim_copy|apply lsim_move|apply lsim_assign|apply lsim_move_assign|
      apply lsim_destroy|apply lsim_call|apply lsim_hold|apply lsim_readref]; exact Hi.
  Qed.
  Lemma lrun_sim (p : list (lop F)) (s : lst) : linv s ->
    match lrun p s with
    | (l, inl s') => linv s' /\ lsexec call (labs s) p l (labs s')
    | (l, inr _) => lill_formed call (labs s) p l
    end.
  Proof.
    revert s; induction p as [|o p IH]; intros s Hi; simpl.
    - split; [exact Hi|constructor].
    - pose proof (lstep_sim s o Hi) as Hs. unfold lsim in Hs. destruct (lstep o s) as [x s'|e s'|r| |]; try contradiction.
      1,2: destruct Hs as [Hi' Hs]; specialize (IH s' Hi'); destruct (lrun p s') as [l [s2|r]];
        [destruct IH as [Hi2 He]; split; [exact Hi2|]; econstructor; eassumption|
         destruct IH as (p1 & o1 & p2 & m1 & -> & He & Hn); exists (o :: p1), o1, p2, m1; split; [reflexivity|];
         split; [|exact Hn]; econstructor; eassumption].
      exists [], o, p, (labs s). split; [reflexivity|]. split; [constructor|exact Hs].
  Qed.
  Lemma linv_init n w : linv (linit n w).
  Proof. split; simpl; [apply inv_init|rewrite !repeat_length; reflexivity|reflexivity]. Qed.
  Lemma labs_init n w : labs (linit n w) = spinit n w.
  Proof.
    unfold labs, spinit, linit. simpl. f_equal. induction n as [|n IH]; simpl; [reflexivity|]. rewrite IH. reflexivity.
  Qed.
  (** the refinement *)
  Lemma lazy_refines n w (p : list (lop F)) :
    match lrun p (linit n w) with
    | (l, inl s') => exists m os hd, lsexec call (spinit n w) p l (mkSp m os hd (env s')) /\ no_leak (ptrs s')
    | (l, inr _) => lill_formed call (spinit n w) p l
    end.
  Proof.
    pose proof (lrun_sim p (linit n w) (linv_init n w)) as Hr. rewrite labs_init in Hr.
    destruct (lrun p (linit n w)) as [l [s'|r]]; [|exact Hr].
    destruct Hr as [Hi He]. do 3 eexists. split; [exact He|]. apply inv_no_leak. apply (li_inv _ Hi).
  Qed.

  (** ** Evaluated variables *)
  Lemma call_done d (s : lst) i v : linv s -> nth_error (slots (labs s)) d = Some (LDone i) -> nth_error (objs (labs s)) i = Some v ->
    lstep (LCall d) s = Ret (LObj i v) s.
  Proof.
    intros Hi Hd Hv.
    assert (Es : mkLst (ptrs s) (funs s) (env s) = s) by (destruct s; reflexivity).
    assert (Hp : nth_error (vars (ptrs s)) d = Some (Ptr i)).
    { simpl in Hd. rewrite nth_error_map, nth_combine in Hd. destruct (nth_error (funs s) d) as [f|]; [|discriminate].
      destruct (nth_error (vars (ptrs s)) d) as [sl|]; [|discriminate]. destruct f, sl; simpl in Hd; congruence. }
    destruct (const_access_ok d (ptrs s) i (li_inv _ Hi) Hp) as (c & Ea & Hc & _).
    simpl in Hv. rewrite nth_error_map, Hc in Hv. injection Hv as <-.
    simpl. unfold lazy_call. unfold bind at 1 2. rewrite (lift_ret _ _ _ _ (get_ok _ _ _ Hp ltac:(discriminate))). rewrite Es.
    unfold bind at 1. simpl. unfold bind at 1. rewrite (lift_ret _ _ _ _ Ea). simpl. rewrite Es. reflexivity.
  Qed.
  Definition done_at (d i : nat) (v : O) (m : spst O F E) : Prop :=
    nth_error (slots m) d = Some (LDone i) /\ nth_error (objs m) i = Some v.
  Lemma app_keeps (os : list O) i v u : nth_error os i = Some v -> nth_error (os ++ u) i = Some v.
  Proof. intros H. rewrite nth_error_app1; [exact H|]. apply nth_error_Some. congruence. Qed.
  Lemma evals_keeps d i v m d' x m' : done_at d i v m -> evals call m d' x m' -> done_at d i v m'.
  Proof.
    intros [H1 H2] He. inversion He; subst; simpl in *; split; simpl; auto.
    - rewrite nth_error_upd_neq; [exact H1|]. intros ->. congruence.
    - apply app_keeps. exact H2.
    - rewrite nth_error_upd_neq; [exact H1|]. intros ->. congruence.
  Qed.
  Lemma done_stays d i v m o x m' : done_at d i v m -> replaces d o = false -> lsstep call m o x m' -> done_at d i v m'.
  Proof.
    intros Hd Hr Hs. inversion Hs; subst; simpl in Hr;
      try (eapply evals_keeps; eassumption);
      try (apply Bool.orb_false_elim in Hr as [Hr Hr2]; apply Nat.eqb_neq in Hr2);
      try apply Nat.eqb_neq in Hr.
    1-6: destruct Hd as [D1 D2]; split; simpl in *; [|exact D2]; rewrite ?nth_error_upd_neq by auto; exact D1.
    - pose proof (evals_keeps _ _ _ _ _ _ _ Hd H) as [D1 D2]. split; [exact D1|exact D2].
    - exact Hd.
  Qed.
  Lemma done_stays_exec d i v p : forall m l m', done_at d i v m -> Forall (fun o => replaces d o = false) p ->
    lsexec call m p l m' -> done_at d i v m'.
  Proof.
    induction p as [|o p IH]; intros m l m' Hd Hf He; inversion He; subst; [exact Hd|].
    inversion Hf; subst. eapply IH; [|eassumption|eassumption]. eapply done_stays; eassumption.
  Qed.
  Lemma reach_inv n w p l s : lrun p (linit n w) = (l, inl s) -> linv s.
  Proof. intros Er. pose proof (lrun_sim p (linit n w) (linv_init n w)) as Hr. rewrite Er in Hr. apply Hr. Qed.
  Lemma step_ret s o x s' : linv s -> lstep o s = Ret x s' -> linv s' /\ lsstep call (labs s) o x (labs s').
  Proof. intros Hi Er. pose proof (lstep_sim s o Hi) as Hs. unfold lsim in Hs. rewrite Er in Hs. exact Hs. Qed.
  Lemma obj_done s d i v s' : lsstep call s (LCall d) (LObj i v) s' -> done_at d i v s'.
  Proof.
    intros Hs. inversion Hs; subst. match goal with He : evals _ _ _ _ _ |- _ => inversion He; subst end.
    - split; assumption.
    - split; simpl.
      + eapply nth_error_upd_some. eassumption.
      + rewrite nth_error_app2 by lia. rewrite Nat.sub_diag. reflexivity.
  Qed.
  Lemma evaluated_for_good n w p l s d i v s1 q lq s2 :
    lrun p (linit n w) = (l, inl s) -> lstep (LCall d) s = Ret (LObj i v) s1 ->
    Forall (fun o => replaces d o = false) q -> lrun q s1 = (lq, inl s2) ->
    lstep (LCall d) s2 = Ret (LObj i v) s2.
  Proof.
    intros Er Ec Hq Eq. pose proof (reach_inv _ _ _ _ _ Er) as Hi.
    destruct (step_ret _ _ _ _ Hi Ec) as [Hi1 Hs1]. pose proof (obj_done _ _ _ _ _ Hs1) as Hd.
    pose proof (lrun_sim q s1 Hi1) as Hr. rewrite Eq in Hr. destruct Hr as [Hi2 He].
    destruct (done_stays_exec _ _ _ _ _ _ _ Hd Hq He) as [H1 H2]. apply call_done; assumption.
  Qed.
  Lemma evaluated_copy n w p l s d k i v s1 s2 q lq s3 :
    lrun p (linit n w) = (l, inl s) -> lstep (LCall k) s = Ret (LObj i v) s1 -> lstep (LCopy d k) s1 = Ret LUnit s2 ->
    Forall (fun o => replaces d o = false) q -> lrun q s2 = (lq, inl s3) ->
    lstep (LCall d) s3 = Ret (LObj i v) s3.
  Proof.
    intros Er Ec E2 Hq Eq. pose proof (reach_inv _ _ _ _ _ Er) as Hi.
    destruct (step_ret _ _ _ _ Hi Ec) as [Hi1 Hs1]. pose proof (obj_done _ _ _ _ _ Hs1) as [D1 D2].
    destruct (step_ret _ _ _ _ Hi1 E2) as [Hi2 Hs2].
    assert (Hd : done_at d i v (labs s2)).
    { assert (D2' := D2). assert (D1' := D1). remember (labs s1) as m1. remember (labs s2) as m2.
      inversion Hs2; subst m2; match goal with Hm : mkSp _ _ _ _ = m1 |- _ => rewrite <- Hm in * end. simpl in *.
      split; simpl; [|exact D2]. erewrite nth_error_upd_some by eassumption. congruence. }
    pose proof (lrun_sim q s2 Hi2) as Hr. rewrite Eq in Hr. destruct Hr as [Hi3 He].
    destruct (done_stays_exec _ _ _ _ _ _ _ Hd Hq He) as [H1 H2]. apply call_done; assumption.
  Qed.

  (** ** Throwing *)
  Lemma pending_slot (s : lst) d f : linv s -> nth_error (slots (labs s)) d = Some (LPending f) ->
    nth_error (vars (ptrs s)) d = Some Null /\ nth_error (funs s) d = Some (Some f).
  Proof.
    intros Hi Hd. simpl in Hd. rewrite nth_error_map, nth_combine in Hd. destruct (nth_error (funs s) d) as [f0|]; [|discriminate].
    destruct (nth_error (vars (ptrs s)) d) as [sl|]; [|discriminate]. destruct f0, sl; simpl in Hd; try congruence.
    injection Hd as ->. auto.
  Qed.
  Lemma evals_det m d x1 m1 x2 m2 : evals call m d x1 m1 -> evals call m d x2 m2 -> x1 = x2 /\ m1 = m2.
  Proof.
    intros H1 H2. destruct H1; inversion H2; subst; try congruence; split; try reflexivity; try congruence.
  Qed.
  Lemma call_obj (s : lst) d f v f' w' : linv s -> nth_error (vars (ptrs s)) d = Some Null -> nth_error (funs s) d = Some (Some f) ->
    call f (env s) = (OutObj v, f', w') ->
    exists s', lstep (LCall d) s = Ret (LObj (length (heap (ptrs s))) v) s' /\ env s' = w'.
  Proof.
    intros Hi Hv Hf Hc. pose proof (labs_at s d _ _ Hf Hv) as Ha. simpl aslot in Ha.
    pose proof (EvFirst call (slots (labs s)) (objs (labs s)) (held (labs s)) (env s) d f v f' w' Ha Hc) as Hev.
    change (mkSp (slots (labs s)) (objs (labs s)) (held (labs s)) (env s)) with (labs s) in Hev.
    pose proof (call_sim s d Hi) as Hs. unfold csim in Hs. simpl. unfold bind.
    destruct (lazy_call call d s) as [[i u] s'|e s'|r| |]; try contradiction.
    - destruct Hs as [_ Hs]. destruct (evals_det _ _ _ _ _ _ Hev Hs) as [E1 E2]. injection E1 as <- <-.
      simpl. exists s'. split; [rewrite map_length; reflexivity|]. apply (f_equal world) in E2. symmetry. exact E2.
    - destruct Hs as [_ Hs]. destruct (evals_det _ _ _ _ _ _ Hev Hs) as [E1 E2]. discriminate.
    - exfalso. eapply Hs. exact Hev.
  Qed.
  Lemma call_throw (s : lst) d f e f' w' : nth_error (vars (ptrs s)) d = Some Null -> nth_error (funs s) d = Some (Some f) ->
    call f (env s) = (OutThrow e, f', w') ->
    lstep (LCall d) s = Exc e (mkLst (ptrs s) (upd d (Some f') (funs s)) w').
  Proof.
    intros Hv Hf Hc. assert (Es : mkLst (ptrs s) (funs s) (env s) = s) by (destruct s; reflexivity).
    simpl. unfold lazy_call. unfold bind at 1 2.
    rewrite (lift_ret _ _ _ _ (get_ok _ _ _ Hv ltac:(discriminate))), Es.
    unfold bind at 1 2. unfold call_func. rewrite Hf, Hc. reflexivity.
  Qed.
  Lemma call_null (s : lst) d f f' w' : nth_error (vars (ptrs s)) d = Some Null -> nth_error (funs s) d = Some (Some f) ->
    call f (env s) = (OutNull, f', w') -> lstep (LCall d) s = Ub UbNull.
  Proof.
    intros Hv Hf Hc. assert (Es : mkLst (ptrs s) (funs s) (env s) = s) by (destruct s; reflexivity).
    simpl. unfold lazy_call. unfold bind at 1 2.
    rewrite (lift_ret _ _ _ _ (get_ok _ _ _ Hv ltac:(discriminate))), Es.
    unfold bind at 1 2. unfold call_func. rewrite Hf, Hc. unfold reset_null. unfold bind at 1 2. simpl.
    rewrite (lift_ret' _ _ _ _ _ _ (get_ok _ _ _ Hv ltac:(discriminate))). simpl. unfold bind at 1.
    rewrite (lift_ub _ _ UbNull); [reflexivity|]. apply const_access_null. simpl. eapply nth_error_upd_some. exact Hv.
  Qed.
  Lemma throw_then_retry n w p l s d e s1 :
    lrun p (linit n w) = (l, inl s) -> lstep (LCall d) s = Exc e s1 ->
    exists f f', nth_error (funs s) d = Some (Some f) /\
      call f (env s) = (OutThrow e, f', env s1) /\ ptrs s1 = ptrs s /\ funs s1 = upd d (Some f') (funs s) /\
      match call f' (env s1) with
      | (OutThrow e2, f2, w2) => lstep (LCall d) s1 = Exc e2 (mkLst (ptrs s1) (upd d (Some f2) (funs s1)) w2)
      | (OutObj v, f2, w2) => exists s2, lstep (LCall d) s1 = Ret (LObj (length (heap (ptrs s1))) v) s2 /\ env s2 = w2
      | (OutNull, _, _) => lstep (LCall d) s1 = Ub UbNull
      end.
  Proof.
    intros Er Ec. pose proof (reach_inv _ _ _ _ _ Er) as Hi. pose proof (lstep_sim s (LCall d) Hi) as Hs.
    unfold lsim in Hs. rewrite Ec in Hs. destruct Hs as [Hi1 Hs].
    assert (Hp : exists f f' w', nth_error (slots (labs s)) d = Some (LPending f) /\ call f (env s) = (OutThrow e, f', w')).
    { inversion Hs; subst. match goal with He : evals _ _ _ _ _ |- _ => inversion He; subst end. eauto. }
    destruct Hp as (f & f' & w' & Hp & Hc). destruct (pending_slot s d f Hi Hp) as [Hv Hf].
    rewrite (call_throw s d f e f' w' Hv Hf Hc) in Ec. injection Ec as <-.
    exists f, f'. simpl. split; [exact Hf|]. split; [exact Hc|]. split; [reflexivity|]. split; [reflexivity|].
    assert (Hn : nth_error (upd d (Some f') (funs s)) d = Some (Some f')) by (eapply nth_error_upd_some; exact Hf).
    destruct (call f' w') as [[[v| |e2] f2] w2] eqn:Ec2.
    - apply (call_obj (mkLst (ptrs s) (upd d (Some f') (funs s)) w') d f' v f2 w2); assumption.
    - apply (call_null (mkLst (ptrs s) (upd d (Some f') (funs s)) w') d f' f2 w2); assumption.
    - apply (call_throw (mkLst (ptrs s) (upd d (Some f') (funs s)) w') d f' e2 f2 w2); assumption.
  Qed.

  (** ** One Lazy *)
  Lemma calls_done n : forall (s : lst) d i v, linv s -> nth_error (slots (labs s)) d = Some (LDone i) -> nth_error (objs (labs s)) i = Some v ->
    lrun (repeat (LCall d) n) s = (repeat (LObj i v) n, inl s).
  Proof.
    induction n as [|n IH]; intros s d i v Hi H1 H2; [reflexivity|]. cbn [repeat LazyModel.lrun].
    rewrite (call_done d s i v Hi H1 H2), (IH s d i v Hi H1 H2). reflexivity.
  Qed.
  Lemma calls_pending n : never_null call -> forall (s : lst) f, linv s -> heap (ptrs s) = [] ->
    nth_error (vars (ptrs s)) 0 = Some Null -> nth_error (funs s) 0 = Some (Some f) ->
    exists s', lrun (repeat (LCall 0) n) s = (expected call n f (env s), inl s') /\ env s' = world_after call n f (env s).
  Proof.
    intros Hnn. induction n as [|n IH]; intros s f Hi Hh Hv Hf.
    - exists s. split; reflexivity.
    - cbn [repeat LazyModel.lrun expected world_after]. destruct (call f (env s)) as [[[v| |e] f'] w'] eqn:Ec.
      + destruct (call_obj s 0 f v f' w' Hi Hv Hf Ec) as (s' & El & Ew). rewrite El, Hh. simpl length.
        destruct (step_ret _ _ _ _ Hi El) as [Hi' Hs']. rewrite Hh in Hs'. destruct (obj_done _ _ _ _ _ Hs') as [D1 D2].
        rewrite (calls_done n s' 0 0 v Hi' D1 D2). exists s'. split; [reflexivity|exact Ew].
      + exfalso. eapply Hnn. exact Ec.
      + rewrite (call_throw s 0 f e f' w' Hv Hf Ec).
        destruct (IH (mkLst (ptrs s) (upd 0 (Some f') (funs s)) w') f') as (s' & E1 & E2); [|exact Hh|exact Hv| |].
        * destruct Hi as [A B C]. split; [exact A|cbn [funs ptrs]; rewrite upd_length; exact B|exact C].
        * eapply nth_error_upd_some. exact Hf.
        * cbn [env] in E1, E2. rewrite E1. exists s'. split; [reflexivity|exact E2].
  Qed.
  Lemma one_lazy n f w : never_null call ->
    exists s', lrun (LNew 0 f :: repeat (LCall 0) n) (linit 1 w) = (LUnit :: expected call n f w, inl s') /\
      env s' = world_after call n f w.
  Proof.
    intros Hnn. cbn [LazyModel.lrun].
    assert (El : lstep (LNew 0 f) (linit 1 w) = Ret LUnit (mkLst (up (hinit 1 []) 0 Null) [Some f] w)) by reflexivity.
    destruct (step_ret _ _ _ _ (linv_init 1 w) El) as [Hi _]. rewrite El.
    destruct (calls_pending n Hnn _ f Hi eq_refl eq_refl eq_refl) as (s' & E1 & E2).
    simpl env in E1, E2. rewrite E1. exists s'. split; [reflexivity|exact E2].
  Qed.
End Lazy.
