(** WriterProofs.v -- lemmas about WriterModel. *)
From Verif Require Import Base StreamModel HandleModel HandleProofs WriterModel WriterSpec.
Local Open Scope monad_scope.

Section Proofs.
  Context {V T : Type} (wr : V -> T -> text).
  Notation hst := (hst V).
  Notation wst := (wst V T).
  Notation wstep := (wstep wr).
  Notation wrun := (wrun wr).
  (** the operations on handles, as statements of HandleModel *)
  Let hinv (o : op V unit) (s : hst) :=
    step_inv (fun v => v) (fun _ => tt) (fun _ _ => []) (fun t => t) (fun _ => 0) (fun v => eq_refl) o s.

  Lemma lift_inv (m : M hst unit) (o : op V unit) (s : wst) :
    step (fun v => v) (fun _ => tt) (fun _ _ => []) (fun t => t) (fun _ => 0) o = (m ;;; ret ODone) ->
    inv [] (w_h s) -> match lift m s with Ret _ s' | Exc _ s' => inv [] (w_h s') | Ub _ => True | _ => False end.
  Proof.
    intros E Hi. pose proof (hinv o (w_h s) Hi) as H. rewrite E in H. unfold bind in H. unfold lift.
    destruct (m (w_h s)); simpl in *; auto.
  Qed.
  Lemma wstep_inv (o : wop V T) (s : wst) : inv [] (w_h s) ->
    match wstep o s with Ret _ s' | Exc _ s' => inv [] (w_h s') | Ub _ => True | _ => False end.
  Proof.
    intros Hi. destruct o as [d v|d|d k|d k|d k|d k|d|t x|k h t|k|h t]; simpl.
    - exact (lift_inv _ (H (OpNew d v)) s eq_refl Hi).
    - exact (lift_inv _ (H (OpNull d)) s eq_refl Hi).
    - exact (lift_inv _ (H (OpCopy d k)) s eq_refl Hi).
    - exact (lift_inv _ (H (OpMove d k)) s eq_refl Hi).
    - exact (lift_inv _ (H (OpAssign d k)) s eq_refl Hi).
    - exact (lift_inv _ (H (OpMoveAssign d k)) s eq_refl Hi).
    - exact (lift_inv _ (H (OpDestroy d)) s eq_refl Hi).
    - exact Hi.
    - unfold w_call, bind, get_obj. destruct (w_objs s t) as [x|]; [|exact I]. unfold lift at 1.
      pose proof (const_access_inv h (w_h s) Hi) as Hc. destruct (const_access h (w_h s)) as [[b c] s'|e s'|u| |]; try contradiction; simpl; auto.
      destruct Hc as (-> & _). apply inv_ref. exact Hi.
    - unfold bind, lift, get_ref. destruct (refs (w_h s) k) as [a|]; simpl; [|exact I]. unfold get_arg. simpl.
      destruct (w_args s k) as [t|]; [|exact I]. unfold w_write, bind, lift, live_cell. simpl.
      destruct (nth_error (heap (w_h s)) a) as [c|]; [|exact I]. destruct (c_live c); [|exact I].
      unfold get_obj. simpl. destruct (w_objs s t); [exact Hi|exact I].
    - unfold w_call, bind, get_obj. destruct (w_objs s t) as [x|] eqn:Ex; [|exact I]. unfold lift at 1.
      pose proof (const_access_inv h (w_h s) Hi) as Hc. destruct (const_access h (w_h s)) as [[b c] s'|e s'|u| |]; try contradiction; simpl; auto.
      destruct Hc as (-> & _ & Hb & Hl). unfold w_write, bind, lift, live_cell. simpl. rewrite Hb, Hl.
      unfold get_obj. simpl. rewrite Ex. exact Hi.
  Qed.
  Lemma wrun_inv (p : list (wop V T)) (s s' : wst) : inv [] (w_h s) -> wrun p s = inl s' -> inv [] (w_h s').
  Proof.
    revert s; induction p as [|o p IH]; intros s Hi E; simpl in E.
    - congruence.
    - pose proof (wstep_inv o s Hi) as Hs. destruct (wstep o s) as [x s1|e s1|r| |]; try discriminate; eapply IH; eassumption.
  Qed.
  Lemma start_inv n sc p (s : wst) : wrun p (winit n sc) = inl s -> inv [] (w_h s).
  Proof. intros E. eapply wrun_inv; [|exact E]. simpl. apply inv_init. Qed.

  (** object [a] keeps its value, temporary [k] its members *)
  Section Keep.
    Context (k a t : nat) (v : V).
    Definition Qh (s : hst) : Prop := (exists c, nth_error (heap s) a = Some c /\ c_val c = v) /\ refs s k = Some a.
    Definition Q (s : wst) : Prop := Qh (w_h s) /\ w_args s k = Some t.
    Definition kv {A} (m : M hst A) : Prop :=
      forall s, Qh s -> match m s with Ret _ s' | Exc _ s' => Qh s' | _ => True end.
    Lemma kv_bind {A B} (m : M hst A) (f : A -> M hst B) : kv m -> (forall x, kv (f x)) -> kv (bind m f).
    Proof.
      intros Hm Hf s Hs. unfold bind. specialize (Hm s Hs). destruct (m s) as [x s1|e s1|u| |]; auto. apply Hf. exact Hm.
    Qed.
    Lemma kv_ret {A} (x : A) : kv (ret x).
    Proof. intros s Hs. exact Hs. Qed.
    Lemma kv_alloc w : kv (alloc w).
    Proof.
      intros s ((c & Hc & Hv) & Hr). unfold alloc. destruct (sched s) as [|[] sc]; split; simpl; auto; exists c; (split; [|exact Hv]); auto;
        rewrite nth_error_app1 by (apply nth_error_Some; congruence); exact Hc.
    Qed.
    Lemma kv_recount b (f : cell V -> cell V) : (forall c, c_val (f c) = c_val c) -> kv (fun s => (c <- live_cell b ;; set_cell b (f c)) s).
    Proof.
      intros Hf s ((c & Hc & Hv) & Hr). unfold bind, live_cell. destruct (nth_error (heap s) b) as [c'|] eqn:Eb; [|exact I].
      destruct (c_live c'); [|exact I]. unfold set_cell, Qh. simpl. split; [|exact Hr]. rewrite nth_error_upd.
      destruct (Nat.eqb_spec b a) as [->|Hne]; [|exists c; auto].
      assert (Hlt : a < length (heap s)) by (apply nth_error_Some; congruence).
      destruct (Nat.ltb_spec a (length (heap s))); [|lia]. exists (f c'). split; [reflexivity|]. rewrite Hf. congruence.
    Qed.
    Lemma kv_acquire sl : kv (acquire sl).
    Proof. destruct sl as [| |b]; simpl; try apply kv_ret. apply (kv_recount b (fun c => mkCell (c_val c) (c_cnt c + 1) true)). reflexivity. Qed.
    Lemma kv_release sl : kv (release sl).
    Proof.
      destruct sl as [| |b]; simpl; try apply kv_ret. intros s Hs.
      pose proof (kv_recount b (fun c => mkCell (c_val c) (c_cnt c - 1) (negb (Nat.eqb (c_cnt c) 1))) (fun c => eq_refl) s Hs) as H.
      unfold bind in *. destruct (live_cell b s) as [c s1|e s1|u| |]; auto. destruct (c_cnt c) as [|[|n]]; simpl in *; auto.
    Qed.
    Lemma kv_get_slot h : kv (get_slot h).
    Proof. intros s Hs. unfold get_slot. destruct (nth_error (vars s) h) as [[| |]|]; auto. Qed.
    Lemma kv_put_slot h sl : kv (put_slot h sl).
    Proof. intros s Hs. exact Hs. Qed.
    Lemma kv_fresh h : kv (fresh_slot h).
    Proof. intros s Hs. unfold fresh_slot. destruct (nth_error (vars s) h) as [[| |]|]; auto. Qed.
    Ltac kv := repeat first [ apply kv_bind; [|intros ?] | apply kv_ret | apply kv_alloc | apply kv_acquire | apply kv_release
                            | apply kv_get_slot | apply kv_put_slot | apply kv_fresh ].
    Lemma Q_lift {A} (m : M hst A) (s : wst) : kv m -> Q s -> match lift m s with Ret _ s' | Exc _ s' => Q s' | _ => True end.
    Proof. intros Hm [Hh Ht]. unfold lift. specialize (Hm _ Hh). destruct (m (w_h s)); auto; split; auto. Qed.
    Lemma Q_wstep (o : wop V T) (s : wst) : no_rebinding k o -> inv [] (w_h s) -> Q s ->
      match wstep o s with Ret _ s' | Exc _ s' => Q s' | _ => True end.
    Proof.
      intros Hk Hi HQ. destruct o as [d w|d|d q|d q|d q|d q|d|u x|q h u|q|h u]; simpl in *.
      1-7: apply Q_lift; [|exact HQ].
      - unfold h_new; kv. - unfold h_null; kv. - unfold h_copy; kv. - unfold h_move; kv.
      - unfold h_assign; kv. - unfold h_move_assign; kv. - unfold h_destroy; kv.
      - exact HQ.
      - unfold w_call, bind, get_obj. destruct (w_objs s u) as [x|]; [|exact I]. unfold lift at 1.
        pose proof (const_access_inv h (w_h s) Hi) as Hc. destruct (const_access h (w_h s)) as [[b c] s'|e s'|r| |]; try contradiction; simpl; auto.
        destruct Hc as (-> & _). destruct HQ as [[Hc Hr] Ht]. unfold Q, Qh. simpl. rewrite !set_var_neq by auto. auto.
      - unfold bind, lift, get_ref. destruct (refs (w_h s) q) as [b|]; simpl; [|exact I]. unfold get_arg. simpl.
        destruct (w_args s q) as [t'|]; [|exact I]. unfold w_write, bind, lift, live_cell. simpl.
        destruct (nth_error (heap (w_h s)) b) as [c|]; [|exact I]. destruct (c_live c); [|exact I].
        unfold get_obj. simpl. destruct (w_objs s t'); [exact HQ|exact I].
      - unfold w_call, bind, get_obj. destruct (w_objs s u) as [x|] eqn:Ex; [|exact I]. unfold lift at 1.
        pose proof (const_access_inv h (w_h s) Hi) as Hc. destruct (const_access h (w_h s)) as [[b c] s'|e s'|r| |]; try contradiction; simpl; auto.
        destruct Hc as (-> & _ & Hb & Hl). unfold w_write, bind, lift, live_cell. simpl. rewrite Hb, Hl.
        unfold get_obj. simpl. rewrite Ex. exact HQ.
    Qed.
    Lemma Q_wrun (p : list (wop V T)) (s s' : wst) : Forall (no_rebinding k) p -> inv [] (w_h s) -> Q s -> wrun p s = inl s' -> Q s'.
    Proof.
      revert s; induction p as [|o p IH]; intros s Hf Hi HQ E; simpl in E.
      - congruence.
      - inversion Hf as [|? ? Hk Hf']; subst. pose proof (Q_wstep o s Hk Hi HQ) as Hs. pose proof (wstep_inv o s Hi) as Hj.
        destruct (wstep o s) as [x s1|e s1|r| |]; try discriminate; eapply IH; eassumption.
    Qed.
  End Keep.

  Lemma bind_members (s s1 : wst) k h t x : inv [] (w_h s) -> wstep (WBind k h t) s = Ret x s1 ->
    exists a v, writer_at s h a v /\ inv [] (w_h s1) /\ Q k a t v s1.
  Proof.
    intros Hi E. pose proof (wstep_inv (WBind k h t) s Hi) as Hj. rewrite E in Hj.
    simpl in E. unfold w_call, bind, get_obj in E. destruct (w_objs s t) as [y|]; [|discriminate]. unfold lift at 1 in E.
    pose proof (const_access_inv h (w_h s) Hi) as Hc.
    destruct (const_access h (w_h s)) as [[b c] s'|e s'|r| |]; try contradiction; try discriminate.
    destruct Hc as (-> & Hh & Hb & Hl). simpl in E. injection E as _ <-.
    exists b, (c_val c). split; [split; [exact Hh|exists c; auto]|]. split; [exact Hj|].
    unfold Q, Qh. simpl. rewrite !set_var_eq. split; [split; [exists c; auto|reflexivity]|reflexivity].
  Qed.
  Lemma live_owned (s : wst) a c : inv [] (w_h s) -> nth_error (heap (w_h s)) a = Some c -> c_live c = true <-> owned s a.
  Proof.
    intros Hi Hc. split.
    - intros Hl. exact (inv_no_leak _ Hi a c Hc Hl).
    - intros (h & Hh). destruct (inv_val _ _ _ _ Hi Hh) as (c' & E & _ & Hl & _). congruence.
  Qed.
  Lemma write_owned (s : wst) a t v x : inv [] (w_h s) -> (exists c, nth_error (heap (w_h s)) a = Some c /\ c_val c = v) ->
    owned s a -> w_objs s t = Some x -> w_write wr a t s = Ret tt (printed s (wr v x)).
  Proof.
    intros Hi (c & Hc & <-) Ho Hx. apply (live_owned s a c Hi Hc) in Ho. unfold w_write, bind, lift, live_cell.
    rewrite Hc, Ho. destruct s as [hh ob ar ou]; simpl in *. unfold get_obj. simpl. rewrite Hx. reflexivity.
  Qed.

  Lemma temporary_prints n sc p0 (s s1 s2 : wst) k h t u p :
    wrun p0 (winit n sc) = inl s -> wstep (WBind k h t) s = Ret u s1 -> Forall (no_rebinding k) p -> wrun p s1 = inl s2 ->
    exists a v, writer_at s h a v /\
      (forall x, owned s2 a -> w_objs s2 t = Some x -> wstep (WPrint k) s2 = Ret tt (printed s2 (wr v x))) /\
      (~ owned s2 a \/ w_objs s2 t = None -> wstep (WPrint k) s2 = Ub UbDangling).
  Proof.
    intros E0 E1 Hf E2. apply start_inv in E0. destruct (bind_members _ _ _ _ _ _ E0 E1) as (a & v & Hw & Hi1 & HQ).
    pose proof (wrun_inv _ _ _ Hi1 E2) as Hi2. pose proof (Q_wrun _ _ _ _ _ _ _ Hf Hi1 HQ E2) as [[Hc Hr] Ht].
    exists a, v. split; [exact Hw|].
    assert (Ep : wstep (WPrint k) s2 = w_write wr a t s2).
    { simpl. unfold bind, lift, get_ref. rewrite Hr. simpl. unfold get_arg. simpl. rewrite Ht.
      destruct s2; reflexivity. }
    rewrite Ep. split.
    - intros x Ho Hx. apply write_owned; assumption.
    - destruct Hc as (c & Hc & Hv). intros Hd. unfold w_write, bind, lift, live_cell. rewrite Hc.
      destruct (c_live c) eqn:Hl; [|reflexivity]. apply (live_owned s2 a c Hi2 Hc) in Hl.
      destruct Hd as [Hd|Hd]; [contradiction|]. unfold get_obj. simpl. rewrite Hd. reflexivity.
  Qed.
  Lemma prints_now n sc p0 (s : wst) h t a v x :
    wrun p0 (winit n sc) = inl s -> writer_at s h a v -> w_objs s t = Some x ->
    wstep (WNow h t) s = Ret tt (printed s (wr v x)).
  Proof.
    intros E0 [Hh Hc] Hx. apply start_inv in E0.
    destruct (const_access_ok _ _ _ E0 Hh) as (c & Ea & _). simpl. unfold w_call, bind at 1 2 3, get_obj. rewrite Hx.
    unfold lift. rewrite Ea. simpl. rewrite <- (write_owned s a t v x E0 Hc (ex_intro _ h Hh) Hx).
    destruct s; reflexivity.
  Qed.
  (** assigning to the only Writer variable that holds the object *)
  Lemma assignment_dangles n sc p0 (s s1 s2 : wst) k h d t u u' a v :
    wrun p0 (winit n sc) = inl s -> writer_at s h a v -> (forall i, i <> h -> nth_error (vars (w_h s)) i <> Some (Ptr a)) ->
    wstep (WBind k h t) s = Ret u s1 -> d <> h -> wstep (WAssign h d) s1 = Ret u' s2 ->
    wstep (WPrint k) s2 = Ub UbDangling.
  Proof.
    intros E0 [Hh _] Hal E1 Hne E2.
    destruct (temporary_prints n sc p0 s s1 s2 k h t u [WAssign h d] E0 E1) as (a' & v' & [Hh' _] & _ & Hd).
    - repeat constructor.
    - simpl in E2. cbn [wrun WriterModel.wrun]. cbn [WriterModel.wstep]. rewrite E2. reflexivity.
    - assert (a' = a) by congruence. subst a'. apply Hd. left. intros (i & Hi).
      assert (Ev1 : vars (w_h s1) = vars (w_h s)).
      { pose proof (start_inv _ _ _ _ E0) as Hs. simpl in E1. unfold w_call, bind, get_obj in E1. destruct (w_objs s t); [|discriminate].
        unfold lift at 1 in E1. pose proof (const_access_inv h (w_h s) Hs) as Hc.
        destruct (const_access h (w_h s)) as [[b c] s'|e s'|r| |]; try contradiction; try discriminate.
        destruct Hc as (-> & _). simpl in E1. injection E1 as _ <-. reflexivity. }
      destruct (bind_members _ _ _ _ _ _ (start_inv _ _ _ _ E0) E1) as (_ & _ & _ & Hi1 & _).
      simpl in E2. unfold lift in E2. destruct (nth_error (vars (w_h s1)) d) as [sl|] eqn:Ed.
      2:{ unfold h_assign, bind, get_slot in E2. rewrite Ed in E2. discriminate. }
      destruct (slot_eq_dec sl Dead) as [->|Hsl].
      { unfold h_assign, bind, get_slot in E2. rewrite Ed in E2. discriminate. }
      assert (Hh1 : nth_error (vars (w_h s1)) h = Some (Ptr a)) by congruence.
      destruct (h_assign_ok h d (w_h s1) sl (Ptr a) Hi1 Hh1 ltac:(discriminate) Ed Hsl) as (s' & Ea & _ & Hv & _).
      rewrite Ea in E2. injection E2 as _ <-. simpl in Hi. rewrite Hv in Hi. rewrite nth_error_upd in Hi.
      destruct (Nat.eqb_spec h i) as [->|Hni].
      + destruct (Nat.ltb_spec i (length (vars (w_h s1)))); [|discriminate]. injection Hi as ->. rewrite Ev1 in Ed. exact (Hal d Hne Ed).
      + rewrite Ev1 in Hi. exact (Hal i (not_eq_sym Hni) Hi).
  Qed.
End Proofs.

(** ** IsWritable *)
Lemma usual_not_writable : can_be_written (Some usual) = true /\ template_insert (Some usual) = NotViable.
Proof. split; reflexivity. Qed.
Lemma insert_agrees f :
  template_insert f = (if can_be_written f then Writes else NotViable) <->
  match f with
  | Some f => wf_public f = true -> wf_param f = ByConstRef /\ wf_const f = true \/ wf_param f = ByForwarding /\ wf_const f = true \/
                                    wf_param f = ByLvalueRef /\ wf_const f = false
  | None => True
  end.
Proof.
  destruct f as [[[] [] []]|]; unfold template_insert, can_be_written, has_write, call_ok; simpl; split; intros; try reflexivity; try discriminate;
    try tauto; try (specialize (H eq_refl)); intuition discriminate.
Qed.
Lemma insert_table f :
  (template_insert f = Writes <-> exists p, f = Some (mkWf true true p) /\ (p = ByConstRef \/ p = ByForwarding)) /\
  (template_insert f = HardError <->
   exists p c, f = Some (mkWf true c p) /\ (p = ByRvalueRef \/ c = false /\ (p = ByConstRef \/ p = ByForwarding))).
Proof.
  destruct f as [[[] [] []]|]; vm_compute; split; split; intros H; try discriminate; try reflexivity;
    try (destruct H as (p & [= <-] & [H|H]); discriminate); try (destruct H as (p & H & _); discriminate);
    try (destruct H as (p & c & [= <- <-] & [H|[? [H|H]]]); discriminate); try (destruct H as (p & c & H & _); discriminate);
    try (eexists; split; [reflexivity|tauto]); try (eexists _, _; split; [reflexivity|tauto]).
Qed.
