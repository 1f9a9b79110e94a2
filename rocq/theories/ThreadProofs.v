(** ThreadProofs.v -- lemmas about ThreadModel. *)
From Verif Require Import Base HandleModel HandleSpec HandleProofs ThreadModel ThreadSpec.
Local Open Scope monad_scope.

Section Proofs.
  Context {V Ty : Type} (clone : V -> V) (dyn : V -> Ty)
          (subobjs : Ty -> Ty -> list nat) (wrapper : Ty -> Ty) (inner : Ty -> nat).
  Notation hst := (hst V).
  Notation cell := (cell V).
  Notation hop := (hop V Ty).
  Notation out := (out V).
  Notation cmd := (cmd V).
  Notation c_hop := (c_hop clone dyn subobjs wrapper inner).
  Notation hstep := (hstep clone dyn subobjs wrapper inner).
  Context (clone_ok : forall v, clone v = v).

  (** ** Without interruption *)
  Lemma cexec_bind {A B} (c : cmd A) (k : A -> cmd B) (s : hst) : cexec (cbind c k) s = bind (cexec c) (fun x => cexec (k x)) s.
  Proof.
    revert s. induction c as [x|e|r|C a k' IH]; intros s; simpl; try reflexivity.
    unfold bind. destruct (aexec a s) as [x s'|e s'|r| |]; auto. rewrite IH. reflexivity.
  Qed.
  Lemma cexec_do {B} (a : act V B) (s : hst) : cexec (do a) s = aexec a s.
  Proof. simpl. unfold bind. destruct (aexec a s); reflexivity. Qed.
  Lemma cexec_act {A B} (a : act V B) (k : B -> cmd A) (s : hst) : cexec (cbind (do a) k) s = bind (aexec a) (fun x => cexec (k x)) s.
  Proof. reflexivity. Qed.

  Lemma seq_release sl (s : hst) : cexec (c_release sl) s = release sl s.
  Proof.
    destruct sl as [| |a]; try reflexivity. simpl. unfold bind, a_dec, live_cell.
    destruct (nth_error (heap s) a) as [c|] eqn:E; [|reflexivity]. destruct (c_live c); [|reflexivity].
    destruct (c_cnt c) as [|[|n]]; simpl; try reflexivity.
    unfold bind, a_kill. simpl.
    rewrite nth_error_upd_eq by (apply nth_error_Some; congruence). simpl. unfold set_cell. simpl.
    unfold ret. do 2 f_equal. clear E. revert a. induction (heap s) as [|x l IH]; intros [|a]; simpl; f_equal; auto.
  Qed.
  Lemma seq_acquire sl (s : hst) : inv [] s -> (exists h, nth_error (vars s) h = Some sl) -> cexec (c_acquire sl) s = acquire sl s.
  Proof.
    intros Hi (h & Hh). destruct sl as [| |a]; try reflexivity.
    destruct (inv_val _ _ _ _ Hi Hh) as (c & Hc & Hlc & Hl & _). simpl. unfold bind, a_inc, live_cell. rewrite Hc, Hl.
    assert (Hp : 0 < c_cnt c). { destruct Hi as [Hcell _]. destruct (Hcell a c Hc) as [_ H2]. rewrite Hl in H2. destruct (c_cnt c); [discriminate|lia]. }
    destruct (Nat.ltb_spec 0 (c_cnt c)); [|lia]. reflexivity.
  Qed.
  Lemma get_slot_ret h (s s' : hst) sl : get_slot h s = Ret sl s' -> s' = s /\ nth_error (vars s) h = Some sl.
  Proof. unfold get_slot. destruct (nth_error (vars s) h) as [[| |a]|]; intros E; inversion E; auto. Qed.
  Lemma fresh_ret d (s s' : hst) x : fresh_slot d s = Ret x s' -> s' = s.
  Proof. unfold fresh_slot. destruct (nth_error (vars s) d) as [[| |a]|]; intros E; inversion E; auto. Qed.
  Ltac seqs := rewrite ?cexec_act, ?cexec_bind, ?cexec_do; cbn [aexec].
  Lemma bind_ext {A B} (m m' : M hst A) (k k' : A -> M hst B) s :
    m s = m' s -> (forall x s', m s = Ret x s' -> k x s' = k' x s') -> bind m k s = bind m' k' s.
  Proof. intros E H. unfold bind. rewrite <- E. destruct (m s) as [x s'|e s'|r| |]; auto. Qed.

  Lemma seq_const_access h (s : hst) : inv [] s ->
    cexec (c_const_access h) s = match const_access h s with Ret x s' => Ret (fst x) s' | Exc e s' => Exc e s' | Ub r => Ub r | Abort => Abort | Fuel => Fuel end.
  Proof.
    intros Hi. unfold c_const_access, const_access. seqs. unfold bind.
    destruct (get_slot h s) as [sl s'|e s'|r| |] eqn:E; try reflexivity. destruct (get_slot_ret _ _ _ _ E) as [-> Hn].
    destruct sl as [| |a]; try reflexivity. simpl. unfold bind. destruct (inv_val _ _ _ _ Hi Hn) as (c & _ & -> & _). reflexivity.
  Qed.
  Lemma seq_make_unique h (s : hst) : cexec (c_make_unique clone h) s = make_unique clone h s.
  Proof.
    unfold c_make_unique, c_const_access, make_unique, do. cbn [cbind cexec aexec]. unfold bind.
    destruct (get_slot h s) as [sl s'|e s'|r| |] eqn:E; try reflexivity. destruct (get_slot_ret _ _ _ _ E) as [-> Hn].
    destruct sl as [| |a]; try reflexivity. simpl. unfold bind, a_get, live_cell. destruct (nth_error (heap s) a) as [c|]; [|reflexivity].
    destruct (c_live c); [|reflexivity]. cbn [ret fst snd].
    destruct (alloc (clone (c_val c)) s) as [b s1|e s1|r| |]; try reflexivity.
    destruct (get_slot h s1) as [old s2|e s2|r| |]; try reflexivity. simpl. unfold bind. simpl. apply seq_release.
  Qed.
  Lemma seq_copy d k (s : hst) : inv [] s -> cexec (c_copy d k) s = h_copy d k s.
  Proof.
    intros Hi. unfold c_copy, h_copy. seqs. apply bind_ext; [reflexivity|]. intros x s' E. apply fresh_ret in E as ->.
    seqs. apply bind_ext; [reflexivity|]. intros sl s' E. destruct (get_slot_ret _ _ _ _ E) as [-> Hn].
    rewrite cexec_bind. apply bind_ext; [apply seq_acquire; eauto|]. intros x' s' E'. reflexivity.
  Qed.
  Lemma make_unique_inv h (s : hst) x s1 : inv [] s -> make_unique clone h s = Ret x s1 -> inv [] s1.
  Proof.
    intros Hi Em. destruct (get_slot h s) as [sl s'|e s'|r| |] eqn:E.
    2-5: unfold make_unique, bind in Em; rewrite E in Em; discriminate.
    destruct (get_slot_ret _ _ _ _ E) as [-> Hn]. destruct sl as [| |a].
    1,2: unfold make_unique, bind in Em; rewrite E in Em; discriminate.
    destruct (inv_val _ _ _ _ Hi Hn) as (c & Hc & Hlc & Hl & Hv).
    destruct (sched_cases s) as [Hs|(sc & Hs)].
    - destruct (make_unique_ok clone h s a (c_val c) Hi Hn Hv Hs) as (s' & E' & Hnew & _).
      rewrite E' in Em. injection Em as _ <-. apply (new_inv _ _ _ _ Hnew).
    - rewrite (make_unique_fail clone h s a sc Hi Hn Hs) in Em. discriminate.
  Qed.
  Lemma seq_hop (o : hop) (s : hst) : inv [] s -> cexec (c_hop o) s = hstep o s.
  Proof.
    intros Hi. destruct o as [d v|d|d k|d k|d k|d k|d|h|h f|d k|d k t|d k t]; cbn [ThreadModel.c_hop HandleModel.hstep].
    - rewrite cexec_bind. apply bind_ext; [|reflexivity]. unfold c_new, h_new. seqs. apply bind_ext; [reflexivity|].
      intros. seqs. apply bind_ext; [reflexivity|]. intros. reflexivity.
    - rewrite cexec_bind. apply bind_ext; [|reflexivity]. unfold c_null, h_null. seqs. apply bind_ext; reflexivity.
    - rewrite cexec_bind. apply bind_ext; [|reflexivity]. apply seq_copy. exact Hi.
    - rewrite cexec_bind. apply bind_ext; [|reflexivity]. unfold c_move, h_move. seqs. apply bind_ext; [reflexivity|].
      intros. seqs. apply bind_ext; [reflexivity|]. intros. reflexivity.
    - rewrite cexec_bind. apply bind_ext; [|reflexivity]. unfold c_assign, h_assign. seqs. apply bind_ext; [reflexivity|].
      intros sl s' E. destruct (get_slot_ret _ _ _ _ E) as [-> Hn]. rewrite cexec_bind. apply bind_ext; [apply seq_acquire; eauto|].
      intros ? s' _. seqs. apply bind_ext; [reflexivity|]. intros old s2 _. seqs. apply bind_ext; [reflexivity|]. intros. apply seq_release.
    - rewrite cexec_bind. apply bind_ext; [|reflexivity]. unfold c_move_assign, h_move_assign. seqs. apply bind_ext; [reflexivity|].
      intros sl s' E. seqs. apply bind_ext; [reflexivity|].
      intros ? s2 _. seqs. apply bind_ext; [reflexivity|]. intros old s3 _. seqs. apply bind_ext; [reflexivity|]. intros. apply seq_release.
    - rewrite cexec_bind. apply bind_ext; [|reflexivity]. unfold c_destroy, h_destroy. seqs. apply bind_ext; [reflexivity|].
      intros sl s' E. seqs. apply bind_ext; [reflexivity|]. intros. apply seq_release.
    - rewrite cexec_bind. unfold bind. rewrite (seq_const_access h s Hi). pose proof (const_access_inv h s Hi) as Hc.
      destruct (const_access h s) as [[b c] s'|e s'|r| |]; try reflexivity. destruct Hc as (-> & _ & Hb & Hl). simpl.
      unfold bind, a_get, live_cell. rewrite Hb, Hl. reflexivity.
    - unfold c_access, access. rewrite cexec_bind. unfold bind at 1. rewrite cexec_bind. unfold bind at 1. rewrite seq_make_unique.
      unfold bind at 1 2. destruct (make_unique clone h s) as [x s1|e s1|r| |] eqn:Em; try reflexivity.
      pose proof (make_unique_inv _ _ _ _ Hi Em) as Hi1.
      rewrite (seq_const_access h s1 Hi1). destruct (const_access h s1) as [[b c] s'|e s'|r| |]; try reflexivity.
    - rewrite cexec_bind. apply bind_ext; [|reflexivity]. unfold c_managed, h_managed. seqs. apply bind_ext; [reflexivity|].
      intros x s' E. apply fresh_ret in E as ->. rewrite cexec_bind. apply bind_ext; [apply seq_make_unique|].
      intros x' s1 Em. apply seq_copy. rewrite seq_make_unique in Em. exact (make_unique_inv _ _ _ _ Hi Em).
    - rewrite cexec_bind. apply bind_ext; [|reflexivity]. unfold c_cast, handle_cast. seqs. apply bind_ext; [reflexivity|].
      intros x s' E. apply fresh_ret in E as ->. seqs. apply bind_ext; [reflexivity|]. intros sl s' E. destruct (get_slot_ret _ _ _ _ E) as [-> Hn].
      destruct sl as [| |a]; try reflexivity. destruct (inv_val _ _ _ _ Hi Hn) as (c & Hc & Hlc & _).
      simpl. unfold bind, a_get. rewrite Hlc. destruct (dynamic_cast subobjs (dyn (c_val c)) t); [apply seq_copy; exact Hi|reflexivity].
    - rewrite cexec_bind. apply bind_ext; [|reflexivity]. unfold c_pointer_extract, pointer_extract. seqs. apply bind_ext; [reflexivity|].
      intros x s' E. apply fresh_ret in E as ->. seqs. apply bind_ext; [reflexivity|]. intros sl s' E. destruct (get_slot_ret _ _ _ _ E) as [-> Hn].
      destruct sl as [| |a]; try reflexivity. destruct (inv_val _ _ _ _ Hi Hn) as (c & Hc & Hlc & _).
      simpl. unfold bind, a_get. rewrite Hlc. destruct (extract_from subobjs wrapper inner (dyn (c_val c)) t); [apply seq_copy; exact Hi|reflexivity].
  Qed.
  Lemma seq_reachable (o : hop) (s : hst) : reachable clone dyn subobjs wrapper inner s -> cexec (c_hop o) s = hstep o s.
  Proof. intros Hr. apply seq_hop. exact (reachable_inv clone dyn subobjs wrapper inner clone_ok s Hr). Qed.
End Proofs.
