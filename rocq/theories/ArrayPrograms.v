(** ArrayPrograms.v -- programs over Array variables: supporting lemmas. *)
From Verif Require Import Base ArrayModel ArraySpec ArrayProofs ArrayStep ArrayThms.
Open Scope nat_scope.

Section Programs.
  Context {V : Type} (sz : Z) (dflt : V) (neq : V -> V -> bool) (eq_dec : forall x y : V, {x = y} + {x <> y}).
  Hypothesis sz_pos : (0 < sz)%Z.
  Notation St := (st V).
  Notation sexec := (sexec sz dflt eq_dec).
  Notation run := (run sz dflt neq).

  Lemma slot_contents (s : St) a own l y : nth_error (vars s) a = Some y -> slot_ok sz (heap s) (VArr own l) y -> contents s a = Some l.
  Proof.
    intros Hv Hs. destruct y as [|n p]; [contradiction|]. destruct Hs as [-> Hp]. unfold contents. rewrite Hv. unfold ptr_ok in Hp. destruct own.
    - destruct Hp as (_ & b & -> & Hb). rewrite Hb. cbn [b_freed b_cells nblk negb andb]. rewrite Nat.eqb_refl. reflexivity.
    - destruct Hp as [-> ->]. reflexivity.
  Qed.
  Lemma program_values : (forall x y, neq x y = true <-> x <> y) -> forall n p l m, sexec (vinit n) p = Some (l, m) ->
    exists s', run p (init n) = Ret l s' /\
      (forall a own k, nth_error (store m) a = Some (VArr own k) -> contents s' a = Some k) /\
      (forall a, nth_error (store m) a = Some VDead -> nth_error (vars s') a = Some Dead).
  Proof.
    intros Hneq n p l m H. destruct (run_ok sz dflt neq eq_dec sz_pos Hneq p _ _ _ _ (rep_init sz n) H) as (s' & H1 & H2).
    exists s'. split; [exact H1|]. split.
    - intros a own k Ha. destruct (Forall2_nth _ _ _ _ _ (r_slots _ _ _ H2) Ha) as (y & Hy & Hs). exact (slot_contents s' a own k y Hy Hs).
    - intros a Ha. destruct (Forall2_nth _ _ _ _ _ (r_slots _ _ _ H2) Ha) as (y & Hy & Hs). destruct y; [exact Hy|contradiction].
  Qed.
  Lemma sum_dead (f : vslot V -> nat) l : f VDead = 0 -> Forall (fun x => x = VDead) l -> sum_by f l = 0.
  Proof. intros Hf. induction 1; [reflexivity|]. subst. cbn [sum_by]. rewrite Hf. assumption. Qed.
  Lemma program_balance : (forall x y, neq x y = true <-> x <> y) -> forall n p l m, sexec (vinit n) p = Some (l, m) -> all_destroyed m ->
    exists s', run p (init n) = Ret l s' /\ unreleased s' = lost_blocks m /\ made s' = gone s' + lost_elems m.
  Proof.
    intros Hneq n p l m H Hd. destruct (run_ok sz dflt neq eq_dec sz_pos Hneq p _ _ _ _ (rep_init sz n) H) as (s' & H1 & H2).
    exists s'. split; [exact H1|]. rewrite (r_blocks _ _ _ H2), (r_elems _ _ _ H2).
    rewrite !sum_dead by (reflexivity || exact Hd). lia.
  Qed.

  (** what can be lost *)
  Definition lost (m : vst V) : nat * nat := (lost_blocks m, lost_elems m).
  Lemma try_new_none n : try_new sz n None = Success \/ try_new sz n None = NoMemory.
  Proof. unfold try_new. destruct (2 ^ 63 <=? Z.of_nat n * sz)%Z; auto. Qed.
  Definition keeps (m : vst V) (r : option (out V * vst V)) : Prop := forall x m', r = Some (x, m') -> lost m' = lost m.
  Lemma keeps_none m : keeps m None.
  Proof. intros x m' H. discriminate. Qed.
  Lemma keeps_some m x m' : lost m' = lost m -> keeps m (Some (x, m')).
  Proof. intros E y m1 H. injection H as _ <-. exact E. Qed.
  Lemma build_keeps m d vs : keeps m (s_build sz m d vs None).
  Proof.
    unfold s_build. destruct (is_free m d && sane sz (length vs)); [|apply keeps_none].
    destruct (try_new_none (length vs)) as [-> | ->]; apply keeps_some; reflexivity.
  Qed.
  Lemma fill_keeps m a own l vs : keeps m (s_fill m a own l vs None).
  Proof. apply keeps_some. reflexivity. Qed.
  Lemma resize_keeps m a n l x : keeps m (s_resize sz m a n l x None).
  Proof.
    unfold s_resize. destruct (n =? length l); [apply keeps_some; reflexivity|]. destruct (sane sz n); [|apply keeps_none].
    destruct (try_new_none n) as [-> | ->]; apply keeps_some; reflexivity.
  Qed.
  Lemma replace_keeps m a vs : keeps m (s_replace sz m a vs None).
  Proof.
    unfold s_replace. destruct (sane sz (length vs)); [|apply keeps_none].
    destruct (try_new_none (length vs)) as [-> | ->]; [apply keeps_some; reflexivity|apply keeps_none].
  Qed.
  Lemma assign_keeps m a vs l : keeps m match s_resize sz m a (length vs) l dflt None with
    | Some (ODone, m') => s_fill m' a true (resized (length vs) l dflt) vs (after (S (length vs)) None)
    | r => r end.
  Proof.
    pose proof (resize_keeps m a (length vs) l dflt) as K. destruct (s_resize sz m a (length vs) l dflt None) as [[y m1]|]; [|apply keeps_none].
    pose proof (K y m1 eq_refl) as E. destruct y; try (apply keeps_some; exact E).
  Qed.
  Lemma uninit_keeps m d n : keeps m (sstep sz dflt eq_dec m (OpUninit d n) None).
  Proof.
    cbn [sstep]. destruct (is_free m d && sane sz n); [|apply keeps_none]. destruct (try_new_none 0) as [-> | ->]; [|apply keeps_some; reflexivity].
    destruct (try_new_none n) as [-> | ->]; apply keeps_some; reflexivity.
  Qed.
  Lemma step_keeps m o : may_lose o = false -> keeps m (sstep sz dflt eq_dec m o None).
  Proof.
    intros Ho. destruct o; try discriminate Ho; try apply uninit_keeps; cbn [sstep]; unfold ok, raise, set;
      repeat first
        [ apply keeps_none | apply build_keeps | apply fill_keeps | apply resize_keeps | apply replace_keeps | apply assign_keeps
        | apply keeps_some; reflexivity
        | match goal with |- keeps _ (match ?e with _ => _ end) => destruct e end ].
  Qed.
  Lemma exec_keeps p : forall m l m', Forall (fun of => may_lose (fst of) = false /\ snd of = None) p -> sexec m p = Some (l, m') -> lost m' = lost m.
  Proof.
    induction p as [|[o f] p IH]; intros m l m' Hp H; [injection H as _ <-; reflexivity|]. inversion Hp as [|? ? [H1 H2] H3]; subst. cbn [fst snd] in *. subst f.
    cbn [ArraySpec.sexec] in H. destruct (sstep sz dflt eq_dec m o None) as [[x m1]|] eqn:Hs; [|discriminate].
    destruct (sexec m1 p) as [[l1 m2]|] eqn:He; [|discriminate]. injection H as _ <-.
    rewrite (IH _ _ _ H3 He). exact (step_keeps m o H1 x m1 Hs).
  Qed.
  Lemma program_no_loss : (forall x y, neq x y = true <-> x <> y) -> forall n p l m, sexec (vinit n) p = Some (l, m) -> all_destroyed m ->
    Forall (fun of => may_lose (fst of) = false /\ snd of = None) p ->
    exists s', run p (init n) = Ret l s' /\ unreleased s' = 0 /\ made s' = gone s'.
  Proof.
    intros Hneq n p l m H Hd Hp. destruct (program_balance Hneq n p l m H Hd) as (s' & H1 & H2 & H3). exists s'.
    pose proof (exec_keeps p _ _ _ Hp H) as E. unfold lost in E. cbn [vinit lost_blocks lost_elems] in E. injection E as E1 E2.
    split; [exact H1|]. split; [lia|]. lia.
  Qed.
  (** move assignment *)
  Lemma fits_try n : fits sz n -> try_new sz n None = Success.
  Proof. intros H. unfold try_new, fits in *. destruct (Z.leb_spec (2 ^ 63) (Z.of_nat n * sz)); [lia|reflexivity]. Qed.
  Lemma count_live_all (vs : list V) : count_live (map Some vs) = length vs.
  Proof. unfold count_live. induction vs; [reflexivity|]. cbn [map filter length]. f_equal. exact IHvs. Qed.
  Lemma values_all (vs : list V) : values (map Some vs) = Some vs.
  Proof. induction vs; [reflexivity|]. cbn [map values]. rewrite IHvs. reflexivity. Qed.
  Lemma move_assign_loses : (forall x y, neq x y = true <-> x <> y) -> forall n, fits sz n ->
    exists s', run [(OpSize 0 n, None); (OpDefault 1, None); (OpMoveAssign 0 1, None); (OpDestroy 0, None); (OpDestroy 1, None)] (init 2)
               = Ret [ODone; ODone; ODone; ODone; ODone] s' /\
      vars s' = [Dead; Dead] /\ unreleased s' = 1 /\ made s' = gone s' + n.
  Proof.
    intros Hneq n Hf.
    assert (sexec (vinit 2) [(OpSize 0 n, None); (OpDefault 1, None); (OpMoveAssign 0 1, None); (OpDestroy 0, None); (OpDestroy 1, None)] =
      Some ([ODone; ODone; ODone; ODone; ODone], mkVst [VDead; VDead] 1 n)) as H.
    { unfold vinit. cbn [ArraySpec.sexec sstep]. unfold s_build. rewrite repeat_length.
      cbn [is_free store nth_error repeat]. rewrite (fits_sane sz _ Hf), (fits_try _ Hf). unfold is_free. cbn.
      rewrite count_live_all, repeat_length. reflexivity. }
    destruct (program_balance Hneq 2 _ _ _ H) as (s' & H1 & H2 & H3); [repeat constructor|].
    destruct (program_values Hneq 2 _ _ _ H) as (s2 & H4 & _ & H5). rewrite H1 in H4. injection H4 as <-.
    exists s'. split; [exact H1|]. split; [|auto].
    destruct (run_ok sz dflt neq eq_dec sz_pos Hneq _ _ _ _ _ (rep_init sz 2) H) as (s3 & H6 & H7). rewrite H1 in H6. injection H6 as <-.
    pose proof (r_slots _ _ _ H7) as F. cbn [store] in F. inversion F as [|? y ? ? Hy F1]; subst. inversion F1 as [|? z ? ? Hz F2]; subst.
    inversion F2; subst. destruct y; [|contradiction]. destruct z; [|contradiction]. reflexivity.
  Qed.
  Lemma own_range_program l : 1 < length l -> fits sz (length l) ->
    run [(OpFrom 0 (SList (fun v => v) l), None); (OpAssignRange 0 (SRange (fun v => v) 0 0 1), None)] (init 1) = Ub UbDangling.
  Proof.
    intros Hl Hf. cbn [ArrayModel.run].
    assert (new_var (init 1 : St) 0) as Hd by reflexivity.
    assert (constructs dflt (init 1 : St) 0 (OpFrom 0 (SList (fun v => v) l)) l) as Hc by (constructor; cbn [src_is]; rewrite map_id; reflexivity).
    destruct (constructor_room sz dflt neq sz_pos (init 1) 0 _ l Hd Hc (fits_sane sz _ Hf) eq_refl) as [(s' & H1 & _)|(s' & H1 & H2 & _)].
    - pose proof (constructs_exact sz dflt neq sz_pos (init 1) 0 _ l Hd Hc (fits_sane sz _ Hf)) as E. rewrite H1 in E. unfold built in E.
      cbn [init cd] in E. rewrite (fits_try _ Hf) in E. discriminate.
    - change (mkSt (vars (init 1)) (heap (init 1)) (made (init 1)) (gone (init 1)) None) with (init 1 : St). rewrite H1. unfold bind at 1.
      cbn [exec_op]. unfold done, bind at 1.
      assert (holds (mkSt (vars s') (heap s') (made s') (gone s') None) 0 l) as H2' by exact H2.
      rewrite (assign_range_own sz dflt sz_pos _ 0 l (fun v => v) 0 1 H2' eq_refl); [reflexivity|lia|lia|lia|exact Hf].
  Qed.
End Programs.
