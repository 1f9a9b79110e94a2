(** MaskProofs.v -- lemmas about MaskModel. *)
From Verif Require Import Base StreamModel StlioModel StlioSpec StlioProofs WordModel WordSpec WordProofs MaskModel MaskSpec.

Lemma hit_good m s : i_good s = true -> hit m s = false.
Proof.
  unfold i_good, hit. destruct (i_eof s), (i_fail s), (i_bad s); try discriminate. intros _.
  rewrite !andb_false_r. reflexivity.
Qed.
Lemma hit_fail m s : m_fail m = true -> i_fail s = true -> hit m s = true.
Proof. unfold hit. intros -> ->. rewrite orb_true_r. reflexivity. Qed.
Lemma hit_none s : hit no_mask s = false.
Proof. reflexivity. Qed.
Lemma good_clear s : i_good s = true -> clear_eof s = s.
Proof. destruct s as [b a [] f bd al]; [discriminate|reflexivity]. Qed.

Lemma chk_ret {A} m (f : M istream A) s x s' : f s = Ret x s' -> i_good s' = true -> chk m f s = Ret x s'.
Proof. intros H Hg. unfold chk. rewrite H, (hit_good m s' Hg). reflexivity. Qed.
Lemma chk_tame {T} m (rd : M istream T) : tame rd -> mtame (chk m rd).
Proof.
  intros H s. unfold chk. destruct (H s) as (x & s' & t & -> & Hm & Hf). destruct (hit m s'); eauto.
Qed.

(** putting back the character just read *)
Lemma xputback_last m s w c r : i_good s = true ->
  xputback m c (advance (w ++ [c]) r s) = Ret tt (advance w (c :: r) s).
Proof.
  intros Hg. unfold xputback. rewrite good_clear by exact Hg. rewrite hit_good by exact Hg.
  apply chk_ret; [apply putback_last; exact Hg|exact Hg].
Qed.

(** ** A successful read does not notice the mask *)

Section Success.
  Context {T : Type} (m : mask) (rd0 rdx : M istream T) (op cl sep : ascii).
  Hypothesis Hfol : follows rd0 rdx.
  Hypothesis Hkeep : keeps_failed rd0.
  Hypothesis Hoc : op <> cl.
  Hypothesis Hsc : sep <> cl.

  Lemma xread_loop_follows fuel : forall s ch acc v s',
    i_good s = true ->
    read_loop rd0 cl sep fuel (Some ch) acc s = Ret v s' ->
    xread_loop m rdx cl sep fuel (Some ch) (s, acc) = Ret tt (s', v) /\ i_good s' = true.
  Proof.
    induction fuel as [|fuel IH]; intros s ch acc v s' Hg H; [discriminate|].
    cbn [read_loop xread_loop] in *. unfold read_var in H. unfold use_var. destruct (Ascii.eqb ch cl).
    - injection H as <- <-. split; [reflexivity|exact Hg].
    - cbn [fst snd] in *. destruct (good_eof s Hg) as [He _]. rewrite He in *.
      destruct (Ascii.eqb_spec ch sep) as [->|]; cbn [negb] in *; [|discriminate].
      unfold bind at 1 in H. unfold bind at 1, on_stream at 1. cbn [fst snd].
      destruct (rd0 s) as [x s1|e s1| | |] eqn:Hrd; try discriminate.
      destruct (i_failed s1) eqn:Hf1; [discriminate|]. unfold bind in H.
      destruct (extract_char_cases (Some sep) s1) as [[Hg1 Hx]|[(Hg1 & Hb1 & Hx)|(w & c & r & Hg1 & Ha1 & Hw & Hc & Hx)]];
        rewrite Hx in H.
      + exfalso. assert (He1 : i_eof s1 = true).
        { unfold i_good in Hg1. unfold i_failed in Hf1. apply orb_false_iff in Hf1 as [H1 H2]. rewrite H1, H2 in Hg1.
          destruct (i_eof s1); [reflexivity|discriminate]. }
        destruct fuel as [|fuel]; [discriminate|]. cbn [read_loop] in H. unfold read_var in H.
        destruct (Ascii.eqb_spec sep cl); [contradiction|]. cbn [i_eof set_fail] in H. rewrite He1 in H. discriminate.
      + exfalso. destruct fuel as [|fuel]; [discriminate|]. cbn [read_loop] in H. unfold read_var in H.
        destruct (Ascii.eqb_spec sep cl); [contradiction|]. discriminate.
      + rewrite (Hfol s x s1 Hrd Hg1). cbn [fst snd]. rewrite Hf1. unfold push_var, bind at 1.
        cbn [fst snd]. unfold bind, on_stream. cbn [fst snd].
        rewrite (chk_ret (A:=cvar) m _ s1 (Some c) _ Hx Hg1). apply IH; assumption.
  Qed.
  Lemma xread_sequence_follows s v s' : read_sequence rd0 op cl sep s = Ret v s' ->
    forall v0, xread_sequence m rdx op cl sep (s, v0) = Ret tt (s', v) /\ i_good s' = true.
  Proof.
    intros H v0. unfold read_sequence, bind at 1 in H. unfold xread_sequence, bind at 1, clear_var.
    unfold bind at 1, on_stream at 1. cbn [fst snd].
    destruct (extract_char_cases None s) as [[Hg Hx]|[(Hg & Hb & Hx)|(w & c & r & Hg & Ha & Hw & Hc & Hx)]];
      rewrite Hx in H; try discriminate.
    rewrite (chk_ret (A:=cvar) m _ s (Some c) _ Hx Hg). unfold read_var at 1 in H. unfold use_var at 1.
    destruct (Ascii.eqb_spec c op) as [->|]; cbn [negb] in *; [|discriminate].
    unfold bind at 1 in H. unfold bind at 1, on_stream at 1. cbn [fst snd].
    set (s1 := advance (w ++ [op]) r s) in *. assert (Hg1 : i_good s1 = true) by exact Hg.
    destruct (extract_char_cases (Some op) s1) as [[Hg2 Hx2]|[(Hg2 & Hb2 & Hx2)|(w1 & c1 & r1 & Hg2 & Ha2 & Hw1 & Hc1 & Hx2)]];
      rewrite Hx2 in H.
    - congruence.
    - exfalso. unfold read_var at 1, bind at 1 in H. destruct (Ascii.eqb_spec op cl); [contradiction|].
      unfold bind at 1, ret in H. set (s2 := set_fail (set_eof (advance (i_after s1) [] s1))) in *.
      rewrite putback_failed in H by reflexivity. cbn [read_loop] in H. unfold read_var in H.
      destruct (Ascii.eqb_spec sep cl); [contradiction|].
      change (i_eof (set_fail (clear_eof s2))) with false in H. cbv iota in H. rewrite Ascii.eqb_refl in H. cbn [negb] in H.
      unfold bind at 1 in H. destruct (rd0 (set_fail (clear_eof s2))) as [x s4|e s4| | |] eqn:Hrd; try discriminate.
      rewrite (Hkeep _ _ _ Hrd eq_refl) in H. discriminate.
    - rewrite (chk_ret (A:=cvar) m _ s1 (Some c1) _ Hx2 Hg1). unfold read_var at 1, bind at 1 in H.
      unfold use_var at 1, bind at 1. destruct (Ascii.eqb_spec c1 cl) as [->|Hcc].
      + unfold ret at 1 in H. unfold ret at 1. cbn [fst snd].
        apply xread_loop_follows; [exact Hg1|exact H].
      + unfold bind at 1 in H. unfold bind at 1, on_stream at 1. cbn [fst snd].
        rewrite (putback_last s1 w1 c1 r1 Hg1) in H. rewrite (xputback_last m s1 w1 c1 r1 Hg1).
        unfold ret at 1 in H. unfold ret at 1. cbn [fst snd].
        apply xread_loop_follows; [exact Hg1|exact H].
  Qed.
End Success.

(** ** Arbitrary input *)
Section AnyInput.
  Context {T : Type} (m : mask) (rd : M istream T) (op cl sep : ascii).
  Hypothesis Htame : mtame rd.
  Hypothesis Hoc : op <> cl.
  Hypothesis Hsc : sep <> cl.

  (** continuing a list begun *)
  Definition extends (v' : list T) (u : text) : Prop := v' = [] \/ firsts rd sep v' u.

  Lemma xread_loop_total fuel : forall s ch acc,
    (if i_eof s then 1 else 2 + length (i_after s)) <= fuel ->
    match xread_loop m rd cl sep fuel (Some ch) (s, acc) with
    | Ret _ (s', v) => (ch = cl /\ v = acc /\ s' = s) \/
                  (ch = sep /\ exists v' u, v = acc ++ v' /\ moved s u s' /\ items rd cl sep v' u)
    | Exc e (s', v) => e = EIosFailure /\ exists v' u, v = acc ++ v' /\ moved s u s' /\ extends v' u /\ (v' <> [] -> ch = sep)
    | _ => False
    end.
  Proof.
    induction fuel as [|fuel IH]; intros s ch acc Hfuel; [destruct (i_eof s); simpl in Hfuel; lia|].
    assert (Hnow : EIosFailure = EIosFailure /\
       exists v' u, acc = acc ++ v' /\ moved s u s /\ extends v' u /\ (v' <> [] -> ch = sep)).
    { split; [reflexivity|]. exists [], []. rewrite app_nil_r. split; [reflexivity|]. split; [apply moved_refl|].
      split; [left; reflexivity|congruence]. }
    cbn [xread_loop]. unfold use_var. destruct (Ascii.eqb_spec ch cl) as [->|Hch].
    - unfold ret. left. auto.
    - cbn [fst snd]. destruct (i_eof s) eqn:He; [exact Hnow|].
      destruct (Ascii.eqb_spec ch sep) as [->|Hse]; cbn [negb]; [|exact Hnow].
      unfold bind at 1, on_stream at 1. cbn [fst snd]. pose proof (Htame s) as Hrd.
      destruct (rd s) as [x s1|e s1| | |] eqn:Hr; try contradiction.
      2:{ destruct Hrd as (-> & t & Hm). split; [reflexivity|]. exists [], t. rewrite app_nil_r.
          split; [reflexivity|]. split; [exact Hm|]. split; [left; reflexivity|congruence]. }
      destruct Hrd as ((t & Hm1) & _). cbn [fst snd].
      destruct (i_failed s1) eqn:Hf1.
      { split; [reflexivity|]. exists [], t. rewrite app_nil_r. split; [reflexivity|]. split; [exact Hm1|].
        split; [left; reflexivity|congruence]. }
      assert (Hy : yields rd x t) by (exists s, s1; auto).
      pose proof (moved_length _ _ _ Hm1) as Hlen.
      unfold push_var, bind at 1. cbn [fst snd]. unfold bind, on_stream. cbn [fst snd].
      assert (Hone : forall s2 u2, moved s1 u2 s2 -> EIosFailure = EIosFailure /\
        exists v' u, acc ++ [x] = acc ++ v' /\ moved s u s2 /\ extends v' u /\ (v' <> [] -> sep = sep)).
      { intros s2 u2 Hm2. split; [reflexivity|]. exists [x], (t ++ u2). split; [reflexivity|].
        split; [eapply moved_trans; eassumption|]. split; [right; constructor; exact Hy|reflexivity]. }
      unfold chk.
      destruct (extract_char_cases (Some sep) s1) as [[Hg1 Hx]|[(Hg1 & Hb1 & Hx)|(w & c & r & Hg1 & Ha1 & Hw & Hc & Hx)]];
        rewrite Hx.
      + assert (He1 : i_eof s1 = true).
        { unfold i_good in Hg1. unfold i_failed in Hf1. apply orb_false_iff in Hf1 as [H1 H2]. rewrite H1, H2 in Hg1.
          destruct (i_eof s1); [reflexivity|discriminate]. }
        assert (Hm2 : moved s1 [] (set_fail s1)) by exact (moved_refl s1).
        destruct (hit m (set_fail s1)); [apply (Hone _ [] Hm2)|].
        destruct fuel as [|fuel]; [lia|]. cbn [xread_loop]. unfold use_var.
        destruct (Ascii.eqb_spec sep cl); [contradiction|]. cbn [fst snd i_eof set_fail]. rewrite He1. apply (Hone _ [] Hm2).
      + assert (Hm2 : moved s1 (i_after s1) (set_fail (set_eof (advance (i_after s1) [] s1)))).
        { apply (moved_advance s1 (i_after s1) []). rewrite app_nil_r. reflexivity. }
        destruct (hit m (set_fail (set_eof (advance (i_after s1) [] s1)))); [apply (Hone _ _ Hm2)|].
        destruct fuel as [|fuel]; [lia|]. cbn [xread_loop]. unfold use_var.
        destruct (Ascii.eqb_spec sep cl); [contradiction|]. cbn [fst snd i_eof set_fail set_eof]. apply (Hone _ _ Hm2).
      + rewrite (hit_good m (advance (w ++ [c]) r s1) Hg1).
        specialize (IH (advance (w ++ [c]) r s1) c (acc ++ [x])).
        assert (Hrest : (if i_eof (advance (w ++ [c]) r s1) then 1 else 2 + length (i_after (advance (w ++ [c]) r s1))) <= fuel).
        { cbn [i_eof i_after advance]. rewrite Ha1, app_length in Hlen. simpl in Hlen.
          destruct (i_eof s1); lia. }
        specialize (IH Hrest).
        assert (Hm2 : moved s1 (w ++ [c]) (advance (w ++ [c]) r s1)).
        { apply moved_advance. rewrite Ha1, <- app_assoc. reflexivity. }
        destruct (xread_loop m rd cl sep fuel (Some c) (advance (w ++ [c]) r s1, acc ++ [x])) as [[] [s' v]|e [s' v]| | |];
          try exact IH.
        * right. split; [reflexivity|]. destruct IH as [(-> & -> & ->)|(-> & v' & u & -> & Hm3 & Hit)].
          -- exists [x], (t ++ w ++ [cl]). split; [reflexivity|]. split; [eapply moved_trans; eassumption|].
             apply items_last; assumption.
          -- exists (x :: v'), (t ++ w ++ sep :: u). split; [rewrite <- app_assoc; reflexivity|]. split.
             ++ replace (t ++ w ++ sep :: u) with (t ++ (w ++ [sep]) ++ u) by (rewrite <- !app_assoc; reflexivity).
                eapply moved_trans; [exact Hm1|]. eapply moved_trans; [exact Hm2|exact Hm3].
             ++ apply items_cons; assumption.
        * destruct IH as (-> & v' & u & -> & Hm3 & Hex & Hsep). split; [reflexivity|].
          exists (x :: v'), (t ++ (w ++ [c]) ++ u). split; [rewrite <- app_assoc; reflexivity|]. split.
          -- eapply moved_trans; [exact Hm1|]. eapply moved_trans; [exact Hm2|exact Hm3].
          -- split; [|reflexivity]. right. destruct v' as [|y v'].
             ++ apply firsts_last. exact Hy.
             ++ rewrite (Hsep ltac:(discriminate)). rewrite <- app_assoc. simpl. apply firsts_cons; [exact Hy|exact Hw|].
                destruct Hex as [Hex|Hex]; [discriminate|exact Hex].
  Qed.

  Lemma xread_sequence_total s v0 :
    match xread_sequence m rd op cl sep (s, v0) with
    | Ret _ (s', v) => exists t, moved s t s' /\ accepted rd op cl sep v t
    | Exc e (s', v) => e = EIosFailure /\ exists t, moved s t s' /\ begun rd op sep v t
    | Ub r => r = UbUninit /\ m_fail m = false /\ (i_good s = false \/ blank (i_after s) /\ m_eof m = false)
    | Abort | Fuel => False
    end.
  Proof.
    unfold xread_sequence, bind at 1, clear_var. unfold bind at 1, on_stream at 1. cbn [fst snd].
    unfold chk at 1.
    destruct (extract_char_cases None s) as [[Hg Hx]|[(Hg & Hb & Hx)|(w & c & r & Hg & Ha & Hw & Hc & Hx)]]; rewrite Hx.
    - destruct (hit m (set_fail s)) eqn:Hh.
      + split; [reflexivity|]. exists []. split; [exact (moved_refl s)|left; reflexivity].
      + cbn. split; [reflexivity|]. split; [|auto]. destruct (m_fail m) eqn:Hmf; [|reflexivity].
        rewrite (hit_fail m (set_fail s) Hmf eq_refl) in Hh. discriminate.
    - destruct (hit m (set_fail (set_eof (advance (i_after s) [] s)))) eqn:Hh.
      + split; [reflexivity|]. exists (i_after s). split; [|left; reflexivity].
        apply (moved_advance s (i_after s) []). rewrite app_nil_r. reflexivity.
      + cbn. split; [reflexivity|]. unfold hit in Hh. cbn in Hh.
        destruct (m_eof m), (m_fail m); simpl in Hh; try discriminate. auto.
    - rewrite (hit_good m (advance (w ++ [c]) r s) Hg). unfold use_var at 1.
      assert (Hm0 : moved s (w ++ [c]) (advance (w ++ [c]) r s)).
      { apply moved_advance. rewrite Ha, <- app_assoc. reflexivity. }
      destruct (Ascii.eqb_spec c op) as [->|Hop]; cbn [negb].
      2:{ unfold throw. split; [reflexivity|]. eexists. split; [exact Hm0|left; reflexivity]. }
      unfold bind at 1, on_stream at 1. cbn [fst snd]. set (s1 := advance (w ++ [op]) r s) in *.
      assert (Hg1 : i_good s1 = true) by exact Hg. unfold chk at 1.
      destruct (extract_char_cases (Some op) s1) as [[Hg2 Hx2]|[(Hg2 & Hb2 & Hx2)|(w1 & c1 & r1 & Hg2 & Ha2 & Hw1 & Hc1 & Hx2)]];
        rewrite Hx2.
      + congruence.
      + set (s2 := set_fail (set_eof (advance (i_after s1) [] s1))).
        assert (Hm2 : moved s ((w ++ [op]) ++ i_after s1) s2).
        { eapply moved_trans; [exact Hm0|]. apply (moved_advance s1 (i_after s1) []). rewrite app_nil_r. reflexivity. }
        assert (Hdone : EIosFailure = EIosFailure /\ exists t, moved s t s2 /\ begun rd op sep (@nil T) t).
        { split; [reflexivity|]. eexists. split; [exact Hm2|left; reflexivity]. }
        destruct (hit m s2); [exact Hdone|]. unfold use_var at 1, bind at 1.
        destruct (Ascii.eqb_spec op cl); [contradiction|].
        unfold bind at 1, on_stream at 1. cbn [fst snd]. unfold xputback.
        destruct (hit m (clear_eof s2)); [exact Hdone|]. unfold chk.
        rewrite putback_failed by reflexivity.
        destruct (hit m (set_fail (clear_eof s2))); [exact Hdone|]. unfold ret.
        set (s3 := set_fail (clear_eof s2)) in *.
        assert (Hm3 : moved s ((w ++ [op]) ++ i_after s1) s3) by exact Hm2.
        cbn [fst snd xread_loop]. unfold use_var. destruct (Ascii.eqb_spec sep cl); [contradiction|].
        change (i_eof s3) with false. cbv iota. rewrite Ascii.eqb_refl. cbn [negb]. unfold bind at 1, on_stream at 1.
        cbn [fst snd]. pose proof (Htame s3) as Hrd. destruct (rd s3) as [x s4|e s4| | |]; try contradiction.
        * destruct Hrd as ((t & Hm4) & Hf). cbn [fst snd]. rewrite (Hf eq_refl).
          split; [reflexivity|]. eexists. split; [eapply moved_trans; eassumption|left; reflexivity].
        * destruct Hrd as (-> & t & Hm4). split; [reflexivity|]. eexists. split; [eapply moved_trans; eassumption|left; reflexivity].
      + rewrite (hit_good m (advance (w1 ++ [c1]) r1 s1) Hg2). unfold use_var at 1, bind at 1. destruct (Ascii.eqb_spec c1 cl) as [->|Hcc].
        * unfold ret at 1. cbn [fst snd xread_loop]. unfold use_var. rewrite Ascii.eqb_refl. unfold ret.
          exists ((w ++ [op]) ++ w1 ++ [cl]). split.
          -- eapply moved_trans; [exact Hm0|]. apply moved_advance. rewrite Ha2, <- app_assoc. reflexivity.
          -- exists w, w1, [cl]. split; [exact Hw|]. split; [exact Hw1|]. split; [rewrite <- app_assoc; reflexivity|auto].
        * unfold bind at 1, on_stream at 1. cbn [fst snd]. rewrite (xputback_last m s1 w1 c1 r1 Hg1). unfold ret.
          cbn [fst snd]. set (s2 := advance w1 (c1 :: r1) s1).
          assert (Hfu : (if i_eof s2 then 1 else 2 + length (i_after s2)) <= S (S (length (i_after s2)))).
          { destruct (i_eof s2); lia. }
          pose proof (xread_loop_total _ s2 sep [] Hfu) as Hloop.
          assert (Hm2 : moved s ((w ++ [op]) ++ w1) s2).
          { eapply moved_trans; [exact Hm0|]. apply moved_advance. exact Ha2. }
          destruct (xread_loop m rd cl sep (S (S (length (i_after s2)))) (Some sep) (s2, [])) as [[] [s' v]|e [s' v]| | |];
            try exact Hloop; try contradiction.
          -- destruct Hloop as [(Hs & _)|(_ & v' & u & -> & Hm & Hit)]; [contradiction|].
             exists ((w ++ [op]) ++ w1 ++ u). split.
             ++ rewrite app_assoc. eapply moved_trans; eassumption.
             ++ exists w, w1, u. split; [exact Hw|]. split; [exact Hw1|]. split; [rewrite <- app_assoc; reflexivity|auto].
          -- destruct Hloop as (-> & v' & u & -> & Hm & Hex & _). split; [reflexivity|].
             exists ((w ++ [op]) ++ w1 ++ u). split; [rewrite app_assoc; eapply moved_trans; eassumption|].
             destruct Hex as [->|Hex]; [left; reflexivity|]. right.
             exists w, w1, u. split; [exact Hw|]. split; [exact Hw1|]. split; [rewrite <- app_assoc; reflexivity|exact Hex].
  Qed.
End AnyInput.

(** ** Readers *)
Lemma follows_chk {T} m (rd : M istream T) : follows rd (chk m rd).
Proof. intros s x s' H Hg. apply chk_ret; assumption. Qed.
Lemma tame_keeps {T} (rd : M istream T) : tame rd -> keeps_failed rd.
Proof. intros H s x s' Hr Hf. destruct (H s) as (y & s1 & t & H1 & _ & H2). rewrite H1 in Hr. injection Hr as <- <-. auto. Qed.

Lemma xread_sequence_failed {T} m (rd : M istream T) op cl sep s v0 : m_fail m = true -> i_good s = false ->
  xread_sequence m rd op cl sep (s, v0) = Exc EIosFailure (set_fail s, []).
Proof.
  intros Hm Hg. unfold xread_sequence, bind at 1, clear_var. unfold bind at 1, on_stream at 1. cbn [fst snd].
  unfold chk at 1. destruct (extract_char_cases None s) as [[_ Hx]|[(Hg' & _)|(w & c & r & Hg' & _)]]; try congruence.
  rewrite Hx, hit_fail by (exact Hm || reflexivity). reflexivity.
Qed.
Lemma local_mtame {T} m (rd : M istream T) : m_fail m = true -> mtame rd -> mtame (local (xread_vector m rd)).
Proof.
  intros Hm Ht s. unfold local.
  pose proof (xread_sequence_total m rd "[" "]" "," Ht ltac:(discriminate) ltac:(discriminate) s []) as H.
  unfold xread_vector in *. destruct (xread_sequence m rd "[" "]" "," (s, [])) as [[] [s' v]|e [s' v]| | |] eqn:Hx; cbn [fst snd].
  - destruct H as (t & Hmv & _). split; [eauto|]. intros Hf. exfalso.
    rewrite xread_sequence_failed in Hx by (exact Hm || apply failed_good; exact Hf). discriminate.
  - destruct H as (-> & t & Hmv & _). eauto.
  - destruct H as (_ & H & _). congruence.
  - contradiction.
  - contradiction.
Qed.
Lemma mnest_mtame m lo hi n : m_fail m = true -> mtame (mnest_read m lo hi n).
Proof.
  intros Hm. induction n as [|n IH].
  - apply chk_tame, tame_int.
  - apply local_mtame; assumption.
Qed.
Lemma local_follows {T} m (rd0 rdx : M istream T) : follows rd0 rdx -> keeps_failed rd0 ->
  follows (read_vector rd0) (local (xread_vector m rdx)).
Proof.
  intros Hf Hk s v s' H _. unfold local, xread_vector.
  destruct (xread_sequence_follows m rd0 rdx "[" "]" "," Hf Hk ltac:(discriminate) ltac:(discriminate) s v s' H []) as [-> _].
  reflexivity.
Qed.
Lemma vector_keeps {T} (rd : M istream T) : keeps_failed (read_vector rd).
Proof.
  intros s x s' H Hf. unfold read_vector in H.
  rewrite read_sequence_blank in H by (left; apply failed_good; exact Hf). discriminate.
Qed.
Lemma nest_follows m lo hi n : follows (nest_read lo hi n) (mnest_read m lo hi n) /\ keeps_failed (nest_read lo hi n).
Proof.
  induction n as [|n [IH1 IH2]].
  - split; [apply follows_chk|]. apply tame_keeps, tame_int.
  - split; [apply local_follows; assumption|]. apply vector_keeps.
Qed.

(** C98 *)
Lemma success_same {T} (m : mask) (rd0 rdx : M istream T) (s : istream) (v : list T) (s' : istream) :
  follows rd0 rdx -> keeps_failed rd0 -> read_vector rd0 s = Ret v s' ->
  forall v0, xread_vector m rdx (s, v0) = Ret tt (s', v) /\ i_good s' = true.
Proof. intros H1 H2 H v0. eapply xread_sequence_follows; eauto; discriminate. Qed.
Lemma vector_total {T} (m : mask) (rd : M istream T) (s : istream) (v0 : list T) : mtame rd ->
  match xread_vector m rd (s, v0) with
  | Ret _ (s', v) => exists t, moved s t s' /\ accepted rd "[" "]" "," v t
  | Exc e (s', v) => e = EIosFailure /\ exists t, moved s t s' /\ begun rd "[" "," v t
  | Ub r => r = UbUninit /\ m_fail m = false /\ (i_good s = false \/ blank (i_after s) /\ m_eof m = false)
  | Abort | Fuel => False
  end.
Proof. intros H. apply xread_sequence_total; [exact H|discriminate|discriminate]. Qed.
Lemma readers_mtame :
  (forall m lo hi, mtame (mread_int m lo hi)) /\ (forall m, mtame (mread_bool m)) /\ (forall m, mtame (mread_string m)) /\
  (forall m lo hi n, m_fail m = true -> mtame (mnest_read m lo hi n)).
Proof.
  repeat split; intros.
  - apply chk_tame, tame_int.
  - apply chk_tame, tame_bool.
  - apply chk_tame, tame_string.
  - apply mnest_mtame. assumption.
Qed.
Lemma nests_read_back (m : mask) (lo hi : Z) (n : nat) (v : list (nest n)) (alpha : bool) : nest_ok lo hi (S n) v ->
  forall s rest v0, i_good s = true -> i_boolalpha s = alpha ->
    i_after s = o_text (nest_print (S n) v (mkO [] alpha)) ++ rest ->
    exists s', xread_vector m (mnest_read m lo hi n) (s, v0) = Ret tt (s', v) /\ i_good s' = true /\ i_after s' = rest.
Proof.
  intros Hv s rest v0 Hg Hal Ha.
  destruct (printed_nests_read_back lo hi n v alpha Hv s rest Hg Hal Ha) as (s' & H1 & H2 & H3).
  destruct (nest_follows m lo hi n) as [Hf Hk].
  destruct (success_same m _ _ s v s' Hf Hk H1 v0) as [H4 _]. eauto.
Qed.
Lemma bools_read_back_masked (m : mask) (v : list bool) (alpha : bool) :
  forall s rest v0, i_good s = true -> i_boolalpha s = alpha ->
    i_after s = o_text (print_vector print_bool v (mkO [] alpha)) ++ rest ->
    exists s', xread_vector m (mread_bool m) (s, v0) = Ret tt (s', v) /\ i_good s' = true /\ i_after s' = rest.
Proof.
  intros s rest v0 Hg Hal Ha.
  destruct (printed_bools_read_back v alpha s rest Hg Hal Ha) as (s' & H1 & H2 & H3).
  destruct (success_same m _ _ s v s' (follows_chk m read_bool) (tame_keeps _ tame_bool) H1 v0) as [H4 _]. eauto.
Qed.

(** ** Words *)
Lemma xword_loop_stop m b : forall d acc s fuel c r, i_good s = true -> i_after s = bits_text b ++ c :: r ->
  is_bit c = false -> length b + 1 < fuel ->
  xword_loop m fuel (bit_char d) (s, acc) = Ret tt (advance (bits_text b) (c :: r) s, acc ++ d :: b).
Proof.
  induction b as [|d' b IH]; intros d acc s fuel c r Hg Ha Hc Hf; (destruct fuel as [|fuel]; [lia|]);
    cbn [xword_loop]; cbn [fst snd]; rewrite (not_good_failed s Hg), is_bit_char; cbn [negb andb]; unfold bind at 1, push_var;
    unfold bind, on_stream; cbn [fst snd]; rewrite bit_char_value.
  - simpl in Ha. rewrite (chk_ret (A:=cvar) m _ s _ _ (get_char_at _ s c r Hg Ha) Hg). unfold use_var.
    destruct fuel as [|fuel]; [simpl in Hf; lia|].
    cbn [xword_loop]. rewrite Hc, andb_false_r. unfold on_stream. cbn [fst snd].
    change (advance [c] r s) with (advance ([] ++ [c]) r s). rewrite (xputback_last m s [] c r Hg). reflexivity.
  - simpl in Ha. rewrite (chk_ret (A:=cvar) m _ s _ _ (get_char_at _ s _ _ Hg Ha) Hg). unfold use_var.
    rewrite (IH d' _ (advance [bit_char d'] (bits_text b ++ c :: r) s) fuel c r Hg eq_refl Hc) by (simpl in Hf; lia).
    rewrite <- app_assoc, advance_advance. reflexivity.
Qed.
Lemma xword_loop_end m b : forall d acc s fuel, i_good s = true -> i_after s = bits_text b -> length b + 1 < fuel ->
  exists s', moved s (bits_text b) s' /\ i_failed s' = true /\ i_after s' = [] /\
    xword_loop m fuel (bit_char d) (s, acc) =
      if m_eof m || m_fail m then Exc EIosFailure (s', acc ++ d :: b) else Ret tt (s', acc ++ d :: b).
Proof.
  induction b as [|d' b IH]; intros d acc s fuel Hg Ha Hf; (destruct fuel as [|fuel]; [lia|]);
    cbn [xword_loop]; cbn [fst snd]; rewrite (not_good_failed s Hg), is_bit_char; cbn [negb andb]; unfold bind at 1, push_var;
    unfold bind, on_stream; cbn [fst snd]; rewrite bit_char_value.
  - simpl in Ha. unfold chk at 1. rewrite (get_char_end _ s Hg Ha).
    assert (Hh : hit m (set_fail (set_eof s)) = m_eof m || m_fail m).
    { unfold i_good in Hg. unfold hit. cbn. destruct (i_bad s); [destruct (i_eof s), (i_fail s); discriminate|].
      rewrite !andb_true_r, andb_false_r, orb_false_r. reflexivity. }
    rewrite Hh. destruct (m_eof m || m_fail m) eqn:Hm.
    + exists (set_fail (set_eof s)). split; [exact (moved_refl s)|]. auto.
    + unfold use_var. destruct fuel as [|fuel]; [simpl in Hf; lia|]. cbn [xword_loop]. cbn [fst snd].
      change (i_failed (set_fail (set_eof s))) with true. cbn [negb andb]. unfold on_stream. cbn [fst snd].
      apply orb_false_iff in Hm as [Hme Hmf]. unfold xputback, chk.
      assert (Hno : forall s1, i_bad s1 = false -> hit m s1 = false).
      { intros s1 Hb. unfold hit. rewrite Hme, Hmf, Hb, andb_false_r. reflexivity. }
      assert (Hb : i_bad s = false).
      { unfold i_good in Hg. destruct (i_bad s); [destruct (i_eof s), (i_fail s); discriminate|reflexivity]. }
      rewrite Hno by exact Hb. rewrite putback_failed by reflexivity. rewrite Hno by exact Hb.
      exists (set_fail (clear_eof (set_fail (set_eof s)))).
      split; [exact (moved_refl s)|]. split; [reflexivity|]. split; [exact Ha|reflexivity].
  - simpl in Ha. rewrite (chk_ret (A:=cvar) m _ s _ _ (get_char_at _ s _ _ Hg Ha) Hg). unfold use_var.
    destruct (IH d' (acc ++ [d]) (advance [bit_char d'] (bits_text b) s) fuel Hg eq_refl)
      as (s' & H1 & H2 & H3 & H4); [simpl in Hf; lia|].
    exists s'. rewrite H4, <- app_assoc. split; [|auto].
    change (bits_text (d' :: b)) with ([bit_char d'] ++ bits_text b). eapply moved_trans; [|exact H1].
    apply moved_advance. exact Ha.
Qed.
Lemma xword_loop_any m t d acc s fuel : i_good s = true -> i_after s = t -> length t + 1 < fuel ->
  exists s', moved s (bits_text (leading_bits t)) s' /\
    (xword_loop m fuel (bit_char d) (s, acc) = Ret tt (s', acc ++ d :: leading_bits t) \/
     xword_loop m fuel (bit_char d) (s, acc) = Exc EIosFailure (s', acc ++ d :: leading_bits t)).
Proof.
  intros Hg Ha Hf.
  assert (Hsplit : exists r, t = bits_text (leading_bits t) ++ r /\ (r = [] \/ exists c r', r = c :: r' /\ is_bit c = false)).
  { clear. induction t as [|c t IH]; [exists []; auto|]. simpl.
    destruct (Ascii.eqb_spec c "0") as [->|H0]; [destruct IH as (r & H & Hr); exists r; split; [simpl; rewrite <- H; reflexivity|exact Hr]|].
    destruct (Ascii.eqb_spec c "1") as [->|H1]; [destruct IH as (r & H & Hr); exists r; split; [simpl; rewrite <- H; reflexivity|exact Hr]|].
    exists (c :: t). split; [reflexivity|]. right. exists c, t. split; [reflexivity|]. unfold is_bit.
    rewrite (proj2 (Ascii.eqb_neq c "0") H0), (proj2 (Ascii.eqb_neq c "1") H1). reflexivity. }
  destruct Hsplit as (r & Ht & [->|(c & r' & -> & Hc)]).
  - rewrite app_nil_r in Ht.
    assert (Hl : length t = length (leading_bits t)) by (rewrite Ht at 1; apply bits_text_length).
    destruct (xword_loop_end m (leading_bits t) d acc s fuel Hg) as (s' & H1 & _ & _ & H2); [congruence|lia|].
    exists s'. split; [exact H1|]. rewrite H2. destruct (m_eof m || m_fail m); auto.
  - assert (Hl : length t = length (leading_bits t) + S (length r')).
    { rewrite Ht at 1. rewrite app_length, bits_text_length. reflexivity. }
    exists (advance (bits_text (leading_bits t)) (c :: r') s). split.
    + apply moved_advance. congruence.
    + left. apply xword_loop_stop; [exact Hg|congruence|exact Hc|lia].
Qed.

Lemma xread_word_bits m s w0 t d r : i_good s = true -> blank t -> i_after s = t ++ bit_char d :: r ->
  xread_word m (s, w0) = xword_loop m (S (S (length r))) (bit_char d) (advance (t ++ [bit_char d]) r s, []).
Proof.
  intros Hg Ht Ha. unfold xread_word, bind at 1, clear_var. unfold bind, on_stream at 1. cbn [fst snd].
  rewrite (chk_ret (A:=cvar) m _ s _ _ (extract_char_at None s t (bit_char d) r Hg Ha Ht (bit_char_space d)) Hg).
  unfold use_var. rewrite bit_char_bracket. reflexivity.
Qed.
Lemma word_ends_throws (m : mask) (w : word) (s : istream) (t : text) (w0 : word) :
  m_eof m || m_fail m = true -> w <> [] -> i_good s = true -> blank t -> i_after s = t ++ word_text w ->
  exists s', xread_word m (s, w0) = Exc EIosFailure (s', w) /\ i_after s' = [].
Proof.
  intros Hm Hne Hg Ht Ha. destruct w as [|d w]; [congruence|].
  rewrite (xread_word_bits m s w0 t d (bits_text w) Hg Ht Ha).
  destruct (xword_loop_end m w d [] (advance (t ++ [bit_char d]) (bits_text w) s) (S (S (length (bits_text w)))))
    as (s' & _ & _ & H2 & H3); [exact Hg|reflexivity|rewrite bits_text_length; lia|].
  rewrite H3, Hm. eauto.
Qed.
Lemma word_followed (m : mask) (w : word) (s : istream) (t : text) (c : ascii) (r : text) (w0 : word) :
  w <> [] -> i_good s = true -> blank t -> i_after s = t ++ word_text w ++ c :: r -> is_bit c = false ->
  exists s', xread_word m (s, w0) = Ret tt (s', w) /\ i_good s' = true /\ i_after s' = c :: r.
Proof.
  intros Hne Hg Ht Ha Hc. destruct w as [|d w]; [congruence|].
  rewrite (xread_word_bits m s w0 t d (bits_text w ++ c :: r) Hg Ht Ha).
  rewrite (xword_loop_stop m w d [] _ _ c r); [|exact Hg|reflexivity|exact Hc|].
  2:{ rewrite app_length, bits_text_length. simpl. lia. }
  eexists. split; [reflexivity|]. split; [exact Hg|reflexivity].
Qed.
Lemma word_total (m : mask) (s : istream) (w0 : word) :
  match xread_word m (s, w0) with
  | Ret _ (s', w) => exists t, moved s t s' /\ word_read m w t
  | Exc e (s', w) => e = EIosFailure /\ exists t, moved s t s' /\ word_begun m w t
  | Ub r => r = UbUninit /\ m_fail m = false /\ (i_good s = false \/ blank (i_after s) /\ m_eof m = false)
  | Abort | Fuel => False
  end.
Proof.
  destruct (extract_char_cases None s) as [[Hg Hx]|[(Hg & Hb & Hx)|(b & c & r & Hg & Ha & Hb & Hc & Hx)]].
  - unfold xread_word, bind at 1, clear_var. unfold bind at 1, on_stream at 1. cbn [fst snd]. unfold chk at 1. rewrite Hx.
    destruct (hit m (set_fail s)) eqn:Hh.
    + split; [reflexivity|]. exists []. split; [exact (moved_refl s)|]. right. left. reflexivity.
    + cbn. split; [reflexivity|]. split; [|auto]. destruct (m_fail m) eqn:Hmf; [|reflexivity].
      rewrite (hit_fail m (set_fail s) Hmf eq_refl) in Hh. discriminate.
  - unfold xread_word, bind at 1, clear_var. unfold bind at 1, on_stream at 1. cbn [fst snd]. unfold chk at 1. rewrite Hx.
    destruct (hit m (set_fail (set_eof (advance (i_after s) [] s)))) eqn:Hh.
    + split; [reflexivity|]. exists (i_after s). split; [|right; left; reflexivity].
      apply (moved_advance s (i_after s) []). rewrite app_nil_r. reflexivity.
    + cbn. split; [reflexivity|]. unfold hit in Hh. cbn in Hh.
      destruct (m_eof m), (m_fail m); simpl in Hh; try discriminate. auto.
  - destruct (is_bit c) eqn:Hbit.
    + destruct (is_bit_char_inv c Hbit) as [d ->]. rewrite (xread_word_bits m s w0 b d r Hg Hb Ha).
      destruct (xword_loop_any m r d [] (advance (b ++ [bit_char d]) r s) (S (S (length r)))) as (s' & Hm & Hr);
        [exact Hg|reflexivity|lia|].
      assert (Hmv : moved s (b ++ map bit_char (d :: leading_bits r)) s').
      { replace (b ++ map bit_char (d :: leading_bits r)) with ((b ++ [bit_char d]) ++ bits_text (leading_bits r))
          by (rewrite <- app_assoc; reflexivity).
        eapply moved_trans; [|exact Hm]. apply moved_advance. rewrite Ha, <- app_assoc. reflexivity. }
      destruct Hr as [-> | ->]; cbn [app].
      * eexists. split; [exact Hmv|]. left. eauto.
      * split; [reflexivity|]. eexists. split; [exact Hmv|]. left. eauto.
    + unfold xread_word, bind at 1, clear_var. unfold bind at 1, on_stream at 1. cbn [fst snd].
      rewrite (chk_ret (A:=cvar) m _ s _ _ Hx Hg). unfold use_var at 1. destruct (Ascii.eqb_spec c "[") as [->|Hbr].
      * unfold bind, on_stream. cbn [fst snd]. rewrite (xputback_last m s b "[" r Hg).
        set (s1 := advance b ("["%char :: r) s).
        assert (Hm1 : moved s b s1) by (apply moved_advance; exact Ha).
        pose proof (vector_total m (mread_bool m) s1 [] (chk_tame m _ tame_bool)) as H.
        assert (Hpre : forall w1, blank w1 -> blank b -> blank (b ++ w1)).
        { intros w1 H1 H2. unfold blank in *. rewrite forallb_app, H1, H2. reflexivity. }
        fold (mread_bool m). destruct (xread_vector m (mread_bool m) (s1, [])) as [[] [s' v]|e [s' v]| | |].
        -- destruct H as (t & Hm2 & w1 & w2 & u & Hw1 & Hw2 & Ht & Hu). exists (b ++ t).
           split; [eapply moved_trans; eassumption|]. right. exists (b ++ w1), w2, u.
           split; [apply (Hpre w1); assumption|]. split; [exact Hw2|]. split; [rewrite Ht, <- app_assoc; reflexivity|exact Hu].
        -- destruct H as (-> & t & Hm2 & Hbe). split; [reflexivity|]. exists (b ++ t).
           split; [eapply moved_trans; eassumption|]. right. destruct Hbe as [->|(w1 & w2 & u & Hw1 & Hw2 & Ht & Hu)]; [left; reflexivity|].
           right. exists (b ++ w1), w2, u.
           split; [apply (Hpre w1); assumption|]. split; [exact Hw2|]. split; [rewrite Ht, <- app_assoc; reflexivity|exact Hu].
        -- exfalso. destruct H as (_ & _ & [H|[H _]]); [change (i_good s = false) in H; congruence|]. discriminate.
        -- contradiction.
        -- contradiction.
      * cbn [xword_loop]. rewrite Hbit, andb_false_r. unfold on_stream. cbn [fst snd].
        rewrite (xputback_last m s b c r Hg). exists b. split; [apply moved_advance; exact Ha|].
        left. exists b. rewrite app_nil_r. auto.
Qed.

(** ** Without a mask, the functions of StlioModel.v and WordModel.v *)
Lemma xputback_none c s : xputback no_mask c s = putback c s.
Proof. unfold xputback, chk. destruct (putback c s); reflexivity. Qed.
Lemma chk_none {A} (f : M istream A) s : chk no_mask f s = f s.
Proof. unfold chk. destruct (f s); reflexivity. Qed.
Lemma loop_no_mask {T} (rdx rd : M istream T) cl sep fuel : (forall s, rdx s = rd s) -> forall c s v,
  agree (xread_loop no_mask rdx cl sep fuel c (s, v)) (read_loop rd cl sep fuel c v s).
Proof.
  intros Heq. induction fuel as [|fuel IH]; intros c s v; [reflexivity|]. cbn [xread_loop read_loop].
  destruct c as [ch|]; [|reflexivity]. unfold use_var, read_var. destruct (Ascii.eqb ch cl); [split; reflexivity|].
  cbn [fst snd]. destruct (i_eof s); [split; reflexivity|]. destruct (negb (Ascii.eqb ch sep)); [split; reflexivity|].
  unfold bind at 1, on_stream at 1. cbn [fst snd]. unfold bind at 3. rewrite Heq.
  destruct (rd s) as [x s1|e s1|r| |]; try reflexivity; [|split; reflexivity].
  cbn [fst snd]. destruct (i_failed s1); [split; reflexivity|].
  unfold push_var, bind at 1. cbn [fst snd]. unfold bind, on_stream. cbn [fst snd]. rewrite chk_none.
  destruct (extract_char (Some ch) s1) as [c' s2|e s2|r| |]; try reflexivity; [|split; reflexivity]. apply IH.
Qed.
Lemma sequence_no_mask {T} (rdx rd : M istream T) op cl sep s v0 : (forall s, rdx s = rd s) ->
  agree (xread_sequence no_mask rdx op cl sep (s, v0)) (read_sequence rd op cl sep s).
Proof.
  intros Heq. unfold xread_sequence, read_sequence, bind at 1, clear_var. unfold bind at 1, on_stream at 1. cbn [fst snd].
  rewrite chk_none. unfold bind at 4.
  destruct (extract_char None s) as [c s1|e s1|r| |]; try reflexivity; [|split; reflexivity].
  destruct c as [ch|]; [|reflexivity]. unfold use_var at 1, read_var at 1.
  destruct (negb (Ascii.eqb ch op)); [split; reflexivity|].
  unfold bind at 1, on_stream at 1. cbn [fst snd]. rewrite chk_none. unfold bind at 3.
  destruct (extract_char (Some ch) s1) as [c1 s2|e s2|r| |]; try reflexivity; [|split; reflexivity].
  unfold bind at 1 3. destruct c1 as [ch1|]; [|reflexivity]. unfold use_var at 1, read_var at 1.
  destruct (Ascii.eqb ch1 cl).
  - unfold ret at 1 2. cbn [fst snd]. apply loop_no_mask. exact Heq.
  - unfold bind, on_stream. cbn [fst snd]. rewrite xputback_none.
    destruct (putback ch1 s2) as [[] s3|e s3|r| |]; try reflexivity; [|split; reflexivity].
    unfold ret. cbn [fst snd]. apply loop_no_mask. exact Heq.
Qed.
Lemma word_loop_no_mask fuel : forall symbol s w,
  agree (xword_loop no_mask fuel symbol (s, w)) (word_loop fuel symbol w s).
Proof.
  induction fuel as [|fuel IH]; intros symbol s w; [reflexivity|]. cbn [xword_loop word_loop]. cbn [fst snd].
  destruct (negb (i_failed s) && is_bit symbol).
  - unfold push_var, bind at 1. cbn [fst snd]. unfold bind, on_stream. cbn [fst snd]. rewrite chk_none.
    destruct (get_char (Some symbol) s) as [c s1|e s1|r| |]; try reflexivity; [|split; reflexivity].
    destruct c as [ch|]; [|reflexivity]. apply IH.
  - unfold on_stream, bind. cbn [fst snd]. rewrite xputback_none.
    destruct (putback symbol s) as [[] s1|e s1|r| |]; try reflexivity; split; reflexivity.
Qed.
Lemma word_no_mask s w0 : agree (xread_word no_mask (s, w0)) (read_word s).
Proof.
  unfold xread_word, read_word, bind at 1, clear_var. unfold bind at 1, on_stream at 1. cbn [fst snd].
  rewrite chk_none. unfold bind at 2.
  destruct (extract_char None s) as [c s1|e s1|r| |]; try reflexivity; [|split; reflexivity].
  destruct c as [ch|]; [|reflexivity]. unfold use_var at 1, read_var at 1.
  destruct (Ascii.eqb ch "[").
  - unfold bind, on_stream. cbn [fst snd]. rewrite xputback_none.
    destruct (putback ch s1) as [[] s2|e s2|r| |]; try reflexivity; [|split; reflexivity].
    exact (sequence_no_mask (chk no_mask read_bool) read_bool "[" "]" "," s2 [] (chk_none read_bool)).
  - cbn [fst snd]. apply word_loop_no_mask.
Qed.

(** ** Lists of words *)
Lemma split_bits t : exists r, t = bits_text (leading_bits t) ++ r /\ (r = [] \/ exists c r', r = c :: r' /\ is_bit c = false).
Proof.
  induction t as [|c t IH]; [exists []; auto|]. simpl.
  destruct (Ascii.eqb_spec c "0") as [->|H0]; [destruct IH as (r & H & Hr); exists r; split; [simpl; rewrite <- H; reflexivity|exact Hr]|].
  destruct (Ascii.eqb_spec c "1") as [->|H1]; [destruct IH as (r & H & Hr); exists r; split; [simpl; rewrite <- H; reflexivity|exact Hr]|].
  exists (c :: t). split; [reflexivity|]. right. exists c, t. split; [reflexivity|]. unfold is_bit.
  rewrite (proj2 (Ascii.eqb_neq c "0") H0), (proj2 (Ascii.eqb_neq c "1") H1). reflexivity.
Qed.
Lemma word_same (m : mask) (s : istream) (w : word) (s' : istream) : read_word s = Ret w s' -> i_good s' = true ->
  forall w0, xread_word m (s, w0) = Ret tt (s', w).
Proof.
  intros H Hg' w0.
  destruct (extract_char_cases None s) as [[Hg Hx]|[(Hg & Hb & Hx)|(b & c & r & Hg & Ha & Hb & Hc & Hx)]].
  - rewrite read_word_blank in H by auto. discriminate.
  - rewrite read_word_blank in H by auto. discriminate.
  - destruct (is_bit c) eqn:Hbit.
    + destruct (is_bit_char_inv c Hbit) as [d ->].
      destruct (split_bits r) as (r1 & Hr & [->|(c & r2 & -> & Hnb)]).
      * exfalso. rewrite app_nil_r in Hr.
        destruct (read_word_end (d :: leading_bits r) s b) as (s1 & H1 & H2 & _);
          [discriminate|exact Hg|exact Hb|simpl; rewrite <- Hr; exact Ha|].
        rewrite H1 in H. injection H as <- <-. apply failed_good in H2. congruence.
      * assert (Ha' : i_after s = b ++ bits_text (d :: leading_bits r) ++ c :: r2) by (simpl; rewrite <- Hr; exact Ha).
        rewrite (read_word_stop (d :: leading_bits r) s b c r2 ltac:(discriminate) Hg Hb Ha' Hnb) in H.
        injection H as <- <-. rewrite (xread_word_bits m s w0 b d r Hg Hb Ha).
        rewrite (xword_loop_stop m (leading_bits r) d [] (advance (b ++ [bit_char d]) r s) _ c r2 Hg Hr Hnb).
        -- rewrite advance_advance, <- app_assoc. reflexivity.
        -- rewrite Hr at 2. rewrite app_length, bits_text_length. simpl. lia.
    + destruct (Ascii.eqb_spec c "[") as [->|Hbr].
      * rewrite (read_word_bracket s b r Hg Hb Ha) in H.
        unfold xread_word, bind at 1, clear_var. unfold bind at 1, on_stream at 1. cbn [fst snd].
        rewrite (chk_ret (A:=cvar) m _ s _ _ Hx Hg). unfold use_var at 1. rewrite Ascii.eqb_refl.
        unfold bind, on_stream. cbn [fst snd]. rewrite (xputback_last m s b "[" r Hg).
        apply (success_same m read_bool (chk m read_bool) _ w s' (follows_chk m _) (tame_keeps _ tame_bool) H).
      * rewrite (read_word_other s b c r Hg Hb Ha Hc Hbit Hbr) in H. injection H as <- <-.
        unfold xread_word, bind at 1, clear_var. unfold bind at 1, on_stream at 1. cbn [fst snd].
        rewrite (chk_ret (A:=cvar) m _ s _ _ Hx Hg). unfold use_var at 1.
        rewrite (proj2 (Ascii.eqb_neq c "[") Hbr). cbn [xword_loop]. rewrite Hbit, andb_false_r. unfold on_stream. cbn [fst snd].
        rewrite (xputback_last m s b c r Hg). reflexivity.
Qed.
Lemma word_follows m : follows read_word (local (xread_word m)).
Proof. intros s w s' H Hg. unfold local. rewrite (word_same m s w s' H Hg []). reflexivity. Qed.
Lemma word_keeps : keeps_failed read_word.
Proof.
  intros s x s' H Hf. rewrite read_word_blank in H by (left; apply failed_good; exact Hf). discriminate.
Qed.
Lemma words_read_back_masked (m : mask) (v : list word) (flag alpha : bool) : Forall (fun w => w <> []) v ->
  forall s rest v0, i_good s = true -> i_boolalpha s = alpha ->
    i_after s = o_text (print_vector print_word v (mkO [] flag)) ++ rest ->
    exists s', xread_vector m (local (xread_word m)) (s, v0) = Ret tt (s', v) /\ i_good s' = true /\ i_after s' = rest.
Proof.
  intros Hv s rest v0 Hg Hal Ha.
  destruct (proj1 (printed_words_read_back v flag alpha Hv) s rest Hg Hal Ha) as (s' & H1 & H2 & H3).
  destruct (success_same m _ _ s v s' (word_follows m) word_keeps H1 v0) as [H4 _]. eauto.
Qed.
Lemma no_mask_models :
  (forall (T : Type) (rd : M istream T) op cl sep s v0,
     agree (xread_sequence no_mask (chk no_mask rd) op cl sep (s, v0)) (read_sequence rd op cl sep s)) /\
  (forall s w0, agree (xread_word no_mask (s, w0)) (read_word s)).
Proof.
  split; [|exact word_no_mask]. intros T rd op cl sep s v0. apply sequence_no_mask. apply chk_none.
Qed.
