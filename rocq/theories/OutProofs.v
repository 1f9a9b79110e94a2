(** OutProofs.v -- printing to streams that fail. *)
From Verif Require Import Base StreamModel StlioModel StlioSpec StlioProofs WordModel MaskModel OutModel OutSpec.
Local Open Scope monad_scope.

Section Sends.
  Context (E : env).

  Lemma filled_pad w t : filled E w t (pad E w t).
  Proof.
    unfold filled, pad. split.
    - destruct (e_left E); rewrite app_length, repeat_length; lia.
    - exists (w - List.length t). reflexivity.
  Qed.
  Lemma filled_0 t t' : filled E 0 t t' -> t' = t.
  Proof.
    intros [H [k Hk]]. assert (k = 0) as ->.
    { subst t'. destruct (e_left E); rewrite app_length, repeat_length in H; simpl in H; lia. }
    subst t'. destruct (e_left E); simpl; [apply app_nil_r|reflexivity].
  Qed.
  Lemma shown_0 ps t : shown E 0 ps t -> t = concat ps.
  Proof.
    destruct ps as [|p ps]; simpl; [auto|]. intros [p' [H ->]]. rewrite (filled_0 _ _ H). reflexivity.
  Qed.
  Lemma shown_app w p ps qs t : shown E w (p :: ps) t -> shown E w ((p :: ps) ++ qs) (t ++ concat qs).
  Proof.
    simpl. intros [p' [H ->]]. exists p'. split; [exact H|]. rewrite concat_app, app_assoc. reflexivity.
  Qed.

  Lemma shown_ex w ps : exists t, shown E w ps t.
  Proof. destruct ps as [|p ps]; simpl; [eauto|]. eexists. eexists. split; [apply filled_pad|reflexivity]. Qed.

  Lemma raise_hit s : (forall s', raise E s = Ret tt s' -> s_hit E s' = false) /\ (forall e s', raise E s = Exc e s' -> s_hit E s' = true).
  Proof. unfold raise. destruct (s_hit E s) eqn:H; split; intros; try discriminate; congruence. Qed.
  Lemma good_hit s : s_good s = true -> s_hit E s = false.
  Proof.
    unfold s_good, s_hit. destruct (s_eof s), (s_fail s), (s_bad s); intro H; try discriminate H. now rewrite !andb_false_r.
  Qed.
  Lemma heeds_insert t : heeds E (insert E t) [t].
  Proof.
    intros s. unfold insert. destruct (s_good s) eqn:Hg.
    - set (full := pad E (s_width s) t). destruct (e_dev E (s_text s) full) as [n [e|]].
      + destruct (m_bad (e_mask E)) eqn:Hm.
        * split; [discriminate|]. split; [discriminate|]. intros e' s' [= <- <-]. unfold s_hit, broken. cbn. rewrite Hm. apply orb_true_r.
        * split; [|split; discriminate]. intros H s' [= <-]. unfold s_hit, broken in *. cbn. rewrite Hm in *. exact H.
      + destruct (Nat.ltb n (List.length full)).
        * destruct (raise_hit (broken E (firstn n full) s)) as [H1 H2]. split; [intros _; exact H1|]. split; [discriminate | exact H2].
        * split; [|split; discriminate]. intros H s' [= <-]. exact H.
    - destruct (e_strict E).
      + set (s1 := mkSink _ _ _ _ _ _). destruct (raise_hit s1) as [H1 H2]. split; [intros _; exact H1|]. split; [intros _ _ _; exact H1 | exact H2].
      + split; [|split; discriminate]. intros H s' [= <-]. exact H.
  Qed.
  Lemma heeds_same f : (forall s, exists s', f s = Ret tt s' /\ s_hit E s' = s_hit E s) -> heeds E f [].
  Proof.
    intros H s. destruct (H s) as (s1 & Hr & Hh). rewrite Hr. split; [intros H0 s' [= <-]; congruence|]. split; [congruence | discriminate].
  Qed.
  Lemma heeds_seq (f g : M sink unit) ps qs :
    (forall s, s_good s = false -> forall s', f s = Ret tt s' -> s_good s' = false) ->
    heeds E f ps -> heeds E g qs -> heeds E (f ;;; g) (ps ++ qs).
  Proof.
    intros Hbad Hf Hg s. destruct (Hf s) as (F1 & F2 & F3). unfold bind. destruct (f s) as [[] s1|e s1|r| |] eqn:Hr.
    - destruct (Hg s1) as (G1 & G2 & G3). split; [intros H; apply G1, F1; auto|]. split; [|exact G3].
      intros Hn Hs Hne. destruct ps as [|p ps].
      + apply G2; auto. exact (Hbad s Hn s1 Hr).
      + apply G1, F2; auto. discriminate.
    - split; [discriminate|]. split; [discriminate|]. intros e' s' [= <- <-]. exact (F3 _ _ eq_refl).
    - split; [discriminate|]. split; discriminate.
    - split; [discriminate|]. split; discriminate.
    - split; [discriminate|]. split; discriminate.
  Qed.

  Lemma sends_insert t a : sends E a a (insert E t) [t].
  Proof.
    split; [|split; [|apply heeds_insert]].
    - intros s Ha Hg. exists (pad E (s_width s) t). split.
      { exists (pad E (s_width s) t). split; [apply filled_pad|]. simpl. rewrite app_nil_r. reflexivity. }
      unfold insert. rewrite Hg. set (full := pad E (s_width s) t).
      assert (Hb : s_bad s = false /\ s_fail s = false /\ s_eof s = false).
      { unfold s_good in Hg. destruct (s_bad s), (s_fail s), (s_eof s); simpl in Hg; try discriminate; auto. }
      destruct Hb as [Hb [Hf He]].
      destruct (e_dev E (s_text s) full) as [n [e|]] eqn:Hd.
      + right. exists (broken E (firstn n full) s), (firstn n full). split; [|split; [|split; [|split]]].
        * destruct (m_bad (e_mask E)) eqn:Hm; [right; exists e; split; [reflexivity|]|left; auto].
          split; [right; exists (s_text s), full; rewrite Hd; reflexivity|left; exact Hm].
        * reflexivity.
        * exact He.
        * reflexivity.
        * exists [], full, []. rewrite !app_nil_r. simpl. split; [reflexivity|]. unfold refuses. rewrite Hd. simpl.
          split; [right; discriminate|reflexivity].
      + destruct (Nat.ltb_spec n (List.length full)) as [Hlt|Hge].
        * right. exists (broken E (firstn n full) s), (firstn n full). split; [|split; [|split; [|split]]].
          -- unfold raise, s_hit, broken. simpl. rewrite He, Hf, !andb_false_r, andb_true_r. simpl.
             destruct (m_bad (e_mask E)) eqn:Hm; [right; exists EIosFailure; split; [reflexivity|]|left; auto].
             split; auto.
          -- reflexivity.
          -- exact He.
          -- reflexivity.
          -- exists [], full, []. rewrite !app_nil_r. simpl. split; [reflexivity|]. unfold refuses. rewrite Hd. simpl.
             split; [left; exact Hlt|reflexivity].
        * left. eexists. split; [reflexivity|]. cbn. rewrite Hb, Hf, He, Ha. auto.
    - intros s Hg. unfold insert. rewrite Hg. destruct (e_strict E) eqn:Hst.
      + unfold raise. set (s' := mkSink _ _ _ _ _ _). exists s'.
        split; [unfold s_good, s'; simpl; rewrite orb_true_r; reflexivity|].
        do 3 (split; [reflexivity|]). destruct (s_hit E s'); auto.
      + exists s. repeat split; auto.
  Qed.

  Lemma sends_ret a : sends E a a (ret tt) [].
  Proof.
    split; [|split; [|apply heeds_same; intros s; exists s; auto]].
    - intros s Ha Hg. exists []. split; [reflexivity|]. left. exists s. rewrite app_nil_r. repeat split; auto.
    - intros s Hg. exists s. repeat split; auto.
  Qed.

  Lemma cut_more o t t' u : cut E o t u -> cut E o (t ++ t') u.
  Proof.
    intros [x [p [y [Ht H]]]]. exists x, p, (y ++ t'). split; [|exact H]. rewrite Ht, <- !app_assoc. reflexivity.
  Qed.
  Lemma cut_later o t t' u : cut E (o ++ t) t' u -> cut E o (t ++ t') (t ++ u).
  Proof.
    intros [x [p [y [Ht [Hr Hu]]]]]. rewrite <- app_assoc in Hr, Hu. exists (t ++ x), p, y.
    split; [rewrite Ht, <- !app_assoc; reflexivity|]. split; [exact Hr|]. rewrite Hu, <- app_assoc. reflexivity.
  Qed.

  Lemma sends_seq a b c (f g : M sink unit) ps qs :
    sends E a b f ps -> sends E b c g qs -> sends E a c (f ;;; g) (ps ++ qs).
  Proof.
    intros [Hf [Hf' Hhf]] [Hg [Hg' Hhg]].
    split; [|split; [|apply heeds_seq; auto; intros s Hn s' Hr; destruct (Hf' s Hn) as [s1 [Hg1 [_ [_ [_ [H|[H _]]]]]]]; congruence]].
    - intros s Ha Hgood. destruct (Hf s Ha Hgood) as [t [Ht [[s1 [Hr [Hg1 [Ht1 [Hb1 Hw1]]]]]|[s1 [u [Hst [Hbad [Heof [Htx Hcut]]]]]]]]].
      + unfold bind. rewrite Hr. destruct (Hg s1 Hb1 Hg1) as [t' [Ht' Hcases]].
        assert (Hsh : shown E (s_width s) (ps ++ qs) (t ++ t')).
        { destruct ps as [|p ps].
          - simpl in Ht. subst t. rewrite Hw1 in Ht'. exact Ht'.
          - rewrite Hw1 in Ht'. rewrite (shown_0 _ _ Ht'). apply shown_app. exact Ht. }
        exists (t ++ t'). split; [exact Hsh|].
        destruct Hcases as [[s2 [Hr2 [Hg2 [Ht2 [Hb2 Hw2]]]]]|[s2 [u [Hst [Hbad [Heof [Htx Hcut]]]]]]].
        * left. exists s2. split; [exact Hr2|]. split; [exact Hg2|]. split; [rewrite Ht2, Ht1, app_assoc; reflexivity|].
          split; [exact Hb2|]. rewrite Hw2, Hw1. destruct ps; [reflexivity|]. destruct qs; reflexivity.
        * right. exists s2, (t ++ u). split; [exact Hst|]. split; [exact Hbad|]. split; [exact Heof|].
          split; [rewrite Htx, Ht1, app_assoc; reflexivity|]. apply cut_later. rewrite <- Ht1. exact Hcut.
      + assert (Hps : exists t', shown E (s_width s) (ps ++ qs) (t ++ t')).
        { destruct ps as [|p ps]; [|exists (concat qs); apply shown_app; exact Ht].
          simpl in Ht. subst t. exact (shown_ex (s_width s) qs). }
        destruct Hps as [t' Hps]. exists (t ++ t'). split; [exact Hps|]. right.
        destruct Hst as [[Hr Hm]|[e [Hr He]]]; unfold bind; rewrite Hr.
        * assert (Hng : s_good s1 = false) by (unfold s_good; rewrite Hbad, orb_true_r; reflexivity).
          destruct (Hg' s1 Hng) as [s2 [Hg2 [Ht2 [Hb2 [He2 Hr2]]]]]. exists s2, u.
          split; [|split; [congruence|split; [congruence|split; [congruence|apply cut_more; exact Hcut]]]].
          destruct Hr2 as [Hr2|[Hr2 [Hs2 Hh2]]]; [left; auto|]. right. exists EIosFailure.
          split; [exact Hr2|]. split; [left; reflexivity|]. right. split; [|exact Hs2].
          unfold s_hit in Hh2. rewrite He2, Heof, Hm, andb_false_r in Hh2. simpl in Hh2.
          destruct (m_fail (e_mask E)); [reflexivity|discriminate].
        * exists s1, u. split; [right; exists e; auto|]. auto 6 using cut_more.
    - intros s Hgood. destruct (Hf' s Hgood) as [s1 [Hg1 [Ht1 [Hb1 [He1 [Hr|[Hr [Hs1 Hh1]]]]]]]]; unfold bind; rewrite Hr.
      + destruct (Hg' s1 Hg1) as [s2 [Hg2 [Ht2 [Hb2 [He2 Hr2]]]]]. exists s2.
        split; [exact Hg2|]. split; [congruence|]. split; [congruence|]. split; [congruence|exact Hr2].
      + exists s1. auto 8.
  Qed.

  Lemma sends_ext a b (f g : M sink unit) ps : (forall s, f s = g s) -> sends E a b g ps -> sends E a b f ps.
  Proof.
    intros H [H1 [H2 H3]]. split; [|split; [|intros s; rewrite H; apply H3]].
    - intros s Ha Hg. destruct (H1 s Ha Hg) as [t Ht]. exists t. rewrite H. exact Ht.
    - intros s Hg. destruct (H2 s Hg) as [s' Hs]. exists s'. rewrite H. exact Hs.
  Qed.
  Lemma sends_bool a b : sends E a a (insert_bool E b) [bool_text a b].
  Proof.
    split; [|split; [|intros s; destruct (heeds_insert (bool_text (s_alpha s) b) s) as (H1 & H2 & H3); repeat split; auto;
                      intros Hn Hs _; apply H2; auto; discriminate]].
    - intros s Ha Hg. unfold insert_bool. rewrite Ha. exact (proj1 (sends_insert (bool_text a b) a) s Ha Hg).
    - intros s Hg. exact (proj1 (proj2 (sends_insert (bool_text (s_alpha s) b) a)) s Hg).
  Qed.
  Lemma sends_alpha a b : sends E a b (put_alpha b) [].
  Proof.
    split; [|split; [|apply heeds_same; intros s; eexists; split; reflexivity]].
    - intros s Ha Hg. exists []. split; [reflexivity|]. left. eexists. split; [reflexivity|].
      cbn. rewrite app_nil_r. auto.
    - intros s Hg. exists (mkSink (s_text s) b (s_width s) (s_eof s) (s_fail s) (s_bad s)).
      split; [exact Hg|]. repeat split. left. reflexivity.
  Qed.

  Section Seqs.
    Context {T : Type} (a : bool) (pr : T -> M sink unit) (ps : T -> list text).
    Context (Hpr : forall x, sends E a a (pr x) (ps x)).

    Lemma sends_write_loop sep l : sends E a a (swrite_loop E pr sep l) (joined [sep] (map ps l)).
    Proof.
      induction l as [|x l IH]; [apply sends_ret|]. destruct l as [|y l].
      - simpl. rewrite <- (app_nil_r (ps x)). apply sends_seq with (b := a); [apply Hpr|].
        apply (sends_seq a a a (ret tt) (ret tt) [] []); apply sends_ret.
      - change (joined [sep] (map ps (x :: y :: l))) with (ps x ++ [[sep]] ++ joined [sep] (map ps (y :: l))).
        apply sends_seq with (b := a); [apply Hpr|]. apply sends_seq with (b := a); [apply sends_insert|exact IH].
    Qed.
    Lemma sends_write_sequence op cl sep l :
      sends E a a (swrite_sequence E pr op cl sep l) (bracketed [op] [sep] [cl] (map ps l)).
    Proof.
      unfold swrite_sequence, bracketed. change ([op] :: joined [sep] (map ps l) ++ [[cl]])
        with ([[op]] ++ joined [sep] (map ps l) ++ [[cl]]).
      apply sends_seq with (b := a); [apply sends_insert|]. apply sends_seq with (b := a); [apply sends_write_loop|].
      apply sends_insert.
    Qed.

    Fixpoint print_rest (sep : text) (l : list T) : M sink unit :=
      match l with [] => ret tt | x :: l' => insert E sep ;;; pr x ;;; print_rest sep l' end.
    Lemma print_loop_rest op sep l s :
      sprint_loop E pr op sep false l s = (print_rest sep l ;;; ret false) s.
    Proof.
      revert s. induction l as [|x l IH]; intros s; [reflexivity|]. simpl. unfold bind.
      destruct (insert E sep s) as [? s1|?|?| |]; try reflexivity.
      destruct (pr x s1) as [? s2|?|?| |]; try reflexivity. rewrite IH. reflexivity.
    Qed.
    Lemma sends_rest sep l : sends E a a (print_rest sep l) (concat (map (fun x => sep :: ps x) l)).
    Proof.
      induction l as [|x l IH]; [apply sends_ret|]. simpl print_rest.
      change (concat (map (fun x => sep :: ps x) (x :: l)))
        with ([sep] ++ ps x ++ concat (map (fun x => sep :: ps x) l)).
      apply sends_seq with (b := a); [apply sends_insert|]. apply sends_seq with (b := a); [apply Hpr|exact IH].
    Qed.
    Lemma joined_rest sep x l :
      joined sep (map ps (x :: l)) = ps x ++ concat (map (fun x => sep :: ps x) l).
    Proof.
      revert x. induction l as [|y l IH]; intros x; [simpl; symmetry; apply app_nil_r|].
      change (joined sep (map ps (x :: y :: l))) with (ps x ++ sep :: joined sep (map ps (y :: l))).
      rewrite IH. reflexivity.
    Qed.
    Lemma sends_print_with op sep op' cl l :
      sends E a a (sprint_with E pr op sep op' cl l)
        (bracketed (match l with [] => op' | _ => op end) sep cl (map ps l)).
    Proof.
      destruct l as [|x l].
      - apply sends_ext with (g := insert E op' ;;; insert E cl); [reflexivity|].
        apply (sends_seq a a a _ _ [op'] [cl]); apply sends_insert.
      - apply sends_ext with (g := insert E op ;;; pr x ;;; print_rest sep l ;;; insert E cl).
        + intros s. unfold sprint_with. simpl. unfold bind.
          destruct (insert E op s) as [? s1|?|?| |]; try reflexivity.
          destruct (pr x s1) as [? s2|?|?| |]; try reflexivity.
          rewrite print_loop_rest. unfold bind. destruct (print_rest sep l s2); reflexivity.
        + unfold bracketed. rewrite joined_rest, <- app_assoc.
          change (op :: ps x ++ concat (map (fun x => sep :: ps x) l) ++ [cl])
            with ([op] ++ ps x ++ concat (map (fun x => sep :: ps x) l) ++ [cl]).
          apply sends_seq with (b := a); [apply sends_insert|]. apply sends_seq with (b := a); [apply Hpr|].
          apply sends_seq with (b := a); [apply sends_rest|apply sends_insert].
    Qed.
    Lemma sends_same_with op sep cl l :
      sends E a a (sprint_with E pr op sep op cl l) (bracketed op sep cl (map ps l)).
    Proof. pose proof (sends_print_with op sep op cl l) as H. destruct l; exact H. Qed.
  End Seqs.

  Lemma sends_item {K V} a (prk : K -> M sink unit) (prv : V -> M sink unit) pk pv de :
    (forall k, sends E a a (prk k) (pk k)) -> (forall v, sends E a a (prv v) (pv v)) ->
    forall e, sends E a a (sprint_item E prk prv de e) (pk (fst e) ++ [de] ++ pv (snd e)).
  Proof.
    intros Hk Hv e. unfold sprint_item. apply sends_seq with (b := a); [apply Hk|].
    apply sends_seq with (b := a); [apply sends_insert|apply Hv].
  Qed.
  Lemma sends_pair {A B} a (pa : A -> M sink unit) (pb : B -> M sink unit) qa qb :
    (forall x, sends E a a (pa x) (qa x)) -> (forall y, sends E a a (pb y) (qb y)) ->
    forall p, sends E a a (sprint_pair E pa pb p)
                (bracketed (chars "(") (chars ",") (chars ")") [qa (fst p); qb (snd p)]).
  Proof.
    intros Ha Hb p. unfold sprint_pair, bracketed.
    replace (chars "(" :: joined (chars ",") [qa (fst p); qb (snd p)] ++ [chars ")"])
      with ([chars "("] ++ qa (fst p) ++ [chars ","] ++ qb (snd p) ++ [chars ")"])
      by (cbn [joined app]; rewrite <- app_assoc; reflexivity).
    apply sends_seq with (b := a); [apply sends_insert|]. apply sends_seq with (b := a); [apply Ha|].
    apply sends_seq with (b := a); [apply sends_insert|]. apply sends_seq with (b := a); [apply Hb|apply sends_insert].
  Qed.
  Lemma sends_tuple_rest a fs qs : Forall2 (sends E a a) fs qs ->
    sends E a a (stuple_rest E fs) (concat (map (fun q => chars "," :: q) qs)).
  Proof.
    induction 1 as [|f q fs qs Hf _ IH]; [apply sends_ret|]. simpl stuple_rest.
    change (concat (map (fun q => chars "," :: q) (q :: qs)))
      with ([chars ","] ++ q ++ concat (map (fun q => chars "," :: q) qs)).
    apply sends_seq with (b := a); [apply sends_insert|]. apply sends_seq with (b := a); [exact Hf|exact IH].
  Qed.
  Lemma sends_tuple a f q fs qs : sends E a a f q -> Forall2 (sends E a a) fs qs ->
    sends E a a (sprint_tuple E f fs) (bracketed (chars "(") (chars ",") (chars ")") (q :: qs)).
  Proof.
    intros Hf Hfs. unfold sprint_tuple, bracketed.
    pose proof (joined_rest (fun q : list text => q) (chars ",") q qs) as Hj. rewrite map_id in Hj. rewrite Hj.
    rewrite <- app_assoc. apply (sends_seq a a a _ _ [chars "("]); [apply sends_insert|].
    apply sends_seq with (b := a); [exact Hf|]. apply sends_seq with (b := a); [|apply sends_insert].
    apply sends_tuple_rest. exact Hfs.
  Qed.
  Lemma sends_bits w : sends E false false (sbits E w) (map (fun b : bool => if b then chars "1" else chars "0") w).
  Proof.
    induction w as [|b w IH]; [apply sends_ret|]. simpl sbits.
    apply (sends_seq false false false _ _ [if b then chars "1" else chars "0"]); [|exact IH].
    exact (sends_bool false b).
  Qed.
  Lemma sends_word a w : sends E a (match w with [] => a | _ => true end) (sprint_word E w) (word_pieces w).
  Proof.
    destruct w as [|b w]; [apply sends_insert|]. unfold sprint_word, word_pieces.
    apply (sends_seq a false true _ _ []); [apply sends_alpha|].
    rewrite <- app_nil_r. apply (sends_seq false false true _ _ _ []); [apply (sends_bits (b :: w))|apply sends_alpha].
  Qed.
  Lemma sends_nest a n : forall v, sends E a a (snest_print E n v) (nest_pieces n v).
  Proof.
    induction n as [|n IH]; intros v; [apply sends_insert|]. apply sends_same_with. exact IH.
  Qed.
End Sends.

(** ** what [sends] means *)
Lemma cut_prefix E o t u : cut E o t u -> exists v, t = u ++ v.
Proof.
  intros [x [p [y [-> [_ ->]]]]]. set (n := fst _). exists (skipn n p ++ y).
  rewrite <- (firstn_skipn n p) at 1. rewrite <- !app_assoc. reflexivity.
Qed.
Lemma sends_meaning E a b f ps : sends E a b f ps ->
  forall s, s_alpha s = a -> s_good s = true -> exists t, shown E (s_width s) ps t /\
    (forall s', f s = Ret tt s' -> exists u v, s_text s' = s_text s ++ u /\ t = u ++ v) /\
    (forall e s', f s = Exc e s' -> exists u v, s_text s' = s_text s ++ u /\ t = u ++ v) /\
    (forall s', f s = Ret tt s' -> s_good s' = true ->
       s_text s' = s_text s ++ t /\ s_alpha s' = b /\ (ps <> [] -> s_width s' = 0)) /\
    (forall s', f s = Ret tt s' -> s_good s' = false -> s_bad s' = true) /\
    (m_bad (e_mask E) = true -> forall s', f s = Ret tt s' -> s_good s' = true) /\
    (m_bad (e_mask E) = false -> m_fail (e_mask E) = false -> exists s', f s = Ret tt s') /\
    (takes_all E -> exists s', f s = Ret tt s' /\ s_good s' = true) /\
    ((exists s', f s = Ret tt s') \/ (exists e s', f s = Exc e s')).
Proof.
  intros [H _] s Ha Hg. destruct (H s Ha Hg) as [t [Ht [[s1 [Hr [Hg1 [Ht1 [Hb1 Hw1]]]]]|[s1 [u [Hst [Hbad [Heof [Htx Hcut]]]]]]]]];
    exists t; (split; [exact Ht|]).
  - rewrite Hr. repeat match goal with |- _ /\ _ => split end.
    + intros s' [= <-]. exists t, []. split; [exact Ht1|rewrite app_nil_r; reflexivity].
    + discriminate.
    + intros s' [= <-] _. split; [exact Ht1|]. split; [exact Hb1|]. intros Hne. rewrite Hw1. destruct ps; congruence.
    + intros s' [= <-]. congruence.
    + intros _ s' [= <-]. exact Hg1.
    + eauto.
    + eauto.
    + eauto.
  - assert (Hng : s_good s1 = false) by (unfold s_good; rewrite Hbad, orb_true_r; reflexivity).
    destruct (cut_prefix _ _ _ _ Hcut) as [v Hv].
    assert (Hta : takes_all E -> False).
    { intros Hta. destruct Hcut as [x [p [y [_ [Hre _]]]]]. exact (Hta _ _ Hre). }
    destruct Hst as [[Hr Hm]|[e [Hr [He Hm]]]]; rewrite Hr; repeat match goal with |- _ /\ _ => split end;
      try discriminate; try (intros; contradiction); try (intros s' [= <-]; eauto; congruence).
    + intros Hm' s'. congruence.
    + eauto.
    + eauto.
    + intros e' s' [= <- <-]. eauto.
    + intros Hb0 Hf0. destruct Hm as [Hm|[Hm _]]; congruence.
    + eauto.
Qed.
Lemma hit_masked E s : s_hit E s = true <-> masked E s.
Proof. unfold s_hit, masked. rewrite !orb_true_iff, !andb_true_iff. tauto. Qed.
Lemma sends_not_good E a b f ps : sends E a b f ps ->
  forall s, s_good s = false ->
  exists s', (f s = Ret tt s' \/ f s = Exc EIosFailure s' /\ masked E s') /\
    s_good s' = false /\ s_text s' = s_text s.
Proof.
  intros [_ [H _]] s Hg. destruct (H s Hg) as [s' [Hg' [Ht [Hb [He Hr]]]]]. exists s'. split; [|auto].
  destruct Hr as [Hr|[Hr [_ Hh]]]; [auto|]. right. split; [exact Hr | now apply hit_masked].
Qed.
Lemma sends_mask E a b f ps : sends E a b f ps ->
  forall s, s_good s = true \/ (e_strict E = true /\ ps <> []) ->
  (forall s', f s = Ret tt s' -> ~ masked E s') /\ (forall e s', f s = Exc e s' -> masked E s').
Proof.
  intros [_ [_ H]] s Hs. destruct (H s) as (H1 & H2 & H3). split.
  - intros s' Hr M. apply hit_masked in M. destruct (s_good s) eqn:Hg.
    + pose proof (H1 (good_hit E s Hg) s' Hr). congruence.
    + destruct Hs as [Hs|[Hs Hn]]; [discriminate Hs|]. pose proof (H2 eq_refl Hs Hn s' Hr). congruence.
  - intros e s' Hr. apply hit_masked. exact (H3 e s' Hr).
Qed.

(** ** agreement with StlioModel.v and WordModel.v *)
Lemma separated_joined sep (l : list (list text)) : separated sep (map (@concat ascii) l) = concat (joined sep l).
Proof.
  induction l as [|x l IH]; [reflexivity|]. destruct l as [|y l]; [reflexivity|].
  change (concat x ++ sep ++ separated sep (map (@concat ascii) (y :: l)) = concat (x ++ sep :: joined sep (y :: l))).
  rewrite IH, concat_app. reflexivity.
Qed.
Lemma bracketed_text op sep cl l :
  concat (bracketed op sep cl l) = op ++ separated sep (map (@concat ascii) l) ++ cl.
Proof.
  unfold bracketed. cbn [concat]. rewrite concat_app, separated_joined. cbn [concat]. rewrite app_nil_r. reflexivity.
Qed.

Section Mirrors.
  Context (E : env) (Hta : takes_all E).
  Lemma mirrors_insert t : mirrors (insert E t) (put_text t).
  Proof.
    intros s Hg Hw. unfold insert. rewrite Hg. unfold pad. rewrite Hw. cbn [Nat.sub repeat].
    replace (if e_left E then t ++ [] else [] ++ t) with t by (destruct (e_left E); [rewrite app_nil_r|]; reflexivity).
    pose proof (Hta (s_text s) t) as Hr. unfold refuses in Hr. destruct (e_dev E (s_text s) t) as [n [e|]]; simpl in Hr.
    - exfalso. apply Hr. right. discriminate.
    - destruct (Nat.ltb_spec n (List.length t)) as [Hlt|_]; [exfalso; auto|].
      eexists. split; [reflexivity|]. split; [exact Hg|]. split; reflexivity.
  Qed.
  Lemma mirrors_ret : mirrors (ret tt) (fun o => o).
  Proof. intros s Hg Hw. exists s. auto. Qed.
  Lemma mirrors_seq f g f' g' : mirrors f f' -> mirrors g g' -> mirrors (f ;;; g) (fun o => g' (f' o)).
  Proof.
    intros Hf Hg s Hgs Hw. destruct (Hf s Hgs Hw) as [s1 [H1 [Hg1 [Hw1 Hv1]]]].
    destruct (Hg s1 Hg1 Hw1) as [s2 [H2 [Hg2 [Hw2 Hv2]]]]. exists s2. unfold bind. rewrite H1.
    split; [exact H2|]. split; [exact Hg2|]. split; [exact Hw2|]. rewrite Hv2, Hv1. reflexivity.
  Qed.
  Lemma mirrors_ext f g g' : (forall o, g o = g' o) -> mirrors f g -> mirrors f g'.
  Proof. intros H Hf s Hg Hw. destruct (Hf s Hg Hw) as [s' Hs]. exists s'. rewrite <- H. exact Hs. Qed.
  Lemma mirrors_ext_l f f' g : (forall s, f' s = f s) -> mirrors f g -> mirrors f' g.
  Proof. intros H Hf s Hg Hw. destruct (Hf s Hg Hw) as [s' Hs]. exists s'. rewrite H. exact Hs. Qed.
  Lemma mirrors_bool b : mirrors (insert_bool E b) (print_bool b).
  Proof.
    intros s Hg Hw. destruct (mirrors_insert (bool_text (s_alpha s) b) s Hg Hw) as [s' Hs]. exists s'. exact Hs.
  Qed.
  Lemma mirrors_alpha b : mirrors (put_alpha b) (set_boolalpha b).
  Proof. intros s Hg Hw. eexists. split; [reflexivity|]. auto. Qed.

  Section Seqs.
    Context {T : Type} (spr : T -> M sink unit) (pr : T -> ostream -> ostream).
    Context (Hpr : forall x, mirrors (spr x) (pr x)).
    Lemma mirrors_write_loop sep l : mirrors (swrite_loop E spr sep l) (write_loop pr sep l).
    Proof.
      induction l as [|x l IH]; [apply mirrors_ret|].
      destruct l as [|y l].
      - exact (mirrors_seq _ _ _ _ (Hpr x) (mirrors_seq _ _ _ _ mirrors_ret IH)).
      - exact (mirrors_seq _ _ _ _ (Hpr x) (mirrors_seq _ _ _ _ (mirrors_insert [sep]) IH)).
    Qed.
    Lemma mirrors_write_sequence op cl sep l :
      mirrors (swrite_sequence E spr op cl sep l) (write_sequence pr op cl sep l).
    Proof.
      exact (mirrors_seq _ _ _ _ (mirrors_insert [op])
               (mirrors_seq _ _ _ _ (mirrors_write_loop sep l) (mirrors_insert [cl]))).
    Qed.
    Lemma mirrors_rest op sep l : mirrors (print_rest E spr sep l) (fun o => snd (print_loop pr op sep false l o)).
    Proof.
      induction l as [|x l IH]; [apply mirrors_ret|].
      exact (mirrors_seq _ _ _ _ (mirrors_insert sep) (mirrors_seq _ _ _ _ (Hpr x) IH)).
    Qed.
    Lemma print_loop_fst op sep l : forall o, fst (print_loop pr op sep false l o) = false.
    Proof. induction l as [|x l IH]; intros o; [reflexivity|]. apply IH. Qed.
    Lemma mirrors_print_with op sep op' cl l :
      mirrors (sprint_with E spr op sep op' cl l) (print_with pr op sep op' cl l).
    Proof.
      destruct l as [|x l].
      - apply mirrors_ext_l with (f := insert E op' ;;; insert E cl); [reflexivity|].
        exact (mirrors_seq _ _ _ _ (mirrors_insert op') (mirrors_insert cl)).
      - apply mirrors_ext_l with (f := insert E op ;;; spr x ;;; print_rest E spr sep l ;;; insert E cl).
        + intros s. unfold sprint_with. simpl. unfold bind.
          destruct (insert E op s) as [? s1|?|?| |]; try reflexivity.
          destruct (spr x s1) as [? s2|?|?| |]; try reflexivity.
          rewrite print_loop_rest. unfold bind. destruct (print_rest E spr sep l s2); reflexivity.
        + apply mirrors_ext with (g := fun o => put_text cl (snd (print_loop pr op sep false l (pr x (put_text op o))))).
          * intros o. unfold print_with. cbn [print_loop]. pose proof (print_loop_fst op sep l (pr x (put_text op o))) as Hf.
            destruct (print_loop pr op sep false l (pr x (put_text op o))) as [fi o1]. simpl in Hf |- *. rewrite Hf. reflexivity.
          * exact (mirrors_seq _ _ _ _ (mirrors_insert op) (mirrors_seq _ _ _ _ (Hpr x)
                     (mirrors_seq _ _ _ _ (mirrors_rest op sep l) (mirrors_insert cl)))).
    Qed.
  End Seqs.

  Lemma mirrors_item {K V} sk sv (pk : K -> ostream -> ostream) (pv : V -> ostream -> ostream) de e :
    (forall k, mirrors (sk k) (pk k)) -> (forall v, mirrors (sv v) (pv v)) ->
    mirrors (sprint_item E sk sv de e) (print_item pk pv de e).
  Proof.
    intros Hk Hv. exact (mirrors_seq _ _ _ _ (Hk _) (mirrors_seq _ _ _ _ (mirrors_insert de) (Hv _))).
  Qed.
  Lemma mirrors_pair {A B} sa sb (pa : A -> ostream -> ostream) (pb : B -> ostream -> ostream) p :
    (forall k, mirrors (sa k) (pa k)) -> (forall v, mirrors (sb v) (pb v)) ->
    mirrors (sprint_pair E sa sb p) (print_pair pa pb p).
  Proof.
    intros Ha Hb. exact (mirrors_seq _ _ _ _ (mirrors_insert _) (mirrors_seq _ _ _ _ (Ha _)
      (mirrors_seq _ _ _ _ (mirrors_insert _) (mirrors_seq _ _ _ _ (Hb _) (mirrors_insert _))))).
  Qed.
  Lemma mirrors_tuple_rest fs gs : Forall2 mirrors fs gs ->
    mirrors (stuple_rest E fs) (fun o => fold_left (fun o g => g (put_text (chars ",") o)) gs o).
  Proof.
    induction 1 as [|f g fs gs Hf _ IH]; [apply mirrors_ret|].
    exact (mirrors_seq _ _ _ _ (mirrors_insert _) (mirrors_seq _ _ _ _ Hf IH)).
  Qed.
  Lemma mirrors_tuple f g fs gs : mirrors f g -> Forall2 mirrors fs gs ->
    exists h, mirrors (sprint_tuple E f fs) h /\ forall o, print_tuple (g :: gs) o = Some (h o).
  Proof.
    intros Hf Hfs. eexists. split.
    - exact (mirrors_seq _ _ _ _ (mirrors_insert (chars "(")) (mirrors_seq _ _ _ _ Hf
               (mirrors_seq _ _ _ _ (mirrors_tuple_rest fs gs Hfs) (mirrors_insert (chars ")"))))).
    - intros o. unfold print_tuple.
      destruct (write_tuple_prefix (g :: gs) (List.length (g :: gs)) (put_text (chars "(") o)) as (o' & H1 & Ho').
      { simpl. lia. }
      rewrite H1. cbn [option_map]. rewrite firstn_all in Ho'. rewrite Ho'. reflexivity.
  Qed.
  Lemma mirrors_bits w : mirrors (sbits E w) (fun o => fold_left (fun o b => print_bool b o) w o).
  Proof.
    induction w as [|b w IH]; [apply mirrors_ret|]. exact (mirrors_seq _ _ _ _ (mirrors_bool b) IH).
  Qed.
  Lemma mirrors_word w : mirrors (sprint_word E w) (print_word w).
  Proof.
    destruct w as [|b w]; [apply mirrors_insert|].
    exact (mirrors_seq _ _ _ _ (mirrors_alpha false) (mirrors_seq _ _ _ _ (mirrors_bits (b :: w)) (mirrors_alpha true))).
  Qed.
End Mirrors.

(** ** width *)
Lemma right_adjusted E w op ps t : e_left E = false -> shown E w (op :: ps) t ->
  t = repeat (e_fill E) (w - List.length op) ++ concat (op :: ps).
Proof.
  intros Hl [p' [[Hlen [k Hk]] Ht]]. rewrite Hl in Hk. subst p' t. rewrite app_length, repeat_length in Hlen.
  assert (k = w - List.length op) as -> by lia. rewrite <- app_assoc. reflexivity.
Qed.
Lemma shown_one E w p t : shown E w [p] t -> filled E w p t.
Proof. intros [p' [H ->]]. simpl. rewrite app_nil_r. exact H. Qed.

(** ** the statements of OutProps.v *)
Lemma send_lists E a (T : Type) (pr : T -> M sink unit) (ps : T -> list text) :
  (forall x, sends E a a (pr x) (ps x)) ->
  forall l,
  sends E a a (sprint_vector E pr l) (bracketed (chars "[") (chars ",") (chars "]") (map ps l)) /\
  sends E a a (sprint_array E pr l) (bracketed (chars "[") (chars ",") (chars "]") (map ps l)) /\
  sends E a a (sprint_shared_array E pr l) (bracketed (chars "[") (chars ",") (chars "]") (map ps l)) /\
  sends E a a (sprint_list E pr l) (bracketed (chars "[") (chars ",") (chars "]") (map ps l)) /\
  sends E a a (sprint_set E pr l) (bracketed (chars "{") (chars ",") (chars "}") (map ps l)) /\
  forall op cl sep, sends E a a (swrite_sequence E pr op cl sep l) (bracketed [op] [sep] [cl] (map ps l)).
Proof.
  intros H l. repeat match goal with |- _ /\ _ => split end.
  - exact (sends_same_with E a pr ps H _ _ _ l).
  - exact (sends_same_with E a pr ps H _ _ _ l).
  - exact (sends_same_with E a pr ps H _ _ _ l).
  - exact (sends_write_sequence E a pr ps H _ _ _ l).
  - exact (sends_same_with E a pr ps H _ _ _ l).
  - intros. exact (sends_write_sequence E a pr ps H _ _ _ l).
Qed.
Lemma send_others E a (K V : Type) (prk : K -> M sink unit) (prv : V -> M sink unit)
  (pk : K -> list text) (pv : V -> list text) :
  (forall k, sends E a a (prk k) (pk k)) -> (forall v, sends E a a (prv v) (pv v)) ->
  (forall p, sends E a a (sprint_pair E prk prv p)
               (bracketed (chars "(") (chars ",") (chars ")") [pk (fst p); pv (snd p)])) /\
  (forall f q fs qs, sends E a a f q -> Forall2 (sends E a a) fs qs ->
     sends E a a (sprint_tuple E f fs) (bracketed (chars "(") (chars ",") (chars ")") (q :: qs))) /\
  (forall m, sends E a a (sprint_map E prk prv m)
     (bracketed (match m with [] => chars "{" | _ => chars "{ " end) (chars ", ") (chars " }")
        (map (fun e => pk (fst e) ++ [chars ":"] ++ pv (snd e)) m))) /\
  (forall op cl sep de m, sends E a a (swrite_map_sequence E prk prv op cl sep de m)
     (bracketed [op] [sep] [cl] (map (fun e => pk (fst e) ++ [[de]] ++ pv (snd e)) m))).
Proof.
  intros Hk Hv. split; [|split; [|split]].
  - intros p. apply sends_pair; assumption.
  - intros. apply sends_tuple; assumption.
  - intros m. exact (sends_print_with E a _ _ (sends_item E a prk prv pk pv (chars ":") Hk Hv) _ _ _ _ m).
  - intros op cl sep de m. exact (sends_write_sequence E a _ _ (sends_item E a prk prv pk pv [de] Hk Hv) op cl sep m).
Qed.
Lemma send_items E a :
  (forall t, sends E a a (insert E t) [t]) /\
  (forall z, sends E a a (insert_int E z) [int_text z]) /\
  (forall b, sends E a a (insert_bool E b) [bool_text a b]) /\
  (forall w, sends E a (match w with [] => a | _ => true end) (sprint_word E w) (word_pieces w)) /\
  (forall n (v : nest n), sends E a a (snest_print E n v) (nest_pieces n v)).
Proof.
  split; [|split; [|split; [|split]]]; intros.
  - apply sends_insert.
  - apply sends_insert.
  - apply sends_bool.
  - apply sends_word.
  - apply sends_nest.
Qed.
Lemma unfailing E : takes_all E ->
  (forall T (spr : T -> M sink unit) pr, (forall x, mirrors (spr x) (pr x)) -> forall l,
     mirrors (sprint_vector E spr l) (print_vector pr l) /\
     mirrors (sprint_array E spr l) (print_array pr l) /\
     mirrors (sprint_shared_array E spr l) (print_shared_array pr l) /\
     mirrors (sprint_set E spr l) (print_set pr l) /\
     mirrors (sprint_list E spr l) (print_list pr l) /\
     forall op cl sep, mirrors (swrite_sequence E spr op cl sep l) (write_sequence pr op cl sep l)) /\
  (forall K V (sk : K -> M sink unit) (sv : V -> M sink unit) pk pv,
     (forall k, mirrors (sk k) (pk k)) -> (forall v, mirrors (sv v) (pv v)) ->
     (forall m, mirrors (sprint_map E sk sv m) (print_map pk pv m)) /\
     (forall op cl sep de m,
        mirrors (swrite_map_sequence E sk sv op cl sep de m) (write_map_sequence pk pv op cl sep de m)) /\
     (forall p, mirrors (sprint_pair E sk sv p) (print_pair pk pv p))) /\
  (forall f g fs gs, mirrors f g -> Forall2 mirrors fs gs ->
     exists h, mirrors (sprint_tuple E f fs) h /\ forall o, print_tuple (g :: gs) o = Some (h o)) /\
  (forall w, mirrors (sprint_word E w) (print_word w)) /\
  (forall z, mirrors (insert_int E z) (print_int z)) /\
  (forall b, mirrors (insert_bool E b) (print_bool b)) /\
  (forall t, mirrors (insert E t) (print_string t)).
Proof.
  intros H. split; [|split; [|split; [|split; [|split; [|split]]]]].
  - intros T spr pr Hpr l. repeat match goal with |- _ /\ _ => split end.
    1-4: exact (mirrors_print_with E H spr pr Hpr _ _ _ _ l).
    + exact (mirrors_write_sequence E H spr pr Hpr _ _ _ l).
    + intros. exact (mirrors_write_sequence E H spr pr Hpr _ _ _ l).
  - intros K V sk sv pk pv Hk Hv. split; [|split].
    + intros m. exact (mirrors_print_with E H _ _ (fun e => mirrors_item E H sk sv pk pv (chars ":") e Hk Hv) _ _ _ _ m).
    + intros op cl sep de m.
      exact (mirrors_write_sequence E H _ _ (fun e => mirrors_item E H sk sv pk pv [de] e Hk Hv) op cl sep m).
    + intros p. apply mirrors_pair; assumption.
  - intros. apply mirrors_tuple; assumption.
  - intros. apply mirrors_word. exact H.
  - intros. apply mirrors_insert. exact H.
  - intros. apply mirrors_bool. exact H.
  - intros. apply mirrors_insert. exact H.
Qed.
Lemma width_of_pieces E w p ps t :
  2 <= w -> List.length p = 1 -> 1 <= List.length (concat ps) ->
  shown E w (p :: ps) t -> ~ filled E w (concat (p :: ps)) t.
Proof.
  intros Hw Hop Hcl [p' [[Hl _] Ht]] [Hl' _]. cbn [concat] in *. rewrite Ht in Hl'. rewrite !app_length in Hl'. lia.
Qed.
Lemma unpadded E a b f p ps s : sends E a b f (p :: ps) -> takes_all E -> s_alpha s = a -> s_good s = true ->
  2 <= s_width s -> List.length p = 1 -> 1 <= List.length (concat ps) ->
  ~ (exists s' t', f s = Ret tt s' /\ s_text s' = s_text s ++ t' /\ filled E (s_width s) (concat (p :: ps)) t').
Proof.
  intros H Hta Ha Hg Hw Hp Hps [s' [t' [Hr [Ht' Hfi]]]].
  destruct (sends_meaning _ _ _ _ _ H s Ha Hg) as [t [Ht [_ [_ [Hall [_ [_ [_ [Hret _]]]]]]]]].
  destruct (Hret Hta) as [s1 [Hr1 Hg1]]. rewrite Hr in Hr1. injection Hr1 as <-.
  destruct (Hall s' Hr Hg1) as [Htx _]. rewrite Ht' in Htx. apply app_inv_head in Htx. subst t'.
  exact (width_of_pieces E (s_width s) p ps t Hw Hp Hps Ht Hfi).
Qed.
Lemma closed_long (l : list text) (c : text) : 1 <= List.length c -> 1 <= List.length (concat (l ++ [c])).
Proof. intros H. rewrite concat_app, app_length. simpl. rewrite app_nil_r. lia. Qed.
Lemma width_refuted E a (T : Type) (pr : T -> M sink unit) (ps : T -> list text) :
  (forall x, sends E a a (pr x) (ps x)) -> takes_all E ->
  forall s, s_alpha s = a -> s_good s = true -> 2 <= s_width s ->
  let padded f t := exists s' t', f s = Ret tt s' /\ s_text s' = s_text s ++ t' /\ filled E (s_width s) t t' in
  (forall l, ~ padded (sprint_vector E pr l) (concat (bracketed (chars "[") (chars ",") (chars "]") (map ps l)))) /\
  (forall l, ~ padded (sprint_list E pr l) (concat (bracketed (chars "[") (chars ",") (chars "]") (map ps l)))) /\
  (forall l, ~ padded (sprint_set E pr l) (concat (bracketed (chars "{") (chars ",") (chars "}") (map ps l)))) /\
  (forall p, ~ padded (sprint_pair E pr pr p)
                 (concat (bracketed (chars "(") (chars ",") (chars ")") [ps (fst p); ps (snd p)]))) /\
  (forall w, 2 <= List.length w -> ~ padded (sprint_word E w) (concat (word_pieces w))).
Proof.
  intros Hpr Hta s Ha Hg Hw padded. split; [|split; [|split; [|split]]].
  - intros l. refine (unpadded E a a _ _ _ s _ Hta Ha Hg Hw _ _); [exact (proj1 (send_lists E a T pr ps Hpr l))| |].
    + reflexivity. + apply closed_long. simpl. lia.
  - intros l. refine (unpadded E a a _ _ _ s _ Hta Ha Hg Hw _ _); [exact (sends_write_sequence E a pr ps Hpr _ _ _ l)| |].
    + reflexivity. + apply closed_long. simpl. lia.
  - intros l. refine (unpadded E a a _ _ _ s _ Hta Ha Hg Hw _ _); [exact (sends_same_with E a pr ps Hpr _ _ _ l)| |].
    + reflexivity. + apply closed_long. simpl. lia.
  - intros p. refine (unpadded E a a _ _ _ s _ Hta Ha Hg Hw _ _); [exact (sends_pair E a pr pr ps ps Hpr Hpr p)| |].
    + reflexivity. + apply closed_long. simpl. lia.
  - intros w Hl. destruct w as [|x [|y w]]; simpl in Hl; try lia.
    refine (unpadded E a true _ _ _ s _ Hta Ha Hg Hw _ _); [exact (sends_word E a (x :: y :: w))| |].
    + destruct x; reflexivity.
    + destruct y; simpl; lia.
Qed.
Lemma filled_narrow E w (p : text) : w <= List.length p -> filled E w p p.
Proof.
  intros H. split; [lia|]. exists 0. destruct (e_left E); simpl; [rewrite app_nil_r|]; reflexivity.
Qed.
Lemma width_partial E :
  (forall w op ps t, e_left E = false -> shown E w (op :: ps) t ->
     t = repeat (e_fill E) (w - List.length op) ++ concat (op :: ps)) /\
  (forall ps t, shown E 0 ps t -> t = concat ps) /\
  (forall w op sep cl l t, w <= 1 -> List.length op = 1 -> shown E w (bracketed op sep cl l) t ->
     filled E w (concat (bracketed op sep cl l)) t) /\
  (forall w b t, List.length b <= 1 -> shown E w (word_pieces b) t -> filled E w (concat (word_pieces b)) t) /\
  (forall w p t, shown E w [p] t -> filled E w p t) /\
  (forall a b f ps g qs c s s1 s2, sends E a b f ps -> ps <> [] -> sends E b c g qs ->
     s_alpha s = a -> s_good s = true -> f s = Ret tt s1 -> s_good s1 = true ->
     g s1 = Ret tt s2 -> s_good s2 = true -> s_text s2 = s_text s1 ++ concat qs).
Proof.
  split; [|split; [|split; [|split; [|split]]]].
  - intros. apply right_adjusted; assumption.
  - intros ps t. apply shown_0.
  - intros w op sep cl l t Hw Hop [p' [[Hl [k Hk]] Ht]].
    assert (k = 0) as ->.
    { subst p'. destruct (e_left E); rewrite app_length, repeat_length in Hl; lia. }
    assert (p' = op) as ->.
    { subst p'. destruct (e_left E); simpl; [apply app_nil_r|reflexivity]. }
    unfold bracketed. cbn [concat]. rewrite Ht. apply filled_narrow. rewrite app_length. lia.
  - intros w b t Hb H. destruct b as [|x [|y b]]; [| |simpl in Hb; lia].
    + apply shown_one in H. exact H.
    + apply shown_one in H. destruct x; exact H.
  - intros. apply shown_one. assumption.
  - intros a b f ps g qs c s s1 s2 Hf Hne Hg Ha Hgs H1 Hg1 H2 Hg2.
    destruct (sends_meaning _ _ _ _ _ Hf s Ha Hgs) as [t [_ [_ [_ [Hall _]]]]].
    destruct (Hall s1 H1 Hg1) as [_ [Hb1 Hw1]]. specialize (Hw1 Hne).
    destruct (sends_meaning _ _ _ _ _ Hg s1 Hb1 Hg1) as [t2 [Ht2 [_ [_ [Hall2 _]]]]].
    destruct (Hall2 s2 H2 Hg2) as [Htx _]. rewrite Hw1 in Ht2. rewrite Htx, (shown_0 _ _ _ Ht2). reflexivity.
Qed.
