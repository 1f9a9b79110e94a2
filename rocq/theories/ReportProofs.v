(** ReportProofs.v -- proofs for ReportProps.v. *)
From Verif Require Import Base StreamModel MaskModel OutModel OutSpec OutProofs HandleModel HandleSpec ReportModel ReportSpec.
Local Open Scope monad_scope.

Section Proofs.
  Context {V Ty : Type} (dyn : V -> Ty) (subobjs : Ty -> Ty -> list nat) (wrapper : Ty -> Ty) (inner : Ty -> nat)
          (name : Ty -> text) (writable : Ty) (wr : V -> M sink unit) (E : env).
  Notation dcast := (HandleModel.dynamic_cast subobjs).
  Notation unique := (unique_base dyn subobjs).

  Lemma dcast_unique v t : unique v t <-> exists o, dcast (dyn v) t = Some o.
  Proof.
    unfold unique_base, HandleModel.dynamic_cast. destruct (subobjs (dyn v) t) as [|o [|o' l]]; split; intros [x Hx];
      try discriminate; eauto.
  Qed.
  Lemma dcast_none v t : ~ unique v t <-> dcast (dyn v) t = None.
  Proof.
    rewrite dcast_unique. destruct (dcast (dyn v) t); split; intros H; try congruence; [destruct H; eauto|intros [x [=]]].
  Qed.
  Lemma extract_none v t : ~ unique_base_or_wrapper dyn subobjs wrapper v t -> extract_from subobjs wrapper inner (dyn v) t = None.
  Proof.
    unfold unique_base_or_wrapper, extract_from. intros H.
    rewrite (proj1 (dcast_none v t)) by tauto. now rewrite (proj1 (dcast_none v (wrapper t))) by tauto.
  Qed.
  Lemma extract_some v t : unique_base_or_wrapper dyn subobjs wrapper v t -> exists o, extract_from subobjs wrapper inner (dyn v) t = Some o.
  Proof.
    unfold unique_base_or_wrapper, extract_from. intros H. destruct (dcast (dyn v) t) as [o|] eqn:H1; [eauto|].
    destruct H as [H|H]; apply dcast_unique in H; destruct H as [o Ho]; rewrite ?Ho; [congruence|eauto].
  Qed.

  Lemma sends_cons t a b g qs : sends E a b g qs -> sends E a b (insert E t ;;; g) (t :: qs).
  Proof. intros H. exact (sends_seq E a a b _ _ [t] qs (sends_insert E t a) H). Qed.
  Lemma sends_error f w a b obj i c t : sends E a b (match w with Some x => x | None => insert E (chars "object") end) obj ->
    sends E a b (write_error E f w i c t) (line f obj c i t).
  Proof.
    intros H. unfold write_error, line. cbn [app]. do 4 apply sends_cons.
    apply (sends_seq E a b b); [exact H|]. do 6 apply sends_cons. apply sends_insert.
  Qed.
  Lemma object_sends v obj : prints_as dyn subobjs writable E wr v obj -> forall a, exists b,
    sends E a b (match as_writable dyn subobjs writable wr v with Some x => x | None => insert E (chars "object") end) obj.
  Proof.
    intros [[Hu H]|[Hu ->]] a; unfold as_writable.
    - apply dcast_unique in Hu. destruct Hu as [o ->]. apply H.
    - rewrite (proj1 (dcast_none v writable) Hu). exists a. apply sends_insert.
  Qed.
  Lemma failing v obj f i c t s : takes_all E -> s_good s = true -> prints_as dyn subobjs writable E wr v obj ->
    fails_with E ((write_error E f (as_writable dyn subobjs writable wr v) i c t ;;; @throw sink nat EBadCast) s) s (line f obj c i t).
  Proof.
    intros HE Hg Hp. destruct (object_sends v obj Hp (s_alpha s)) as [b Hb].
    destruct (sends_meaning _ _ _ _ _ (sends_error f _ _ _ obj i c t Hb) s eq_refl Hg) as [x [Hx [_ [_ [Hret [_ [_ [_ [Hall _]]]]]]]]].
    destruct (Hall HE) as [s' [Hr Hg']]. destruct (Hret s' Hr Hg') as [Ht _].
    exists x, s'. split; [exact Hx|]. unfold bind. rewrite Hr. unfold throw. auto.
  Qed.

  Lemma cast_reported bi d di v obj s : takes_all E -> s_good s = true -> prints_as dyn subobjs writable E wr v obj ->
    (unique v di -> exists o, cast_report dyn subobjs name writable wr E bi d di v s = Ret o s) /\
    (~ unique v di -> fails_with E (cast_report dyn subobjs name writable wr E bi d di v s) s
       (line (chars "dynamic_handle_cast") obj (chars "PK" ++ name bi) (name (dyn v)) (name d))).
  Proof.
    intros HE Hg Hp. unfold cast_report. split; intros H.
    - apply dcast_unique in H. destruct H as [o ->]. now exists o.
    - rewrite (proj1 (dcast_none v di) H). apply failing; assumption.
  Qed.
  Lemma extract_reported bi t v obj s : takes_all E -> s_good s = true -> prints_as dyn subobjs writable E wr v obj ->
    (unique_base_or_wrapper dyn subobjs wrapper v t -> exists o, extract_report dyn subobjs wrapper inner name writable wr E bi t v s = Ret o s) /\
    (~ unique_base_or_wrapper dyn subobjs wrapper v t -> fails_with E (extract_report dyn subobjs wrapper inner name writable wr E bi t v s) s
       (line (chars "dynamic_handle_extract") obj (chars "PK" ++ name bi) (name (dyn v)) (name t))).
  Proof.
    intros HE Hg Hp. unfold extract_report. split; intros H.
    - destruct (extract_some v t H) as [o ->]. now exists o.
    - rewrite (extract_none v t H). apply failing; assumption.
  Qed.

  Lemma shown_length w p ps t : shown E w (p :: ps) t -> List.length t = Nat.max w (List.length p) + List.length (concat ps).
  Proof. intros [p' [[Hp _] ->]]. rewrite app_length, Hp. reflexivity. Qed.
  Lemma lines_differ r s f obj c c' i t : List.length c <> List.length c' ->
    fails_with E r s (line f obj c i t) -> ~ fails_with E r s (line f obj c' i t).
  Proof.
    intros Hl [x [s1 [Hx [Hr1 [_ Ht1]]]]] [y [s2 [Hy [Hr2 [_ Ht2]]]]].
    rewrite Hr1 in Hr2. injection Hr2 as <-. rewrite Ht1 in Ht2. apply app_inv_head in Ht2. subst y.
    unfold line in Hx, Hy. cbn [app] in Hx, Hy. apply shown_length in Hx. apply shown_length in Hy.
    cbn [concat] in Hx, Hy. rewrite !concat_app in Hx, Hy. cbn [concat] in Hx, Hy.
    rewrite !app_length in Hx, Hy. cbn [List.length] in Hx, Hy. lia.
  Qed.
  Lemma not_named bi d di v obj s : takes_all E -> s_good s = true -> prints_as dyn subobjs writable E wr v obj ->
    (~ unique v di -> ~ fails_with E (cast_report dyn subobjs name writable wr E bi d di v s) s
       (line (chars "dynamic_handle_cast") obj (name bi) (name (dyn v)) (name d))) /\
    (~ unique_base_or_wrapper dyn subobjs wrapper v d -> ~ fails_with E (extract_report dyn subobjs wrapper inner name writable wr E bi d v s) s
       (line (chars "dynamic_handle_extract") obj (name bi) (name (dyn v)) (name d))).
  Proof.
    intros HE Hg Hp. split; intros H.
    - apply (lines_differ _ _ _ _ (chars "PK" ++ name bi)); [rewrite app_length; cbn; lia|].
      apply cast_reported; assumption.
    - apply (lines_differ _ _ _ _ (chars "PK" ++ name bi)); [rewrite app_length; cbn; lia|].
      apply extract_reported; assumption.
  Qed.

  (** ** other streams and other _write functions *)
  Definition returns (f : M sink unit) : Prop := forall s, exists s', f s = Ret tt s'.
  Lemma returns_insert t : quiet E -> returns (insert E t).
  Proof.
    intros [H1 [H2 H3]] s. unfold insert, raise, s_hit. rewrite H1, H2, H3. cbn [andb orb].
    destruct (s_good s).
    - destruct (e_dev E (s_text s) (pad E (s_width s) t)) as [n [e|]]; [eauto|]. destruct (n <? _); eauto.
    - destruct (e_strict E); eauto.
  Qed.
  Lemma returns_seq f g : returns f -> returns g -> returns (f ;;; g).
  Proof. intros Hf Hg s. unfold bind. destruct (Hf s) as [s' ->]. apply Hg. Qed.
  Lemma returns_error f w i c t : quiet E -> (forall x, w = Some x -> returns x) -> returns (write_error E f w i c t).
  Proof.
    intros HE Hw. unfold write_error. do 4 (apply returns_seq; [now apply returns_insert|]).
    apply returns_seq; [destruct w; [now apply Hw|now apply returns_insert]|].
    do 6 (apply returns_seq; [now apply returns_insert|]). now apply returns_insert.
  Qed.
  Lemma as_writable_some v x : as_writable dyn subobjs writable wr v = Some x -> unique v writable /\ x = wr v.
  Proof.
    unfold as_writable. destruct (dcast (dyn v) writable) as [o|] eqn:H; [|discriminate]. intros [= <-].
    split; [apply dcast_unique; eauto|reflexivity].
  Qed.
  Lemma quiet_cast bi d di v s : quiet E -> (unique v writable -> forall s, exists s', wr v s = Ret tt s') ->
    (~ unique v di -> exists s', cast_report dyn subobjs name writable wr E bi d di v s = Exc EBadCast s') /\
    (~ unique_base_or_wrapper dyn subobjs wrapper v d ->
       exists s', extract_report dyn subobjs wrapper inner name writable wr E bi d v s = Exc EBadCast s').
  Proof.
    intros HE Hw. assert (H0 : forall x, as_writable dyn subobjs writable wr v = Some x -> returns x).
    { intros x Hx. apply as_writable_some in Hx. destruct Hx as [Hu ->]. exact (Hw Hu). }
    split; intros H; unfold cast_report, extract_report.
    - rewrite (proj1 (dcast_none v di) H). unfold bind.
      destruct (returns_error (chars "dynamic_handle_cast") _ (type_name name (Class (dyn v))) (type_name name (PointerToConst bi))
        (type_name name (Class d)) HE H0 s) as [s' ->]. exists s'. reflexivity.
    - rewrite (extract_none v d H). unfold bind.
      destruct (returns_error (chars "dynamic_handle_extract") _ (type_name name (Class (dyn v))) (type_name name (PointerToConst bi))
        (type_name name (Class d)) HE H0 s) as [s' ->]. exists s'. reflexivity.
  Qed.
  Lemma never_returns (f : M sink unit) o s s' : (f ;;; @throw sink nat EBadCast) s <> Ret o s'.
  Proof. unfold bind, throw. destruct (f s); discriminate. Qed.
  Lemma failing_never_returns bi d di v s s' o :
    (~ unique v di -> cast_report dyn subobjs name writable wr E bi d di v s <> Ret o s') /\
    (~ unique_base_or_wrapper dyn subobjs wrapper v d -> extract_report dyn subobjs wrapper inner name writable wr E bi d v s <> Ret o s').
  Proof.
    split; intros H; unfold cast_report, extract_report.
    - rewrite (proj1 (dcast_none v di) H). apply never_returns.
    - rewrite (extract_none v d H). apply never_returns.
  Qed.
  (** the part of the line before the object *)
  Lemma before_object f (w : M sink unit) i c t s e : takes_all E -> s_good s = true -> (forall s, exists s', w s = Exc e s') ->
    exists s', write_error E f (Some w) i c t s = Exc e s'.
  Proof.
    intros HE Hg Hw. unfold write_error.
    assert (Hi : forall x (g : M sink unit) s, s_good s = true -> (forall s, s_good s = true -> exists s', g s = Exc e s') ->
      exists s', (insert E x ;;; g) s = Exc e s').
    { intros x g s1 H1 Hg1. destruct (sends_meaning _ _ _ _ _ (sends_insert E x (s_alpha s1)) s1 eq_refl H1) as [y [_ [_ [_ [_ [_ [_ [_ [Hall _]]]]]]]]].
      destruct (Hall HE) as [s2 [Hr Hg2]]. unfold bind. rewrite Hr. now apply Hg1. }
    do 4 (apply Hi; [assumption|clear s Hg; intros s Hg]).
    unfold bind at 1. destruct (Hw s) as [s' ->]. eauto.
  Qed.
  Lemma write_throws bi d di v s e : takes_all E -> s_good s = true -> unique v writable -> (forall s, exists s', wr v s = Exc e s') ->
    (~ unique v di -> exists s', cast_report dyn subobjs name writable wr E bi d di v s = Exc e s') /\
    (~ unique_base_or_wrapper dyn subobjs wrapper v d ->
       exists s', extract_report dyn subobjs wrapper inner name writable wr E bi d v s = Exc e s').
  Proof.
    intros HE Hg Hu Hw. assert (Ha : as_writable dyn subobjs writable wr v = Some (wr v)).
    { unfold as_writable. apply dcast_unique in Hu. destruct Hu as [o ->]. reflexivity. }
    split; intros H; unfold cast_report, extract_report; rewrite Ha.
    - rewrite (proj1 (dcast_none v di) H). unfold bind.
      destruct (before_object (chars "dynamic_handle_cast") (wr v) (type_name name (Class (dyn v))) (type_name name (PointerToConst bi))
        (type_name name (Class d)) s e HE Hg Hw) as [s' ->]. eauto.
    - rewrite (extract_none v d H). unfold bind.
      destruct (before_object (chars "dynamic_handle_extract") (wr v) (type_name name (Class (dyn v))) (type_name name (PointerToConst bi))
        (type_name name (Class d)) s e HE Hg Hw) as [s' ->]. eauto.
  Qed.
  Lemma stream_throws bi d di v s : m_bad (e_mask E) = true -> (forall o p, e_dev E o p = (0, None)) -> s_good s = true ->
    (~ unique v di -> exists s', cast_report dyn subobjs name writable wr E bi d di v s = Exc EIosFailure s') /\
    (~ unique_base_or_wrapper dyn subobjs wrapper v d ->
       exists s', extract_report dyn subobjs wrapper inner name writable wr E bi d v s = Exc EIosFailure s').
  Proof.
    intros HE Hd Hg.
    assert (He : forall f w i c t, exists s', write_error E f w i c t s = Exc EIosFailure s').
    { intros f w i c t. unfold write_error, bind at 1, insert at 1. rewrite Hg, Hd.
      assert (Hl : 0 <? List.length (pad E (s_width s) (chars "Error in ")) = true).
      { apply Nat.ltb_lt. destruct (filled_pad E (s_width s) (chars "Error in ")) as [-> _]. cbn. lia. }
      rewrite Hl. unfold raise, s_hit, broken. cbn [s_bad]. rewrite HE. rewrite !andb_true_l, orb_true_r. eauto. }
    split; intros H; unfold cast_report, extract_report.
    - rewrite (proj1 (dcast_none v di) H). unfold bind.
      destruct (He (chars "dynamic_handle_cast") (as_writable dyn subobjs writable wr v) (type_name name (Class (dyn v))) (type_name name (PointerToConst bi))
        (type_name name (Class d))) as [s' ->]. eauto.
    - rewrite (extract_none v d H). unfold bind.
      destruct (He (chars "dynamic_handle_extract") (as_writable dyn subobjs writable wr v) (type_name name (Class (dyn v))) (type_name name (PointerToConst bi))
        (type_name name (Class d))) as [s' ->]. eauto.
  Qed.
End Proofs.
