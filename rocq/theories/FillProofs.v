(** FillProofs.v -- lemmas about FillModel.v *)
From Verif Require Import Base ArrayModel ArraySpec ArrayProofs ArrayStep ArrayPrograms ArrayThms OverModel FillModel.
Local Open Scope monad_scope.

Lemma ty_eqb_refl t : ty_eqb t t = true.
Proof. destruct t; cbn; auto using Nat.eqb_refl. Qed.
Lemma ty_eqb_eq a b : ty_eqb a b = true -> a = b.
Proof. destruct a, b; cbn; try discriminate; try reflexivity. intros H. apply Nat.eqb_eq in H. congruence. Qed.

Lemma fill_same conv T : resolve (fill_candidates conv T T) = Chosen FValue.
Proof. unfold fill_candidates, implicit. rewrite ty_eqb_refl. reflexivity. Qed.
Lemma fill_other conv T X : X <> T -> resolve (fill_candidates conv T X) = Chosen FSequence.
Proof.
  intros H. unfold fill_candidates, implicit. destruct (ty_eqb X T) eqn:E; [now apply ty_eqb_eq in E|].
  destruct (is_class X || is_class T).
  - destruct (conv X T); reflexivity.
  - destruct (promotes X T); reflexivity.
Qed.

Section Runs.
  Context {V : Type} (sz : Z) (Hsz : (0 < sz)%Z).
  Notation St := (st V).

  Lemma for_up_split (i n m : nat) (body : nat -> M St unit) s :
    for_up i (n + m) body s = (for_up i n body ;;; for_up (i + n) m body) s.
  Proof.
    revert i s. induction n as [|n IH]; intros i s; cbn [Nat.add for_up].
    - unfold bind, ret. now rewrite Nat.add_0_r.
    - unfold bind. destruct (body i s) as [[] s'| | | |]; try reflexivity. rewrite IH. unfold bind. replace (S i + n) with (i + S n) by lia. reflexivity.
  Qed.

  Lemma for_up_ext (b1 b2 : nat -> M St unit) n : forall i s, (forall j s', i <= j < i + n -> b1 j s' = b2 j s') -> for_up i n b1 s = for_up i n b2 s.
  Proof.
    induction n as [|n IH]; intros i s H; cbn [for_up]; [reflexivity|]. unfold bind. rewrite H by lia.
    destruct (b2 i s) as [[] s'| | | |]; try reflexivity. apply IH. intros j s2 Hj. apply H. lia.
  Qed.
  Lemma run_fill (a : nat) (x : V) (s : St) l : holds s a l -> no_failure s ->
    exists s', a_fill a (AVal x) s = Ret tt s' /\ holds s' a (repeat x (length l)).
  Proof.
    intros Hl Hn. destruct (holds_inv _ _ _ Hl) as (p & Hv & Hp). unfold a_fill, bind_arg, bind, ret. rewrite (get_ok _ _ _ _ Hv). cbn [fst snd].
    destruct (fill_holds s a l (repeat x (length l)) p (CList (fun v => v) (repeat x (length l))) Hv Hp Hn) as (s' & H1 & H2 & _).
    - cbn [cur_ok]. intros j v H. now rewrite map_id.
    - apply repeat_length.
    - exists s'. split; [|exact H2]. rewrite <- H1. unfold fill_with.
      apply for_up_ext. intros i s1 Hi. unfold bind, read_ref, read_cursor. rewrite (nth_error_repeat x) by lia. reflexivity.
  Qed.

  Lemma run_fill_from (a : nat) f items (s : St) l : holds s a l -> no_failure s ->
    (length l <= length items ->
     exists s', a_fill_from a (SList f items) s = Ret tt s' /\ holds s' a (map f (firstn (length l) items))) /\
    (length items < length l -> a_fill_from a (SList f items) s = Ub UbOutOfBounds).
  Proof.
    intros Hl Hn. destruct (holds_inv _ _ _ Hl) as (p & Hv & Hp). unfold a_fill_from, bind_src, bind, ret. rewrite (get_ok _ _ _ _ Hv). cbn [fst snd]. split.
    - intros Hlen. destruct (fill_holds s a l (map f (firstn (length l) items)) p (CList f items) Hv Hp Hn) as (s' & H1 & H2 & _).
      + cbn [cur_ok]. intros j v H. rewrite <- firstn_map in H.
        assert (j < length (firstn (length l) (map f items))) as Hj by (apply nth_error_Some; congruence). rewrite firstn_length in Hj.
        rewrite <- H. rewrite <- (firstn_skipn (length l) (map f items)) at 1. apply nth_error_app1. rewrite firstn_length. exact Hj.
      + rewrite map_length, firstn_length. lia.
      + exists s'. auto.
    - intros Hlen. destruct Hp as [[-> E]|(b & bytes & -> & Hb)].
      + destruct l; [cbn in Hlen; lia|discriminate].
      + unfold fill_with. replace (length l) with (length items + S (length l - length items - 1)) by lia.
        rewrite for_up_split. unfold bind at 1.
        pose proof (put_loop false (read_cursor (CList f items)) b bytes (map Some l) (map f items) (length items) 0 s) as H.
        cbn [put] in H. rewrite H; clear H.
        * rewrite Hn. cbn [fails for_up]. unfold bind, read_cursor. rewrite (proj2 (nth_error_None items _)) by lia. reflexivity.
        * exact Hb.
        * rewrite !map_length. lia.
        * rewrite map_length. lia.
        * intros _ i E. rewrite nth_error_map in E. destruct (nth_error l i); discriminate.
        * intros i s' Hi _ _ _. cbn [read_cursor]. rewrite nth_error_map. destruct (nth_error items i) as [v|] eqn:E; [|apply nth_error_None in E; lia].
          exists (f v). split; reflexivity.
  Qed.

  Lemma run_build (d n : nat) rd vs (s : St) : new_var s d -> n = length vs -> no_failure s -> fits sz n ->
    (forall i v s', nth_error vs i = Some v -> rd i s' = Ret v s') ->
    exists s', (fresh_var d ;;; a_build sz d n rd) s = Ret tt s' /\ holds s' d vs.
  Proof.
    intros Hd -> Hn Hf Hrd. unfold bind at 1. unfold fresh_var. unfold new_var in Hd. rewrite Hd. unfold a_build.
    rewrite (new_fill sz Hsz rd vs _ s (length vs) eq_refl (fits_sane sz _ Hf)).
    - rewrite Hn, (try_ok sz _ Hf). unfold put_var. eexists. split; [reflexivity|].
      eapply holds_intro; cbn [vars heap]; [apply nth_error_upd_eq; exact (nth_error_lt _ _ _ Hd)|reflexivity|].
      right. eexists _, _. split; [reflexivity|]. apply nth_error_snoc.
    - intros i v s' Hi _ _. now apply Hrd.
  Qed.
End Runs.

Section Claims.
  Context (conv : ty -> ty -> bool) (points_at : ty -> option ty) (assigns builds : ty -> ty -> bool) {V : Type} (sz : Z) (Hsz : (0 < sz)%Z)
    (cast : ty -> ty -> V -> V) (sequence : ty -> V -> list V).
  Notation fill_call := (fill_call conv points_at assigns cast sequence).
  Notation range_call := (range_call conv points_at builds sz cast sequence).

  Lemma fill_value T a x : exists m, fill_call T T a x = Runs m /\
    forall (s : st V) l, holds s a l -> no_failure s -> exists s', m s = Ret tt s' /\ holds s' a (repeat (cast T T x) (length l)).
  Proof. eexists. split; [unfold FillModel.fill_call; rewrite fill_same; reflexivity|]. intros s l. apply run_fill. Qed.
  Lemma fill_not_value T X a x : X <> T -> points_at X = None -> fill_call T X a x = Rejected.
  Proof. intros H E. unfold FillModel.fill_call. now rewrite fill_other, E. Qed.
  Lemma fill_sequence T X Y a x : X <> T -> points_at X = Some Y -> assigns Y T = true ->
    exists m, fill_call T X a x = Runs m /\
    forall (s : st V) l, holds s a l -> no_failure s ->
      (length l <= length (sequence X x) ->
       exists s', m s = Ret tt s' /\ holds s' a (map (cast Y T) (firstn (length l) (sequence X x)))) /\
      (length (sequence X x) < length l -> m s = Ub UbOutOfBounds).
  Proof.
    intros H E Ha. eexists. split; [unfold FillModel.fill_call; rewrite fill_other, E, Ha by exact H; reflexivity|]. intros s l. apply run_fill_from.
  Qed.
  Lemma range_sequence T X Y d x n : X <> T -> points_at X = Some Y -> builds Y T = true ->
    exists m, range_call T X d x n = Runs m /\
    forall (s : st V), new_var s d -> no_failure s -> fits sz n -> n <= length (sequence X x) ->
      exists s', m s = Ret tt s' /\ holds s' d (map (cast Y T) (firstn n (sequence X x))).
  Proof.
    intros H E Hb. eexists. split; [unfold FillModel.range_call; rewrite E, fill_other, Hb by exact H; reflexivity|].
    intros s Hd Hn Hf Hlen. apply run_build; auto.
    - rewrite map_length, firstn_length. lia.
    - intros i v s' Hi. cbn [read_cursor]. rewrite <- firstn_map in Hi.
      assert (i < length (firstn n (map (cast Y T) (sequence X x)))) as Hj by (apply nth_error_Some; congruence). rewrite firstn_length in Hj.
      assert (nth_error (map (cast Y T) (sequence X x)) i = Some v) as Hv.
      { rewrite <- Hi. rewrite <- (firstn_skipn n (map (cast Y T) (sequence X x))) at 1. apply nth_error_app1. rewrite firstn_length. exact Hj. }
      rewrite nth_error_map in Hv. destruct (nth_error (sequence X x) i); [|discriminate]. injection Hv as <-. reflexivity.
  Qed.
  Lemma range_own_type T Y d x n : points_at T = Some Y ->
    exists m, range_call T T d x n = Runs m /\
    forall (s : st V), new_var s d -> no_failure s -> fits sz n -> exists s', m s = Ret tt s' /\ holds s' d (repeat (cast T T x) n).
  Proof.
    intros E. eexists. split; [unfold FillModel.range_call; rewrite E, fill_same; reflexivity|].
    intros s Hd Hn Hf. apply run_build; auto.
    - now rewrite repeat_length.
    - intros i v s' Hi. apply nth_error_In, repeat_spec in Hi. subst. reflexivity.
  Qed.
End Claims.
