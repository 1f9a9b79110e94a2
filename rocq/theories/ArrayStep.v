(** ArrayStep.v -- every statement of an array program does what it does to independent sequences. *)
From Verif Require Import Base ArrayModel ArraySpec ArrayProofs.
Local Open Scope monad_scope.
Open Scope nat_scope.

Lemma nth_firstn {A} (l : list A) n j : j < n -> nth_error (firstn n l) j = nth_error l j.
Proof. intros H. exact (firstn_skipn_nth l 0 n j H). Qed.
Lemma nth_skipn {A} (l : list A) i j : nth_error (skipn i l) j = nth_error l (i + j).
Proof. rewrite <- (firstn_skipn_nth l i (S j) j) by lia. rewrite nth_firstn by lia. reflexivity. Qed.
Lemma nth_last {A} (l : list A) v d : nth_error (v :: l) (length l) = Some (last (v :: l) d).
Proof.
  revert v. induction l as [|w l IH]; intros v; [reflexivity|].
  cbn [length nth_error]. change (last (v :: w :: l) d) with (last (w :: l) d). apply IH.
Qed.
Lemma sum_repeat {A} (f : A -> nat) x n : f x = 0 -> sum_by f (repeat x n) = 0.
Proof. intros H. induction n as [|n IH]; cbn [repeat sum_by]; [reflexivity|]. rewrite H, IH. reflexivity. Qed.

Section Step.
  Context {V : Type} (sz : Z) (dflt : V) (neq : V -> V -> bool) (eq_dec : forall x y : V, {x = y} + {x <> y}).
  Hypothesis sz_pos : (0 < sz)%Z.
  Hypothesis neq_spec : forall x y, neq x y = true <-> x <> y.
  Notation St := (st V).
  Notation Rep := (Rep sz).

  Definition okres (r : res St (out V)) (x : out V) (m' : vst V) : Prop :=
    match r with
    | Ret y s' => y = x /\ Rep m' s'
    | Exc e s' => x = OExc e /\ Rep m' s'
    | _ => False
    end.

  Lemma fresh_ok (s : St) d : nth_error (vars s) d = Some Dead -> fresh_var d s = Ret tt s.
  Proof. intros H. unfold fresh_var. rewrite H. reflexivity. Qed.
  Lemma get_ok (s : St) a n p : nth_error (vars s) a = Some (Arr n p) -> get_var a s = Ret (n, p) s.
  Proof. intros H. unfold get_var. rewrite H. reflexivity. Qed.
  Lemma snoc_slots (h : list (blk V)) n l : fits sz n -> n = length l -> slot_ok sz (h ++ [nblk sz n l]) (VArr true l) (Arr n (Some (length h))).
  Proof.
    intros Hf ->. cbn [slot_ok]. split; [reflexivity|]. cbn [ptr_ok]. split; [exact Hf|]. exists (length h).
    split; [reflexivity|]. apply nth_error_app_mid.
  Qed.

  Lemma build_step m (s : St) d vs rd n x m' :
    Rep m s -> n = length vs -> old_reader s rd vs -> s_build sz m d vs (cd s) = Some (x, m') ->
    nth_error (vars s) d = Some Dead /\ okres (done (a_build sz d n rd) s) x m'.
  Proof.
    intros HR -> Hrd H. unfold s_build in H.
    destruct (is_free m d) eqn:Hf; [|discriminate]. destruct (sane sz (length vs)) eqn:Hs; [|discriminate]. cbn [andb] in H.
    destruct (rep_free _ _ _ _ HR Hf) as (Hd1 & Hd2). split; [exact Hd2|].
    unfold done, bind at 1, a_build.
    rewrite (new_fill sz sz_pos rd vs (fun p => put_var d (Arr (length vs) p)) s (length vs) eq_refl Hs Hrd).
    destruct (try_new sz (length vs) (cd s)) as [| |j] eqn:Ht.
    - injection H as <- <-. unfold put_var. cbn [vars heap made gone cd okres ret]. split; [reflexivity|].
      unfold set, hold. eapply (rep_upd1 sz m s); [exact HR|exact Hd1|exact Hd2|reflexivity|..].
      + intros b _ Hb. cbn [heap]. apply nth_error_snoc_old. exact Hb.
      + cbn [heap]. apply snoc_slots; [exact (try_new_fits _ _ _ Ht)|rewrite map_length; reflexivity].
      + cbn [owned]. intros b E. injection E as <-. right. lia.
      + rewrite unreleased_snoc. cbn [b_freed nblk own1]. unfold unreleased. lia.
      + cbn [made gone live1]. rewrite count_live_map. lia.
    - injection H as <- <-. cbn [okres]. split; [reflexivity|]. apply rep_failure. exact HR.
    - injection H as <- <-. cbn [okres]. split; [reflexivity|].
      eapply rep_same; [exact HR|reflexivity|..].
      + intros c Hc. cbn [heap]. apply nth_error_snoc_old. exact Hc.
      + rewrite unreleased_snoc. reflexivity.
      + cbn [made gone]. lia.
  Qed.

  Lemma overwrite_other p l (h : list (blk V)) b : p <> Some b -> nth_error (overwrite p l h) b = nth_error h b.
  Proof.
    intros H. unfold overwrite. destruct p as [c|]; [|reflexivity]. destruct (nth_error h c); [|reflexivity].
    apply nth_error_upd_neq. congruence.
  Qed.
  Lemma overwrite_ok own (l l' : list (option V)) p (h : list (blk V)) :
    ptr_ok sz h own l p -> length l' = length l -> ptr_ok sz (overwrite p l' h) own l' p.
  Proof.
    intros Hp Hl. unfold ptr_ok in *. destruct own.
    - destruct Hp as (Hf & b & -> & Hb). rewrite Hl. split; [exact Hf|]. exists b. split; [reflexivity|].
      unfold overwrite. rewrite Hb. rewrite nth_error_upd_eq by exact (nth_error_lt _ _ _ Hb). reflexivity.
    - destruct Hp as (-> & ->). destruct l'; [|discriminate]. auto.
  Qed.
  Lemma overwrite_count own (l l' : list (option V)) p (h : list (blk V)) : ptr_ok sz h own l p ->
    length (filter (fun k => negb (b_freed k)) (overwrite p l' h)) = length (filter (fun k => negb (b_freed k)) h).
  Proof.
    intros Hp. unfold ptr_ok in Hp. destruct own.
    - destruct Hp as (_ & b & -> & Hb). unfold overwrite. rewrite Hb.
      pose proof (count_blocks_upd b _ (mkBlk (b_bytes (nblk sz (length l) l)) l' (b_freed (nblk sz (length l) l))) h Hb) as E.
      cbn [b_freed nblk] in E. cbn [b_freed nblk]. lia.
    - destruct Hp as (_ & ->). reflexivity.
  Qed.
  (** the elements of one variable are changed in place *)
  Lemma rep_overwrite m (s : St) a own l l' p mm g c e :
    Rep m s -> nth_error (store m) a = Some (VArr own l) -> nth_error (vars s) a = Some (Arr (length l) p) ->
    ptr_ok sz (heap s) own l p -> length l' = length l ->
    mm + gone s + count_live l + lost_elems m = g + made s + count_live l' + e ->
    Rep (mkVst (upd a (VArr own l') (store m)) (lost_blocks m) e) (mkSt (vars s) (overwrite p l' (heap s)) mm g c).
  Proof.
    intros HR Hs Hv Hp Hl He.
    eapply (rep_upd1 sz m s _ a (VArr own l) (Arr (length l) p) (VArr own l') (Arr (length l) p)); [exact HR|exact Hs|exact Hv|..].
    - cbn [vars]. symmetry. apply upd_same. exact Hv.
    - intros b Hb _. cbn [heap owned] in *. apply overwrite_other. exact Hb.
    - cbn [heap slot_ok]. split; [congruence|]. eapply overwrite_ok; eassumption.
    - cbn [owned]. auto.
    - unfold unreleased. cbn [heap own1]. rewrite (overwrite_count own l l' p _ Hp). destruct own; reflexivity.
    - cbn [made gone live1]. exact He.
  Qed.

  Lemma fill_step m (s : St) a own l vs rd p n x m' :
    Rep m s -> nth_error (store m) a = Some (VArr own (map Some l)) -> nth_error (vars s) a = Some (Arr (length l) p) ->
    ptr_ok sz (heap s) own (map Some l) p -> length vs = length l -> n = length l -> fill_reader s p l rd vs ->
    s_fill m a own l vs (cd s) = Some (x, m') ->
    okres (done (fill_with n p rd) s) x m'.
  Proof.
    intros HR Hs Hv Hp Hlen -> Hrd H. unfold done, bind at 1.
    rewrite (fill_exact rd l vs p s (length l) eq_refl (ptr_pointee sz _ _ _ _ Hp) Hlen Hrd).
    unfold s_fill in H.
    assert (forall ws c, length ws = length l ->
      Rep (set m a (VArr own (map Some ws))) (mkSt (vars s) (overwrite p (map Some ws) (heap s)) (made s) (gone s) c)) as Hgo.
    { intros ws c Hws. unfold set. eapply rep_overwrite; [exact HR|exact Hs|rewrite map_length; exact Hv|exact Hp|..].
      - rewrite !map_length. exact Hws.
      - rewrite !count_live_map. lia. }
    destruct (cd s) as [j|]; cbn [fails].
    - destruct (Nat.ltb_spec j (length l)).
      + injection H as <- <-. cbn [okres]. split; [reflexivity|]. apply Hgo.
        rewrite app_length, firstn_length, skipn_length. lia.
      + injection H as <- <-. cbn [okres ret]. split; [reflexivity|]. apply Hgo. exact Hlen.
    - injection H as <- <-. cbn [okres ret]. split; [reflexivity|]. apply Hgo. exact Hlen.
  Qed.

  Lemma resize_step m (s : St) a n own l rd v x m' p :
    Rep m s -> nth_error (store m) a = Some (VArr own (map Some l)) -> nth_error (vars s) a = Some (Arr (length l) p) ->
    ptr_ok sz (heap s) own (map Some l) p ->
    (forall s' : St, vars s' = vars s -> (forall b, b < length (heap s) -> nth_error (heap s') b = nth_error (heap s) b) -> rd s' = Ret v s') ->
    s_resize sz m a n l v (cd s) = Some (x, m') ->
    okres (done (resize_to sz a n rd) s) x m'.
  Proof.
    intros HR Hs Hv Hp Hrd H. unfold s_resize in H. destruct (Nat.eqb_spec n (length l)) as [E|Hn].
    - injection H as <- <-. unfold done, bind, resize_to, bind. rewrite (get_ok _ _ _ _ Hv). cbn [fst].
      rewrite E, Nat.eqb_refl. cbn [okres ret]. split; [reflexivity|exact HR].
    - destruct (sane sz n) eqn:Hsane; [|discriminate].
      unfold done, bind at 1. rewrite (resize_exact sz sz_pos a n l p rd v s Hv (ptr_pointee sz _ _ _ _ Hp) Hn Hsane Hrd).
      assert (length (resized n l v) = n) as Hlen.
      { unfold resized. rewrite app_length, firstn_length, repeat_length. lia. }
      destruct (try_new sz n (cd s)) as [| |j] eqn:Ht.
      + injection H as <- <-. cbn [okres ret]. split; [reflexivity|]. unfold set, hold.
        assert (forall b, p = Some b -> b < length (heap s)) as Hlt.
        { intros b ->. apply (slot_ok_lt sz (heap s) (VArr own (map Some l)) (Arr (length l) (Some b))); [|reflexivity].
          cbn [slot_ok]. rewrite map_length. auto. }
        assert (ptr_ok sz (heap s ++ [nblk sz n (map Some (resized n l v))]) own (map Some l) p) as Hp'.
        { apply (ptr_ok_frame _ _ _ _ _ _ Hp). intros b Hb. apply nth_error_snoc_old. apply Hlt. exact Hb. }
        eapply (rep_upd1 sz m s); [exact HR|exact Hs|exact Hv|reflexivity|..].
        * intros b Hb Hlt'. cbn [heap owned] in *. rewrite release_other by exact Hb. apply nth_error_snoc_old. exact Hlt'.
        * cbn [heap]. apply (slot_ok_frame sz (heap s ++ [nblk sz n (map Some (resized n l v))])).
          -- apply snoc_slots; [exact (try_new_fits _ _ _ Ht)|rewrite map_length; lia].
          -- cbn [owned]. intros b E. injection E as <-. apply release_other. intros E. apply Hlt in E. lia.
        * cbn [owned]. intros b E. injection E as <-. right. lia.
        * unfold unreleased. cbn [heap]. pose proof (count_release sz own _ _ (length l) _ Hp') as E.
          rewrite filter_app, app_length in E. cbn [filter nblk b_freed negb length] in E.
          cbn [nblk] in *. cbn [own1]. destruct own; cbn [own1]; lia.
        * cbn [made gone live1]. rewrite !count_live_map. lia.
      + injection H as <- <-. cbn [okres]. split; [reflexivity|]. apply rep_failure. exact HR.
      + injection H as <- <-. cbn [okres]. split; [reflexivity|].
        eapply rep_same; [exact HR|reflexivity|..].
        * intros c Hc. cbn [heap]. apply nth_error_snoc_old. exact Hc.
        * rewrite unreleased_snoc. reflexivity.
        * cbn [made gone]. lia.
  Qed.

  Lemma replace_step m (s : St) a own l vs rd p n n' x m' :
    Rep m s -> nth_error (store m) a = Some (VArr own (map Some l)) -> nth_error (vars s) a = Some (Arr (length l) p) ->
    ptr_ok sz (heap s) own (map Some l) p -> n = length l -> n' = length vs ->
    (forall i v (s' : St), nth_error vs i = Some v ->
       (forall b, p <> Some b -> b < length (heap s) -> nth_error (heap s') b = nth_error (heap s) b) -> rd i s' = Ret v s') ->
    s_replace sz m a vs (cd s) = Some (x, m') ->
    okres (done (replace_seq sz a n p n' rd) s) x m'.
  Proof.
    intros HR Hs Hv Hp -> -> Hrd H. unfold s_replace in H. destruct (sane sz (length vs)) eqn:Hsane; [|discriminate].
    unfold done, bind at 1. rewrite (replace_exact sz sz_pos a l vs p rd s _ _ eq_refl eq_refl (ptr_pointee sz _ _ _ _ Hp) Hsane Hrd).
    destruct (try_new sz (length vs) (cd s)) eqn:Ht; try discriminate.
    injection H as <- <-. cbn [okres ret]. split; [reflexivity|]. unfold set, hold.
    eapply (rep_upd1 sz m s); [exact HR|exact Hs|exact Hv|reflexivity|..].
    - intros b Hb Hlt. cbn [heap owned] in *. rewrite nth_error_snoc_old by (rewrite release_length; exact Hlt).
      apply release_other. exact Hb.
    - cbn [heap]. rewrite <- (release_length (length l) p (heap s)).
      apply snoc_slots; [exact (try_new_fits _ _ _ Ht)|rewrite map_length; lia].
    - cbn [owned]. intros b E. injection E as <-. right. lia.
    - rewrite unreleased_snoc. unfold unreleased. pose proof (count_release sz own _ _ (length l) _ Hp) as E.
      cbn [nblk b_freed]. destruct own; cbn [own1]; lia.
    - cbn [made gone live1]. rewrite !count_live_map. lia.
  Qed.

  (** ** readers *)
  Lemma reader_const (s : St) x n : old_reader s (fun _ => ret x) (repeat x n).
  Proof. intros i v s' Hi _ _. apply nth_error_In, repeat_spec in Hi. subst v. reflexivity. Qed.
  Lemma reader_ref (s : St) r x n : ref_ok s r x -> old_reader s (fun _ => read_ref r) (repeat x n).
  Proof.
    intros H i v s' Hi _ Hfr. apply nth_error_In, repeat_spec in Hi. subst v. apply read_ref_ok. eapply ref_ok_old; eassumption.
  Qed.
  Lemma reader_cursor (s : St) c vs : cur_ok s c vs -> old_reader s (read_cursor c) vs.
  Proof. intros H i v s' Hi _ Hfr. eapply read_cursor_ok; [|exact Hi]. eapply cur_ok_old; eassumption. Qed.
  Lemma reader_gen (s : St) g n : old_reader s (fun i => ret (g i)) (map g (seq 0 n)).
  Proof.
    intros i v s' Hi _ _. rewrite nth_error_map in Hi. destruct (nth_error (seq 0 n) i) as [k|] eqn:Hk; [|discriminate].
    injection Hi as <-. pose proof (nth_error_lt _ _ _ Hk) as Hlt. rewrite seq_length in Hlt.
    apply (nth_error_nth _ _ 0) in Hk. rewrite seq_nth in Hk by exact Hlt. subst k. reflexivity.
  Qed.
  Lemma cur_copy (s : St) own ws p (f : V -> V) :
    ptr_ok sz (heap s) own (map Some ws) p -> cur_ok s (CPtr f p 0) (map f ws).
  Proof.
    intros Hp. cbn [cur_ok]. unfold ptr_ok in Hp. destruct own.
    - destruct Hp as (_ & b & -> & Hb). right. exists b, (nblk sz (length (map Some ws)) (map Some ws)). repeat split; [exact Hb|].
      intros j v' Hj. rewrite nth_error_map in Hj. destruct (nth_error ws j) as [w|] eqn:Hw; [|discriminate]. injection Hj as <-.
      exists w. split; [|reflexivity]. cbn [b_cells nblk Nat.add]. rewrite nth_error_map, Hw. reflexivity.
    - destruct Hp as (E & _). destruct ws; [|discriminate]. left. reflexivity.
  Qed.
  Lemma cur_firstn (s : St) c vs n : cur_ok s c vs -> cur_ok s c (firstn n vs).
  Proof.
    assert (forall j v, nth_error (firstn n vs) j = Some v -> nth_error vs j = Some v) as E.
    { intros j v H. pose proof (nth_error_lt _ _ _ H) as Hlt. rewrite firstn_length in Hlt.
      rewrite nth_firstn in H by lia. exact H. }
    destruct c as [f l|f p i]; cbn [cur_ok].
    - intros H j v Hj. apply H, E, Hj.
    - intros [->|(b & k & H1 & H2 & H3 & H4)].
      + left. destruct n; reflexivity.
      + right. exists b, k. repeat split; auto.
  Qed.
  Lemma fill_reader_ref (s : St) r x p l : pointee (heap s) (map Some l) p -> ref_ok s r x ->
    fill_reader s p l (fun _ => read_ref r) (repeat x (length l)).
  Proof.
    intros Hp Hr i v s' Hi _ Hfr Hsame. pose proof (nth_error_lt _ _ _ Hi) as Hlt. rewrite repeat_length in Hlt.
    apply nth_error_In, repeat_spec in Hi. subst v. apply read_ref_ok.
    destruct r as [v|[q j]]; [exact Hr|]. cbn [ref_ok] in *. destruct Hr as (b & k & -> & H1 & H2 & H3).
    assert (p = Some b \/ p <> Some b) as [E|E].
    { destruct p as [c|]; [destruct (Nat.eq_dec c b); [left|right]; congruence|right; discriminate]. }
    - exists b, (mkBlk (b_bytes k) (map Some (firstn i (repeat x (length l)) ++ skipn i l)) false).
      split; [reflexivity|]. split; [exact (Hsame b k E H1)|]. split; [reflexivity|]. cbn [b_cells].
      assert (b_cells k = map Some l) as Hk.
      { destruct Hp as [[E' _]|(b' & bytes & E' & Hb')]; [congruence|]. rewrite E in E'. injection E' as <-.
        rewrite H1 in Hb'. injection Hb' as ->. reflexivity. }
      rewrite Hk in H3. rewrite nth_error_map in H3. destruct (nth_error l j) as [w|] eqn:Hw; [|discriminate]. injection H3 as ->.
      rewrite nth_error_map.
      assert (length (firstn i (repeat x (length l))) = i) as Hlen by (rewrite firstn_length, repeat_length; lia).
      assert (nth_error (firstn i (repeat x (length l)) ++ skipn i l) j = Some x) as ->; [|reflexivity].
      destruct (Nat.lt_ge_cases j i) as [Hji|Hji].
      + rewrite nth_error_app1 by lia.
        destruct (nth_error (firstn i (repeat x (length l))) j) as [y|] eqn:Hy; [|apply nth_error_None in Hy; lia].
        rewrite nth_firstn in Hy by lia. apply nth_error_In, repeat_spec in Hy. congruence.
      + rewrite nth_error_app2 by lia. rewrite Hlen.
        rewrite nth_skipn. replace (i + (j - i)) with j by lia. exact Hw.
    - exists b, k. rewrite (Hfr b E). auto.
  Qed.
  Lemma fill_reader_cursor (s : St) c vs p l : pointee (heap s) (map Some l) p -> cur_ok s c vs -> length vs = length l ->
    fill_reader s p l (read_cursor c) vs.
  Proof.
    intros Hp Hc Hlen i v s' Hi _ Hfr Hsame. pose proof (nth_error_lt _ _ _ Hi) as Hlt.
    destruct c as [f l0|f q j]; cbn [cur_ok read_cursor] in *.
    - specialize (Hc i v Hi). rewrite nth_error_map in Hc. destruct (nth_error l0 i); [|discriminate]. injection Hc as <-. reflexivity.
    - destruct Hc as [->|(b & k & -> & H1 & H2 & H3)]; [destruct i; discriminate|].
      destruct (H3 i v Hi) as (w & Hw & ->). unfold bind.
      assert (p = Some b \/ p <> Some b) as [E|E].
      { destruct p as [c|]; [destruct (Nat.eq_dec c b); [left|right]; congruence|right; discriminate]. }
      + rewrite (load_ok s' b _ (j + i) w (Hsame b k E H1) eq_refl); [reflexivity|]. cbn [b_cells].
        assert (b_cells k = map Some l) as Hk.
        { destruct Hp as [[E' _]|(b' & bytes & E' & Hb')]; [congruence|]. rewrite E in E'. injection E' as <-.
          rewrite H1 in Hb'. injection Hb' as ->. reflexivity. }
        rewrite Hk in Hw. rewrite map_app, nth_error_app2 by (rewrite map_length, firstn_length; lia).
        rewrite map_length, firstn_length, Nat.min_l by lia.
        rewrite <- skipn_map, nth_skipn. replace (i + (j + i - i)) with (j + i) by lia. exact Hw.
      + rewrite (load_ok s' b k (j + i) w); [reflexivity|rewrite (Hfr b E); exact H1|exact H2|exact Hw].
  Qed.
  (** a cursor into another array *)
  Lemma cur_ok_others (s s' : St) c vs p :
    cur_ok s c vs -> (forall f i, c = CPtr f p i -> p <> None -> vs = []) ->
    (forall b, p <> Some b -> b < length (heap s) -> nth_error (heap s') b = nth_error (heap s) b) -> cur_ok s' c vs.
  Proof.
    destruct c as [f l|f q i]; cbn [cur_ok]; [auto|]. intros [->|(b & k & -> & H1 & H2 & H3)] Hne Hfr; [left; reflexivity|].
    destruct p as [c|]; [destruct (Nat.eq_dec c b) as [->|Hcb]|].
    - left. apply (Hne f i eq_refl). discriminate.
    - right. exists b, k. rewrite (Hfr b) by (congruence || exact (nth_error_lt _ _ _ H1)). auto.
    - right. exists b, k. rewrite (Hfr b) by (congruence || exact (nth_error_lt _ _ _ H1)). auto.
  Qed.

  (** ** statements *)
  Lemma done_fresh (k : M St unit) (s : St) d x m' :
    nth_error (vars s) d = Some Dead -> okres (done k s) x m' -> okres (done (fresh_var d ;;; k) s) x m'.
  Proof. intros Hd H. unfold done, bind in *. rewrite (fresh_ok _ _ Hd). exact H. Qed.
  Lemma free_vars m (s : St) d x m' vs f : Rep m s -> s_build sz m d vs f = Some (x, m') -> nth_error (vars s) d = Some Dead.
  Proof.
    intros HR H. unfold s_build in H. destruct (is_free m d) eqn:E; [|discriminate]. exact (proj2 (rep_free _ _ _ _ HR E)).
  Qed.
  Lemma value_step m (s : St) d n t x m' :
    Rep m s -> sstep sz dflt eq_dec m (OpValue d n t) (cd s) = Some (x, m') -> okres (done (a_value sz d n t) s) x m'.
  Proof.
    intros HR H. cbn [sstep] in H. destruct (arg_val m t) as [v|] eqn:Hv; [|discriminate].
    destruct (bind_arg_ok _ _ _ _ _ HR Hv) as (r & Hr & Hok). unfold a_value. apply done_fresh; [eapply free_vars; eassumption|].
    unfold done, bind. rewrite Hr. eapply build_step; [exact HR| |apply reader_ref; exact Hok|exact H].
    rewrite repeat_length. reflexivity.
  Qed.
  Lemma from_step m (s : St) d y x m' :
    Rep m s -> sstep sz dflt eq_dec m (OpFrom d y) (cd s) = Some (x, m') -> okres (done (a_from sz d y) s) x m'.
  Proof.
    intros HR H. cbn [sstep] in H. unfold a_from. destruct (is_free m d && reversed m y) eqn:E.
    - apply andb_true_iff in E. destruct E as (Hf & Hr). injection H as <- <-.
      apply done_fresh; [exact (proj2 (rep_free _ _ _ _ HR Hf))|].
      destruct (bind_src_reversed sz sz_pos _ _ _ HR Hr) as (c & n & Hb & _ & Hn).
      unfold done, bind. rewrite Hb. cbn [fst snd]. unfold a_build, bind. rewrite Hn. cbn [okres].
      split; [reflexivity|]. apply rep_failure. exact HR.
    - destruct (src_val m y) as [vs|] eqn:Hv; [|discriminate].
      destruct (bind_src_ok sz sz_pos _ _ _ _ HR Hv) as (c & Hb & Hc & _).
      apply done_fresh; [eapply free_vars; eassumption|].
      unfold done, bind. rewrite Hb. cbn [fst snd]. eapply build_step; [exact HR|reflexivity|apply reader_cursor; exact Hc|exact H].
  Qed.
  Lemma copy_step m (s : St) d a f x m' :
    Rep m s -> sstep sz dflt eq_dec m (OpCopy d a f) (cd s) = Some (x, m') -> okres (done (a_copy sz d a f) s) x m'.
  Proof.
    intros HR H. cbn [sstep] in H. destruct (seq_of m a) as [[own ws]|] eqn:Hs; [|discriminate].
    destruct (rep_seq _ _ _ _ _ _ HR Hs) as (_ & p & _ & Hv & Hp). unfold a_copy.
    apply done_fresh; [eapply free_vars; eassumption|].
    unfold done, bind. rewrite (get_ok _ _ _ _ Hv). cbn [fst snd].
    eapply build_step; [exact HR|symmetry; apply map_length|apply reader_cursor; eapply cur_copy; exact Hp|exact H].
  Qed.

  (** two variables exchange or pass on their storage *)
  Lemma rep_swap m (s : St) a b own l own' l' p q :
    Rep m s -> nth_error (store m) a = Some (VArr own l) -> nth_error (vars s) a = Some (Arr (length l) p) -> ptr_ok sz (heap s) own l p ->
    nth_error (store m) b = Some (VArr own' l') -> nth_error (vars s) b = Some (Arr (length l') q) -> ptr_ok sz (heap s) own' l' q ->
    Rep (set (set m a (VArr own' l')) b (VArr own l))
        (mkSt (upd b (Arr (length l) p) (upd a (Arr (length l') q) (vars s))) (heap s) (made s) (gone s) (cd s)).
  Proof.
    intros HR Ha Hva Hpa Hb Hvb Hpb.
    destruct (Nat.eq_dec a b) as [->|Hab].
    { rewrite Ha in Hb. injection Hb as <- <-. rewrite Hva in Hvb. injection Hvb as <-.
      unfold set. cbn [store lost_blocks lost_elems]. rewrite !upd_upd, (upd_same _ _ _ Ha), (upd_same _ _ _ Hva).
      destruct m, s; exact HR. }
    destruct HR as [H1 H2 H3 H4]. constructor; cbn [vars heap store lost_blocks lost_elems set made gone].
    - apply Forall2_upd; [apply Forall2_upd; [exact H1|]|]; cbn [slot_ok]; auto.
    - intros i j c x y Hx Hy Hxc Hyc. rewrite !nth_error_upd, !upd_length in Hx, Hy.
      pose proof (nth_error_lt _ _ _ Hva) as La. pose proof (nth_error_lt _ _ _ Hvb) as Lb.
      apply Nat.ltb_lt in La. apply Nat.ltb_lt in Lb. rewrite La, Lb in Hx, Hy.
      pose proof (H2 a b c _ _ Hva Hvb) as Eab. cbn [owned] in Eab.
      destruct (Nat.eqb_spec b i), (Nat.eqb_spec b j); try congruence;
        destruct (Nat.eqb_spec a i); destruct (Nat.eqb_spec a j); try congruence; subst;
        repeat match goal with E : Some _ = Some _ |- _ => injection E as E; subst end; cbn [owned] in *;
        try (exfalso; apply Hab; apply Eab; congruence).
      + pose proof (H2 a j c _ _ Hva Hy Hxc Hyc). congruence.
      + pose proof (H2 a i c _ _ Hva Hx Hyc Hxc). congruence.
      + pose proof (H2 b j c _ _ Hvb Hy Hxc Hyc). congruence.
      + pose proof (H2 b i c _ _ Hvb Hx Hyc Hxc). congruence.
      + exact (H2 i j c _ _ Hx Hy Hxc Hyc).
    - unfold unreleased in *. cbn [heap].
      pose proof (sum_by_upd own1 a (VArr own' l') _ _ Ha) as E1.
      assert (nth_error (upd a (VArr own' l') (store m)) b = Some (VArr own' l')) as Hb' by (rewrite nth_error_upd_neq; assumption).
      pose proof (sum_by_upd own1 b (VArr own l) _ _ Hb') as E2. cbn [own1] in *. destruct own, own'; lia.
    - pose proof (sum_by_upd live1 a (VArr own' l') _ _ Ha) as E1.
      assert (nth_error (upd a (VArr own' l') (store m)) b = Some (VArr own' l')) as Hb' by (rewrite nth_error_upd_neq; assumption).
      pose proof (sum_by_upd live1 b (VArr own l) _ _ Hb') as E2. cbn [live1] in *. lia.
  Qed.
  Lemma get_set m (s : St) a b own l y y' p : Rep m s -> a <> b -> lookup m b = Some (own, l) ->
    nth_error (vars s) b = Some (Arr (length l) p) ->
    nth_error (upd a y (store m)) b = Some (VArr own l) /\ nth_error (upd a y' (vars s)) b = Some (Arr (length l) p).
  Proof.
    intros HR Hab Hl Hv. destruct (rep_lookup _ _ _ _ _ _ HR Hl) as (_ & H1 & _ & _).
    rewrite !nth_error_upd_neq by exact Hab. auto.
  Qed.
  Lemma default_rep m (s : St) d c : Rep m s -> is_free m d = true ->
    Rep (set m d (VArr false [])) (mkSt (upd d (Arr 0 None) (vars s)) (heap s) (made s) (gone s) c).
  Proof.
    intros HR Hf. destruct (rep_free _ _ _ _ HR Hf) as (H1 & H2). unfold set.
    eapply (rep_upd1 sz m s); [exact HR|exact H1|exact H2|reflexivity|..]; cbn [heap slot_ok ptr_ok owned unreleased own1 made gone live1]; auto.
    change (@count_live V []) with 0. lia.
  Qed.
  Lemma move_step m (s : St) d a x m' :
    Rep m s -> sstep sz dflt eq_dec m (OpMove d a) (cd s) = Some (x, m') -> okres (done (a_move d a) s) x m'.
  Proof.
    intros HR H. cbn [sstep] in H. destruct (lookup m a) as [[own l]|] eqn:Hl; [|discriminate].
    destruct (is_free m d) eqn:Hf; [|discriminate]. injection H as <- <-.
    destruct (rep_lookup _ _ _ _ _ _ HR Hl) as (p & Hs & Hv & Hp). destruct (rep_free _ _ _ _ HR Hf) as (H1 & H2).
    assert (d <> a) as Hda by congruence.
    unfold a_move. apply done_fresh; [exact H2|]. unfold done, bind. rewrite (get_ok _ _ _ _ Hv). cbn [fst snd].
    unfold put_var. cbn [vars heap made gone cd okres ret]. split; [reflexivity|].
    pose proof (default_rep m s d (cd s) HR Hf) as HR1.
    pose proof (rep_swap _ _ a d own l false [] p None HR1) as HR2.
    cbn [store vars heap set made gone cd lost_blocks lost_elems] in HR2.
    rewrite !nth_error_upd_neq in HR2 by auto.
    rewrite !nth_error_upd_eq in HR2 by first [exact (nth_error_lt _ _ _ H1)|exact (nth_error_lt _ _ _ H2)].
    specialize (HR2 Hs Hv Hp eq_refl eq_refl (conj eq_refl eq_refl)).
    unfold set. cbn [store lost_blocks lost_elems length] in *.
    rewrite (upd_comm a d), upd_upd in HR2 by auto. unfold set in HR2. cbn [store lost_blocks lost_elems] in HR2. rewrite (upd_comm a d), upd_upd in HR2 by auto. exact HR2.
  Qed.
  Lemma swap_step m (s : St) a b x m' :
    Rep m s -> sstep sz dflt eq_dec m (OpSwap a b) (cd s) = Some (x, m') -> okres (done (a_swap a b) s) x m'.
  Proof.
    intros HR H. cbn [sstep] in H. destruct (lookup m a) as [[own l]|] eqn:Ha; [|discriminate].
    destruct (lookup m b) as [[own' l']|] eqn:Hb; [|discriminate]. injection H as <- <-.
    destruct (rep_lookup _ _ _ _ _ _ HR Ha) as (p & Hs & Hv & Hp). destruct (rep_lookup _ _ _ _ _ _ HR Hb) as (q & Hs' & Hv' & Hp').
    unfold a_swap, done, bind. rewrite (get_ok _ _ _ _ Hv), (get_ok _ _ _ _ Hv'). unfold put_var.
    cbn [fst snd vars heap made gone cd okres ret]. split; [reflexivity|]. eapply rep_swap; eassumption.
  Qed.
  Lemma move_assign_step m (s : St) d a x m' :
    Rep m s -> sstep sz dflt eq_dec m (OpMoveAssign d a) (cd s) = Some (x, m') -> okres (done (a_move_assign d a) s) x m'.
  Proof.
    intros HR H. cbn [sstep] in H. destruct (lookup m d) as [[own l]|] eqn:Hd; [|discriminate].
    destruct (lookup m a) as [[own' l']|] eqn:Ha; [|discriminate].
    destruct (rep_lookup _ _ _ _ _ _ HR Hd) as (p & Hs & Hv & Hp). destruct (rep_lookup _ _ _ _ _ _ HR Ha) as (q & Hs' & Hv' & Hp').
    unfold a_move_assign, done, bind. rewrite (get_ok _ _ _ _ Hv), (get_ok _ _ _ _ Hv'). cbn [fst snd].
    destruct (Nat.eqb_spec d a) as [E|Hda].
    { injection H as <- <-. cbn [okres ret]. split; [reflexivity|exact HR]. }
    injection H as <- <-. unfold put_var. cbn [vars heap made gone cd okres ret]. split; [reflexivity|].
    (* first the target lets go of its storage, then the two variables are swapped *)
    assert (Rep (mkVst (upd d (VArr false []) (store m)) (lost_blocks m + (if own then 1 else 0)) (lost_elems m + count_live l))
                (mkSt (upd d (Arr 0 None) (vars s)) (heap s) (made s) (gone s) (cd s))) as HR1.
    { eapply (rep_upd1 sz m s); [exact HR|exact Hs|exact Hv|reflexivity|..]; cbn [heap slot_ok ptr_ok owned unreleased made gone live1]; auto.
      - intros b E. discriminate E.
      - unfold unreleased. cbn [heap own1]. destruct own; lia.
      - change (@count_live V []) with 0. lia. }
    pose proof (rep_swap _ _ d a false [] own' l' None q HR1) as HR2.
    cbn [store vars heap set made gone cd lost_blocks lost_elems] in HR2.
    rewrite !(nth_error_upd_eq d) in HR2 by first [exact (nth_error_lt _ _ _ Hs)|exact (nth_error_lt _ _ _ Hv)].
    rewrite !nth_error_upd_neq in HR2 by auto.
    specialize (HR2 eq_refl eq_refl (conj eq_refl eq_refl) Hs' Hv' Hp').
    unfold set, lose in *. cbn [store lost_blocks lost_elems length] in *. rewrite !upd_upd in HR2. exact HR2.
  Qed.

  Lemma destroy_step m (s : St) a x m' :
    Rep m s -> sstep sz dflt eq_dec m (OpDestroy a) (cd s) = Some (x, m') -> okres (done (a_destroy a) s) x m'.
  Proof.
    intros HR H. cbn [sstep] in H. destruct (seq_of m a) as [[own l]|] eqn:Hs; [|discriminate]. injection H as <- <-.
    destruct (rep_seq _ _ _ _ _ _ HR Hs) as (_ & p & Hst & Hv & Hp).
    unfold a_destroy, done, bind at 1, bind at 1. rewrite (get_ok _ _ _ _ Hv). cbn [fst snd].
    rewrite (destroy_release l p _ s _ eq_refl (ptr_pointee sz _ _ _ _ Hp)). unfold put_var. cbn [vars heap made gone cd okres ret].
    split; [reflexivity|]. unfold set.
    eapply (rep_upd1 sz m s); [exact HR|exact Hst|exact Hv|reflexivity|..]; cbn [heap slot_ok owned made gone live1 own1]; auto.
    - intros b Hb _. apply release_other. exact Hb.
    - intros b E. discriminate E.
    - unfold unreleased. cbn [heap]. pose proof (count_release sz own _ _ (length l) _ Hp). cbn [own1]. destruct own; lia.
    - rewrite count_live_map. lia.
  Qed.
  Lemma uninit_step m (s : St) d n x m' :
    Rep m s -> sstep sz dflt eq_dec m (OpUninit d n) (cd s) = Some (x, m') -> okres (done (a_uninit sz d n) s) x m'.
  Proof.
    intros HR H. cbn [sstep] in H. destruct (is_free m d) eqn:Hf; [|discriminate]. destruct (sane sz n) eqn:Hs; [|discriminate].
    cbn [andb] in H. destruct (rep_free _ _ _ _ HR Hf) as (H1 & H2). unfold a_uninit. apply done_fresh; [exact H2|].
    unfold done, bind. rewrite (new_ok sz sz_pos n s Hs).
    destruct (try_new sz 0 (cd s)) eqn:E0; [destruct (try_new sz n None) eqn:E1|..]; injection H as <- <-; cbn [okres];
      try (split; [reflexivity|]; apply rep_failure; exact HR).
    unfold put_var. cbn [vars heap made gone cd okres ret]. split; [reflexivity|]. unfold set.
    eapply (rep_upd1 sz m s); [exact HR|exact H1|exact H2|reflexivity|..]; cbn [made gone live1].
    - intros b _ Hb. cbn [heap]. apply nth_error_snoc_old. exact Hb.
    - cbn [heap]. apply snoc_slots; [exact (try_new_fits _ _ _ E1)|rewrite repeat_length; reflexivity].
    - cbn [owned]. intros b E. injection E as <-. right. lia.
    - rewrite unreleased_snoc. cbn [b_freed nblk own1]. unfold unreleased. lia.
    - rewrite count_live_none. lia.
  Qed.

  Lemma rep_other m (s : St) a b n k p q : Rep m s -> a <> b -> nth_error (vars s) a = Some (Arr n (Some p)) ->
    nth_error (vars s) b = Some (Arr k q) -> q <> Some p.
  Proof.
    intros HR Hab Ha Hb ->. apply Hab. exact (r_uniq _ _ _ HR a b p _ _ Ha Hb eq_refl eq_refl).
  Qed.
  Lemma assign_step m (s : St) d a x m' :
    Rep m s -> sstep sz dflt eq_dec m (OpAssign d a) (cd s) = Some (x, m') -> okres (done (a_assign sz d a) s) x m'.
  Proof.
    intros HR H. cbn [sstep] in H. destruct (seq_of m d) as [[own l]|] eqn:Hd; [|discriminate].
    destruct (seq_of m a) as [[own' vs]|] eqn:Ha; [|discriminate].
    destruct (rep_seq _ _ _ _ _ _ HR Hd) as (_ & p & Hst & Hv & Hp). destruct (rep_seq _ _ _ _ _ _ HR Ha) as (_ & q & Hst' & Hv' & Hp').
    pose proof (cur_copy s own' vs q (fun v => v) Hp') as Hc. rewrite map_id in Hc.
    unfold a_assign, done, bind at 1 2 3. rewrite (get_ok _ _ _ _ Hv), (get_ok _ _ _ _ Hv'). cbn [fst snd].
    destruct (Nat.eqb_spec (length l) (length vs)) as [E|Hne].
    - change (okres (done (fill_with (length l) p (read_cursor (CPtr (fun v => v) q 0))) s) x m').
      eapply fill_step; [exact HR|exact Hst|exact Hv|exact Hp|symmetry; exact E|reflexivity| |exact H].
      eapply fill_reader_cursor; [exact (ptr_pointee sz _ _ _ _ Hp)|exact Hc|symmetry; exact E].
    - assert (d <> a) as Hda by (intros ->; rewrite Hst in Hst'; injection Hst' as E1 E2;
        apply (f_equal (@length _)) in E2; rewrite !map_length in E2; contradiction).
      assert (okres (done (replace_seq sz d (length l) p (length vs) (read_cursor (CPtr (fun v => v) q 0))) s) x m') as Hgo.
      { eapply replace_step; [exact HR|exact Hst|exact Hv|exact Hp|reflexivity|reflexivity| |exact H].
        intros i v s' Hi Hfr. eapply read_cursor_ok; [|exact Hi]. eapply cur_ok_others; [exact Hc| |exact Hfr].
        intros f i' E Hpn. injection E as _ -> _. destruct p as [b|]; [|contradiction].
        destruct (rep_other _ _ _ _ _ _ _ _ HR Hda Hv Hv' eq_refl). }
      unfold replace_seq, done, bind at 1 in Hgo.
      rewrite (destroy_release l p _ s _ eq_refl (ptr_pointee sz _ _ _ _ Hp)) in Hgo.
      rewrite (destroy_release l p _ s _ eq_refl (ptr_pointee sz _ _ _ _ Hp)).
      unfold bind at 1. rewrite (get_ok _ a (length vs) q) by exact Hv'. cbn [fst snd].
      unfold bind, put_var in *. cbn [vars heap made gone cd] in *.
      destruct (uninitialized_new sz (length vs) _) as [b s1|e s1| | |] eqn:En; try exact Hgo.
      assert (vars s1 = upd d (Arr (length vs) p) (vars s)) as Hs1.
      { revert En. unfold uninitialized_new, bind, event. cbn [cd vars heap made gone].
        destruct (cd s) as [[|c]|]; try discriminate; destruct (2 ^ 63 <=? bytes_for sz (length vs))%Z; try discriminate;
          intros E; injection E as _ <-; reflexivity. }
      rewrite (get_ok _ a (length vs) q).
      2:{ cbn [vars]. rewrite Hs1, !nth_error_upd_neq by exact Hda. exact Hv'. }
      exact Hgo.
  Qed.
  Lemma resize_op_step m (s : St) a n t x m' :
    Rep m s -> sstep sz dflt eq_dec m (OpResize a n t) (cd s) = Some (x, m') -> okres (done (a_resize sz dflt a n t) s) x m'.
  Proof.
    intros HR H. cbn [sstep] in H. destruct (seq_of m a) as [[own l]|] eqn:Hs; [|discriminate].
    destruct (rep_seq _ _ _ _ _ _ HR Hs) as (_ & p & Hst & Hv & Hp).
    destruct t as [t|]; cbn [a_resize].
    - destruct (arg_val m t) as [v|] eqn:Ht; [|discriminate].
      destruct (bind_arg_ok _ _ _ _ _ HR Ht) as (r & Hr & Hok). unfold done, bind at 1 2. rewrite Hr.
      change (okres (done (resize_to sz a n (read_ref r)) s) x m').
      eapply resize_step; [exact HR|exact Hst|exact Hv|exact Hp| |exact H].
      intros s' _ Hfr. apply read_ref_ok. eapply ref_ok_old; eassumption.
    - eapply resize_step; [exact HR|exact Hst|exact Hv|exact Hp| |exact H]. reflexivity.
  Qed.
  Lemma reallocate_step m (s : St) a n x m' :
    Rep m s -> sstep sz dflt eq_dec m (OpReallocate a n) (cd s) = Some (x, m') -> okres (done (a_reallocate sz dflt a n) s) x m'.
  Proof.
    intros HR H. cbn [sstep] in H. destruct (seq_of m a) as [[own l]|] eqn:Hs; [|discriminate].
    destruct (rep_seq _ _ _ _ _ _ HR Hs) as (_ & p & Hst & Hv & Hp).
    unfold a_reallocate, done, bind at 1 2. rewrite (get_ok _ _ _ _ Hv). cbn [fst snd].
    rewrite Nat.eqb_sym in H. destruct (length l =? n).
    - injection H as <- <-. cbn [okres ret]. split; [reflexivity|exact HR].
    - change (okres (done (replace_seq sz a (length l) p n (fun _ => ret dflt)) s) x m').
      eapply replace_step; [exact HR|exact Hst|exact Hv|exact Hp|reflexivity|symmetry; apply repeat_length| |exact H].
      intros i v s' Hi _. apply nth_error_In, repeat_spec in Hi. subst v. reflexivity.
  Qed.
  Lemma fill_op_step m (s : St) a t x m' :
    Rep m s -> sstep sz dflt eq_dec m (OpFill a t) (cd s) = Some (x, m') -> okres (done (a_fill a t) s) x m'.
  Proof.
    intros HR H. cbn [sstep] in H. destruct (seq_of m a) as [[own l]|] eqn:Hs; [|discriminate].
    destruct (arg_val m t) as [v|] eqn:Ht; [|discriminate].
    destruct (rep_seq _ _ _ _ _ _ HR Hs) as (_ & p & Hst & Hv & Hp).
    destruct (bind_arg_ok _ _ _ _ _ HR Ht) as (r & Hr & Hok). unfold a_fill, done, bind at 1 2 3.
    rewrite Hr, (get_ok _ _ _ _ Hv). cbn [fst snd].
    change (okres (done (fill_with (length l) p (fun _ => read_ref r)) s) x m').
    eapply fill_step; [exact HR|exact Hst|exact Hv|exact Hp|apply repeat_length|reflexivity| |exact H].
    eapply fill_reader_ref; [exact (ptr_pointee sz _ _ _ _ Hp)|eassumption].
  Qed.
  Lemma fill_from_step m (s : St) a y x m' :
    Rep m s -> sstep sz dflt eq_dec m (OpFillFrom a y) (cd s) = Some (x, m') -> okres (done (a_fill_from a y) s) x m'.
  Proof.
    intros HR H. cbn [sstep] in H. destruct (seq_of m a) as [[own l]|] eqn:Hs; [|discriminate].
    destruct (src_val m y) as [vs|] eqn:Ht; [|discriminate]. destruct (Nat.leb_spec (length l) (length vs)) as [Hle|]; [|discriminate].
    destruct (rep_seq _ _ _ _ _ _ HR Hs) as (_ & p & Hst & Hv & Hp).
    destruct (bind_src_ok sz sz_pos _ _ _ _ HR Ht) as (c & Hb & Hc & _). unfold a_fill_from, done, bind at 1 2 3.
    rewrite Hb, (get_ok _ _ _ _ Hv). cbn [fst snd].
    change (okres (done (fill_with (length l) p (read_cursor c)) s) x m').
    assert (length (firstn (length l) vs) = length l) as Hlen by (rewrite firstn_length; lia).
    eapply fill_step; [exact HR|exact Hst|exact Hv|exact Hp|exact Hlen|reflexivity| |exact H].
    eapply fill_reader_cursor; [exact (ptr_pointee sz _ _ _ _ Hp)|apply cur_firstn; exact Hc|exact Hlen].
  Qed.
  Lemma assign_range_step m (s : St) a y x m' :
    Rep m s -> sstep sz dflt eq_dec m (OpAssignRange a y) (cd s) = Some (x, m') -> okres (done (a_assign_range sz dflt a y) s) x m'.
  Proof.
    intros HR H. cbn [sstep] in H. destruct (seq_of m a) as [[own l]|] eqn:Hs; [|discriminate].
    destruct (rep_seq _ _ _ _ _ _ HR Hs) as (_ & p & Hst & Hv & Hp).
    unfold a_assign_range, done, bind at 1 2. cbn [a_resize].
    destruct (reversed m y) eqn:Hr.
    { injection H as <- <-. destruct (bind_src_reversed sz sz_pos _ _ _ HR Hr) as (c & n & Hb & Hn' & Hn).
      rewrite Hb. cbn [fst snd]. unfold bind, resize_to, bind. rewrite (get_ok _ _ _ _ Hv). cbn [fst snd].
      destruct (Nat.eqb_spec (length l) n) as [E|_].
      - exfalso. refine (Hn' (length l) _ E). rewrite <- (map_length Some). eapply ptr_ok_fits; exact Hp.
      - rewrite Hn. cbn [okres]. split; [reflexivity|]. apply rep_failure. exact HR. }
    destruct (src_val m y) as [vs|] eqn:Hy; [|discriminate].
    destruct (bind_src_ok sz sz_pos _ _ _ _ HR Hy) as (c & Hb & Hc & Hown). rewrite Hb. cbn [fst snd].
    destruct (Nat.eqb_spec (length vs) (length l)) as [E|Hne].
    - unfold bind at 1, resize_to, bind at 1. rewrite (get_ok _ _ _ _ Hv). cbn [fst snd]. rewrite E, Nat.eqb_refl. unfold ret at 1.
      unfold bind at 1. rewrite (get_ok _ _ _ _ Hv). cbn [fst snd].
      change (okres (done (fill_with (length l) p (read_cursor c)) s) x m').
      eapply fill_step; [exact HR|exact Hst|exact Hv|exact Hp|exact E|reflexivity| |exact H].
      eapply fill_reader_cursor; [exact (ptr_pointee sz _ _ _ _ Hp)|eassumption..].
    - destruct (inside a y && negb (length vs =? 0)) eqn:Hin; [discriminate|].
      destruct (s_resize sz m a (length vs) l dflt (cd s)) as [[x1 m1]|] eqn:Hrs; [|discriminate].
      assert (forall s' : St, vars s' = vars s -> (forall b, b < length (heap s) -> nth_error (heap s') b = nth_error (heap s) b) ->
              ret dflt s' = Ret dflt s') as Hrd by reflexivity.
      pose proof (resize_step m s a (length vs) own l (ret dflt) dflt x1 m1 p HR Hst Hv Hp Hrd Hrs) as H1.
      assert (sane sz (length vs) = true) as Hsane.
      { unfold s_resize in Hrs. destruct (length vs =? length l) eqn:E; [apply Nat.eqb_eq in E; contradiction|].
        destruct (sane sz (length vs)); [reflexivity|discriminate]. }
      pose proof (resize_exact sz sz_pos a (length vs) l p (ret dflt) dflt s Hv (ptr_pointee sz _ _ _ _ Hp) Hne Hsane Hrd) as H2.
      unfold s_resize in Hrs. destruct (Nat.eqb_spec (length vs) (length l)) as [E|_]; [contradiction|]. rewrite Hsane in Hrs.
      unfold bind at 1. unfold done, bind in H1. rewrite H2 in H1 |- *.
      destruct (try_new sz (length vs) (cd s)) as [| |j].
      2:{ injection Hrs as <- <-. injection H as <- <-. exact H1. }
      2:{ injection Hrs as <- <-. injection H as <- <-. exact H1. }
      injection Hrs as <- <-. cbn [okres ret] in H1. destruct H1 as (_ & HR1).
      match type of HR1 with Rep _ ?z => set (s1 := z) in * end.
      assert (seq_of (set m a (hold (resized (length vs) l dflt))) a = Some (true, resized (length vs) l dflt)) as Hs1.
      { unfold seq_of, lookup, set, hold. cbn [store]. rewrite nth_error_upd_eq by exact (nth_error_lt _ _ _ Hst).
        assert (values (map Some (resized (length vs) l dflt)) = Some (resized (length vs) l dflt)) as -> by (apply values_iff; reflexivity).
        reflexivity. }
      destruct (rep_seq _ _ _ _ _ _ HR1 Hs1) as (_ & p1 & Hst1 & Hv1 & Hp1).
      unfold bind at 1. rewrite (get_ok _ _ _ _ Hv1). cbn [fst snd].
      assert (length (resized (length vs) l dflt) = length vs) as Hlen.
      { unfold resized. rewrite app_length, firstn_length, repeat_length. lia. }
      change (okres (done (fill_with (length (resized (length vs) l dflt)) p1 (read_cursor c)) s1) x m').
      eapply fill_step; [exact HR1|exact Hst1|exact Hv1|exact Hp1|symmetry; exact Hlen|reflexivity| |exact H].
      eapply fill_reader_cursor; [exact (ptr_pointee sz _ _ _ _ Hp1)| |symmetry; exact Hlen].
      apply (cur_ok_others s s1 c vs p Hc).
      + intros f i E Hpn. destruct (Hown _ _ _ E) as (a' & j & n & Ey & Ha').
        assert (a' = a) as ->.
        { destruct p as [b|]; [|contradiction]. exact (r_uniq _ _ _ HR a' a b _ _ Ha' Hv eq_refl eq_refl). }
        subst y. cbn [inside] in Hin. rewrite Nat.eqb_refl in Hin. cbn [andb] in Hin.
        destruct vs; [reflexivity|discriminate].
      + intros b Hb' Hlt. unfold s1. cbn [heap]. rewrite release_other by exact Hb'. apply nth_error_snoc_old. exact Hlt.
  Qed.

  (** ** access *)
  Lemma elem_ok m (s : St) a i own l c : Rep m s -> lookup m a = Some (own, l) -> nth_error l i = Some c ->
    exists b, own = true /\ nth_error (vars s) a = Some (Arr (length l) (Some b)) /\ nth_error (heap s) b = Some (nblk sz (length l) l) /\
      nth_error (store m) a = Some (VArr own l) /\ ptr_ok sz (heap s) own l (Some b) /\ elem_ref a i s = Ret (Some b, i) s.
  Proof.
    intros HR Hl Hi. destruct (rep_lookup _ _ _ _ _ _ HR Hl) as (p & Hs & Hv & Hp). pose proof Hp as Hp'.
    unfold ptr_ok in Hp'. destruct own; [|destruct Hp' as (-> & _); destruct i; discriminate].
    destruct Hp' as (_ & b & -> & Hb). exists b. repeat split; auto.
    - exact (proj1 Hp).
    - exists b. auto.
    - eapply elem_ref_ok; [exact Hv|exact Hb|reflexivity|exact Hi].
  Qed.
  Lemma get_step m (s : St) a i own l v : Rep m s -> lookup m a = Some (own, l) -> nth_error l i = Some (Some v) -> a_get a i s = Ret v s.
  Proof.
    intros HR Hl Hi. destruct (elem_ok _ _ _ _ _ _ _ HR Hl Hi) as (b & _ & _ & Hb & _ & _ & He). unfold a_get, bind. rewrite He.
    cbn [fst snd]. eapply load_ok; [exact Hb|reflexivity|exact Hi].
  Qed.
  Lemma put_step m (s : St) a i own l c v (cons : bool) : Rep m s -> lookup m a = Some (own, l) -> nth_error l i = Some c ->
    (cons = false -> c <> None) ->
    okres (done (p <- elem_ref a i ;; put cons (fst p) (snd p) v) s)
      (match cd s with Some 0 => OExc (EUser 0) | _ => ODone end)
      (match cd s with
       | Some 0 => m
       | _ => lose (set m a (VArr own (upd i (Some v) l))) 0 (if cons then match c with Some _ => 1 | None => 0 end else 0)
       end).
  Proof.
    intros HR Hl Hi Hc. destruct (elem_ok _ _ _ _ _ _ _ HR Hl Hi) as (b & Eo & Hv & Hb & Hs & Hp & He).
    unfold done, bind. rewrite He. cbn [fst snd].
    rewrite (put_ok cons s b _ l i v c Hb Hi Hc).
    assert (forall d, Rep (lose (set m a (VArr own (upd i (Some v) l))) 0 (if cons then match c with Some _ => 1 | None => 0 end else 0))
      (mkSt (vars s) (upd b (mkBlk (Z.of_nat (length l) * sz) (upd i (Some v) l) false) (heap s)) (made s + (if cons then 1 else 0)) (gone s) d)) as Hgo.
    { intros d. unfold lose, set. cbn [store lost_blocks lost_elems]. rewrite Nat.add_0_r.
      pose proof (rep_overwrite m s a own l (upd i (Some v) l) (Some b) (made s + (if cons then 1 else 0)) (gone s) d
                    (lost_elems m + (if cons then match c with Some _ => 1 | None => 0 end else 0)) HR Hs Hv Hp (upd_length _ _ _)) as E.
      unfold overwrite in E. rewrite Hb in E. apply E.
      pose proof (count_live_upd i c (Some v) l Hi) as E2. destruct cons, c; try lia. destruct (Hc eq_refl eq_refl). }
    destruct (cd s) as [[|d]|]; cbn [okres ret]; (split; [reflexivity|]); [|apply Hgo|apply Hgo].
    exact (rep_failure _ _ _ None HR).
  Qed.
  Lemma set_rd (k : option nat * nat -> V -> M St unit) (s : St) r x a i :
    ref_ok s r x -> (forall p s1, elem_ref a i s = Ret p s1 -> s1 = s) ->
    (p <- elem_ref a i ;; v <- read_ref r ;; k p v) s = (p <- elem_ref a i ;; k p x) s.
  Proof.
    intros Hr He. unfold bind. destruct (elem_ref a i s) as [p s1|e s1| | |] eqn:E; try reflexivity.
    rewrite (He _ _ eq_refl). rewrite (read_ref_ok _ _ _ Hr). reflexivity.
  Qed.
  Lemma elem_ref_same (s : St) a i p s1 : elem_ref a i s = Ret p s1 -> s1 = s.
  Proof.
    unfold elem_ref, bind, get_var, block, cell, ret. destruct (nth_error (vars s) a) as [[|n q]|]; try discriminate. cbn [snd].
    destruct q as [b|]; [|discriminate]. destruct (nth_error (heap s) b) as [k|]; [|discriminate].
    destruct (b_freed k); [discriminate|]. cbn [snd]. destruct (nth_error (b_cells k) i); [|discriminate]. intros E. injection E as _ <-. reflexivity.
  Qed.
  Lemma set_0 (m : vst V) a x : lose (set m a x) 0 0 = set m a x.
  Proof. apply lose_0. Qed.
  Lemma set_step m (s : St) a i t x m' :
    Rep m s -> sstep sz dflt eq_dec m (OpSet a i t) (cd s) = Some (x, m') -> okres (done (a_set a i t) s) x m'.
  Proof.
    intros HR H. cbn [sstep] in H. destruct (lookup m a) as [[own l]|] eqn:Hl; [|discriminate].
    destruct (arg_val m t) as [v|] eqn:Ht; [|discriminate].
    destruct (nth_error l i) as [[c|]|] eqn:Hi; try discriminate.
    destruct (bind_arg_ok _ _ _ _ _ HR Ht) as (r & Hr & Hok).
    pose proof (put_step m s a i own l (Some c) v false HR Hl Hi ltac:(discriminate)) as Hp. rewrite set_0 in Hp.
    unfold a_set, done, bind at 1 2. rewrite Hr. rewrite (set_rd (fun p v => store_at (fst p) (snd p) v) s r v a i Hok (elem_ref_same s a i)).
    change (okres (done (p <- elem_ref a i ;; store_at (fst p) (snd p) v) s) x m').
    destruct (cd s) as [[|d]|]; injection H as <- <-; exact Hp.
  Qed.
  Lemma place_step m (s : St) a i t x m' :
    Rep m s -> sstep sz dflt eq_dec m (OpPlace a i t) (cd s) = Some (x, m') -> okres (done (a_place a i t) s) x m'.
  Proof.
    intros HR H. cbn [sstep] in H. destruct (lookup m a) as [[own l]|] eqn:Hl; [|discriminate].
    destruct (arg_val m t) as [v|] eqn:Ht; [|discriminate].
    destruct (nth_error l i) as [c|] eqn:Hi; try discriminate.
    destruct (bind_arg_ok _ _ _ _ _ HR Ht) as (r & Hr & Hok).
    pose proof (put_step m s a i own l c v true HR Hl Hi ltac:(discriminate)) as Hp.
    unfold a_place, done, bind at 1 2. rewrite Hr. rewrite (set_rd (fun p v => construct (fst p) (snd p) v) s r v a i Hok (elem_ref_same s a i)).
    change (okres (done (p <- elem_ref a i ;; construct (fst p) (snd p) v) s) x m').
    destruct (cd s) as [[|d]|]; injection H as <- <-; exact Hp.
  Qed.
  Lemma at_ref_in m (s : St) a i own l : Rep m s -> lookup m a = Some (own, l) ->
    at_ref a i s = if i <? length l then elem_ref a i s else Exc EOutOfRange s.
  Proof.
    intros HR Hl. destruct (rep_lookup _ _ _ _ _ _ HR Hl) as (p & _ & Hv & _). unfold at_ref, bind. rewrite (get_ok _ _ _ _ Hv).
    cbn [fst]. destruct (i <? length l); reflexivity.
  Qed.
  Lemma set_at_step m (s : St) a i t x m' :
    Rep m s -> sstep sz dflt eq_dec m (OpSetAt a i t) (cd s) = Some (x, m') -> okres (done (a_set_at a i t) s) x m'.
  Proof.
    intros HR H. cbn [sstep] in H. destruct (lookup m a) as [[own l]|] eqn:Hl; [|discriminate].
    destruct (arg_val m t) as [v|] eqn:Ht; [|discriminate].
    destruct (bind_arg_ok _ _ _ _ _ HR Ht) as (r & Hr & Hok).
    destruct (nth_error l i) as [[c|]|] eqn:Hi; try discriminate.
    - assert (sstep sz dflt eq_dec m (OpSet a i t) (cd s) = Some (x, m')) as H' by (cbn [sstep]; rewrite Hl, Ht, Hi; exact H).
      pose proof (set_step m s a i t x m' HR H') as Hp. revert Hp. unfold a_set_at, a_set, done, bind. rewrite Hr, (at_ref_in m s a i own l HR Hl).
      pose proof (nth_error_lt _ _ _ Hi) as Hlt. apply Nat.ltb_lt in Hlt. rewrite Hlt. exact (fun h => h).
    - injection H as <- <-. unfold a_set_at, done, bind. rewrite Hr, (at_ref_in m s a i own l HR Hl).
      apply nth_error_None in Hi. apply Nat.ltb_ge in Hi. rewrite Hi. cbn [okres]. split; [reflexivity|exact HR].
  Qed.
  Lemma at_step m (s : St) a i own l : Rep m s -> lookup m a = Some (own, l) ->
    match nth_error l i with
    | Some (Some v) => a_at a i s = Ret v s
    | Some None => True
    | None => a_at a i s = Exc EOutOfRange s
    end.
  Proof.
    intros HR Hl. destruct (nth_error l i) as [[v|]|] eqn:Hi; [|exact I|]; unfold a_at, bind; rewrite (at_ref_in m s a i own l HR Hl).
    - pose proof (nth_error_lt _ _ _ Hi) as Hlt. apply Nat.ltb_lt in Hlt. rewrite Hlt.
      exact (get_step m s a i own l v HR Hl Hi).
    - apply nth_error_None in Hi. apply Nat.ltb_ge in Hi. rewrite Hi. reflexivity.
  Qed.
  Lemma loads_ok (s : St) b k n i vs : nth_error (heap s) b = Some k -> b_freed k = false -> length vs = n ->
    (forall j v, nth_error vs j = Some v -> nth_error (b_cells k) (i + j) = Some (Some v)) -> loads (Some b) i n s = Ret vs s.
  Proof.
    intros Hb Hf. revert i vs. induction n as [|n IH]; intros i [|v vs] Hl H; try discriminate; [reflexivity|].
    cbn [loads]. unfold bind at 1. rewrite (load_ok s b k i v Hb Hf); [|specialize (H 0 v eq_refl); rewrite Nat.add_0_r in H; exact H].
    unfold bind. rewrite (IH (S i) vs); [reflexivity|injection Hl as Hl; exact Hl|].
    intros j w Hj. specialize (H (S j) w Hj). replace (S i + j) with (i + S j) by lia. exact H.
  Qed.
  Lemma list_step m (s : St) a own vs : Rep m s -> seq_of m a = Some (own, vs) -> a_list a s = Ret vs s.
  Proof.
    intros HR Hs. destruct (rep_seq _ _ _ _ _ _ HR Hs) as (_ & p & _ & Hv & Hp). unfold a_list, bind. rewrite (get_ok _ _ _ _ Hv).
    cbn [fst snd]. unfold ptr_ok in Hp. destruct own.
    - destruct Hp as (_ & b & -> & Hb). eapply loads_ok; [exact Hb|reflexivity|reflexivity|].
      intros j v Hj. cbn [b_cells nblk Nat.add]. rewrite nth_error_map, Hj. reflexivity.
    - destruct Hp as (E & ->). destruct vs; [reflexivity|discriminate].
  Qed.
  Lemma eq_loop_ok (s : St) b k c k' n i vs ws :
    nth_error (heap s) b = Some k -> b_freed k = false -> nth_error (heap s) c = Some k' -> b_freed k' = false ->
    length vs = n -> length ws = n ->
    (forall j v, nth_error vs j = Some v -> nth_error (b_cells k) (i + j) = Some (Some v)) ->
    (forall j v, nth_error ws j = Some v -> nth_error (b_cells k') (i + j) = Some (Some v)) ->
    eq_loop neq (Some b) (Some c) i n s = Ret (if list_eq_dec eq_dec vs ws then true else false) s.
  Proof.
    intros Hb Hf Hc Hf'. revert i vs ws. induction n as [|n IH]; intros i [|v vs] [|w ws] Hl Hl' H H'; try discriminate; [reflexivity|].
    cbn [eq_loop]. unfold bind.
    rewrite (load_ok s b k i v Hb Hf); [|specialize (H 0 v eq_refl); rewrite Nat.add_0_r in H; exact H].
    rewrite (load_ok s c k' i w Hc Hf'); [|specialize (H' 0 w eq_refl); rewrite Nat.add_0_r in H'; exact H'].
    destruct (neq v w) eqn:E.
    - apply neq_spec in E. destruct (list_eq_dec eq_dec (v :: vs) (w :: ws)) as [E'|_]; [congruence|reflexivity].
    - assert (v = w) as ->.
      { destruct (eq_dec v w) as [|Hne]; [assumption|]. apply neq_spec in Hne. congruence. }
      rewrite (IH (S i) vs ws); [|injection Hl as Hl; exact Hl|injection Hl' as Hl'; exact Hl'|..].
      + destruct (list_eq_dec eq_dec vs ws) as [E1|E1], (list_eq_dec eq_dec (w :: vs) (w :: ws)) as [E2|E2]; try reflexivity; exfalso; congruence.
      + intros j y Hj. specialize (H (S j) y Hj). replace (S i + j) with (i + S j) by lia. exact H.
      + intros j y Hj. specialize (H' (S j) y Hj). replace (S i + j) with (i + S j) by lia. exact H'.
  Qed.
  Lemma eq_step m (s : St) a b own vs own' ws : Rep m s -> seq_of m a = Some (own, vs) -> seq_of m b = Some (own', ws) ->
    a_eq neq a b s = Ret (if list_eq_dec eq_dec vs ws then true else false) s.
  Proof.
    intros HR Hs Hs'. destruct (rep_seq _ _ _ _ _ _ HR Hs) as (_ & p & _ & Hv & Hp). destruct (rep_seq _ _ _ _ _ _ HR Hs') as (_ & q & _ & Hv' & Hp').
    unfold a_eq, bind. rewrite (get_ok _ _ _ _ Hv), (get_ok _ _ _ _ Hv'). cbn [fst snd].
    destruct (Nat.eqb_spec (length vs) (length ws)) as [E|E].
    - unfold ptr_ok in Hp, Hp'.
      destruct own, own'.
      + destruct Hp as (_ & c & -> & Hc). destruct Hp' as (_ & c' & -> & Hc').
        eapply eq_loop_ok; [exact Hc|reflexivity|exact Hc'|reflexivity|reflexivity|symmetry; exact E|..];
          intros j v Hj; cbn [b_cells nblk Nat.add]; rewrite nth_error_map, Hj; reflexivity.
      + destruct Hp' as (E' & _). destruct ws; [|discriminate]. destruct vs; [|discriminate]. reflexivity.
      + destruct Hp as (E' & _). destruct vs; [|discriminate]. destruct ws; [|discriminate]. reflexivity.
      + destruct Hp as (E' & _). destruct vs; [|discriminate]. destruct ws; [|discriminate]. reflexivity.
    - destruct (list_eq_dec eq_dec vs ws) as [->|_]; [contradiction|]. reflexivity.
  Qed.

  Theorem step_ok m (s : St) o x m' :
    Rep m s -> sstep sz dflt eq_dec m o (cd s) = Some (x, m') -> okres (exec_op sz dflt neq o s) x m'.
  Proof.
    intros HR H. destruct o; cbn [exec_op].
    - cbn [sstep] in H. destruct (is_free m d) eqn:Hf; [|discriminate]. injection H as <- <-.
      unfold a_default. apply done_fresh; [exact (proj2 (rep_free _ _ _ _ HR Hf))|]. unfold done, bind, put_var. cbn [okres ret].
      split; [reflexivity|]. apply default_rep; assumption.
    - cbn [sstep] in H. unfold a_size. apply done_fresh; [eapply free_vars; eassumption|].
      eapply build_step; [exact HR|symmetry; apply repeat_length|apply reader_const|exact H].
    - eapply uninit_step; eassumption.
    - eapply value_step; eassumption.
    - eapply from_step; eassumption.
    - cbn [sstep] in H. unfold a_gen. apply done_fresh; [eapply free_vars; eassumption|].
      eapply build_step; [exact HR| |apply reader_gen|exact H]. rewrite map_length, seq_length. reflexivity.
    - eapply copy_step; eassumption.
    - eapply move_step; eassumption.
    - eapply destroy_step; eassumption.
    - eapply assign_step; eassumption.
    - eapply move_assign_step; eassumption.
    - eapply swap_step; eassumption.
    - eapply resize_op_step; eassumption.
    - eapply reallocate_step; eassumption.
    - eapply fill_op_step; eassumption.
    - eapply fill_from_step; eassumption.
    - eapply assign_range_step; eassumption.
    - eapply set_step; eassumption.
    - eapply set_at_step; eassumption.
    - eapply place_step; eassumption.
    - cbn [sstep] in H. destruct (lookup m a) as [[own l]|] eqn:Hl; [|discriminate].
      destruct (nth_error l i) as [[v|]|] eqn:Hi; try discriminate. injection H as <- <-.
      unfold bind. rewrite (get_step m s a i own l v HR Hl Hi). split; [reflexivity|exact HR].
    - cbn [sstep] in H. destruct (lookup m a) as [[own l]|] eqn:Hl; [|discriminate].
      pose proof (at_step m s a i own l HR Hl) as Hat. unfold bind.
      destruct (nth_error l i) as [[v|]|]; try discriminate; injection H as <- <-; rewrite Hat; split; auto.
    - cbn [sstep] in H. destruct (seq_of m a) as [[own [|v l]]|] eqn:Hs; try discriminate. injection H as <- <-.
      destruct (rep_seq _ _ _ _ _ _ HR Hs) as (Hl & _). unfold bind, a_front. rewrite (get_step m s a 0 own _ v HR Hl eq_refl).
      split; [reflexivity|exact HR].
    - cbn [sstep] in H. destruct (seq_of m a) as [[own [|v l]]|] eqn:Hs; try discriminate. injection H as <- <-.
      destruct (rep_seq _ _ _ _ _ _ HR Hs) as (Hl & p & _ & Hv & _). unfold bind, a_back, bind. rewrite (get_ok _ _ _ _ Hv). cbn [fst length].
      rewrite (get_step m s a (length l) own _ (last (v :: l) v) HR Hl); [split; [reflexivity|exact HR]|].
      rewrite nth_error_map. assert (nth_error (v :: l) (length l) = Some (last (v :: l) v)) as ->; [|reflexivity].
      apply nth_last.
    - cbn [sstep] in H. destruct (seq_of m a) as [[own l]|] eqn:Hs; try discriminate. injection H as <- <-.
      unfold bind. rewrite (list_step m s a own l HR Hs). split; [reflexivity|exact HR].
    - cbn [sstep] in H. destruct (seq_of m a) as [[own l]|] eqn:Hs; try discriminate.
      destruct (seq_of m b) as [[own' l']|] eqn:Hs'; try discriminate. injection H as <- <-.
      unfold bind. rewrite (eq_step m s a b own l own' l' HR Hs Hs'). split; [reflexivity|exact HR].
    - cbn [sstep] in H. destruct (seq_of m a) as [[own l]|] eqn:Hs; try discriminate.
      destruct (seq_of m b) as [[own' l']|] eqn:Hs'; try discriminate. injection H as <- <-.
      unfold bind, a_ne, bind. rewrite (eq_step m s a b own l own' l' HR Hs Hs'). split; [|exact HR].
      destruct (list_eq_dec eq_dec l l'); reflexivity.
    - cbn [sstep] in H. destruct (lookup m a) as [[own l]|] eqn:Hl; [|discriminate]. injection H as <- <-.
      destruct (rep_lookup _ _ _ _ _ _ HR Hl) as (p & _ & Hv & _). unfold bind, a_len, bind. rewrite (get_ok _ _ _ _ Hv). split; [reflexivity|exact HR].
    - cbn [sstep] in H. destruct (lookup m a) as [[own l]|] eqn:Hl; [|discriminate]. injection H as <- <-.
      destruct (rep_lookup _ _ _ _ _ _ HR Hl) as (p & _ & Hv & _). unfold bind, a_empty, bind. rewrite (get_ok _ _ _ _ Hv). split; [|exact HR].
      destruct l; reflexivity.
  Qed.

  Theorem run_ok p : forall m (s : St) l m', Rep m s -> sexec sz dflt eq_dec m p = Some (l, m') ->
    exists s', run sz dflt neq p s = Ret l s' /\ Rep m' s'.
  Proof.
    induction p as [|[o f] p IH]; intros m s l m' HR H.
    - injection H as <- <-. exists s. split; [reflexivity|exact HR].
    - cbn [sexec] in H. destruct (sstep sz dflt eq_dec m o f) as [[x m1]|] eqn:Hs; [|discriminate].
      destruct (sexec sz dflt eq_dec m1 p) as [[l1 m2]|] eqn:He; [|discriminate]. injection H as <- <-.
      pose proof (step_ok m (with_failure f s) o x m1 (rep_failure _ _ _ f HR) Hs) as Hok.
      cbn [run]. unfold with_failure in Hok.
      destruct (exec_op sz dflt neq o _) as [y s1|e s1| | |]; cbn [okres] in Hok; try contradiction; destruct Hok as (-> & HR1);
        destruct (IH _ _ _ _ HR1 He) as (s' & Hrun & HR'); exists s'; unfold bind; rewrite Hrun; split; [reflexivity|exact HR'|reflexivity|exact HR'].
  Qed.
  Lemma rep_init n : Rep (vinit n) (init n : St).
  Proof.
    constructor; cbn [vinit init store vars heap made gone lost_blocks lost_elems].
    - induction n; cbn [repeat]; constructor; [exact I|assumption].
    - intros i j b x y Hx _ Ho _. apply nth_error_In, repeat_spec in Hx. subst x. discriminate.
    - rewrite sum_repeat by reflexivity. reflexivity.
    - rewrite sum_repeat by reflexivity. reflexivity.
  Qed.
End Step.
