(** ArrayThms.v -- single calls of array members in arbitrary states. *)
From Verif Require Import Base ArrayModel ArraySpec ArrayProofs ArrayStep.
Local Open Scope monad_scope.
Open Scope nat_scope.

Section Thms.
  Context {V : Type} (sz : Z) (dflt : V) (neq : V -> V -> bool).
  Hypothesis sz_pos : (0 < sz)%Z.
  Notation St := (st V).

  Lemma holds_inv (s : St) a l : holds s a l ->
    exists p, nth_error (vars s) a = Some (Arr (length l) p) /\ pointee (heap s) (map Some l) p.
  Proof.
    unfold holds, contents. destruct (nth_error (vars s) a) as [[|n [b|]]|] eqn:Ha; try discriminate.
    - destruct (nth_error (heap s) b) as [k|] eqn:Hb; [|discriminate]. destruct (b_freed k) eqn:Hf; [discriminate|]. cbn [negb andb].
      destruct (Nat.eqb_spec (length (b_cells k)) n) as [E|]; [|discriminate]. intros H. injection H as H.
      exists (Some b). rewrite H, map_length in E. subst n. split; [reflexivity|]. right. exists b, (b_bytes k). split; [reflexivity|].
      rewrite Hb. destruct k; cbn in *; congruence.
    - destruct (Nat.eqb_spec n 0) as [->|]; [|discriminate]. intros H. injection H as H. destruct l; [|discriminate].
      exists None. split; [reflexivity|]. left. auto.
  Qed.
  Lemma contents_intro (s : St) a (l : list (option V)) n p :
    nth_error (vars s) a = Some (Arr n p) -> n = length l -> pointee (heap s) l p -> contents s a = Some l.
  Proof.
    intros Ha -> [[-> ->]|(b & bytes & -> & Hb)]; unfold contents; rewrite Ha.
    - reflexivity.
    - rewrite Hb. cbn [b_freed b_cells negb andb]. rewrite Nat.eqb_refl. reflexivity.
  Qed.
  Lemma holds_intro (s : St) a l n p :
    nth_error (vars s) a = Some (Arr n p) -> n = length l -> pointee (heap s) (map Some l) p -> holds s a l.
  Proof. intros Ha -> Hp. eapply contents_intro; [exact Ha|rewrite map_length; reflexivity|exact Hp]. Qed.
  Lemma contents_inv (s : St) a l : contents s a = Some l ->
    exists p, nth_error (vars s) a = Some (Arr (length l) p) /\ pointee (heap s) l p.
  Proof.
    unfold contents. destruct (nth_error (vars s) a) as [[|n [b|]]|] eqn:Ha; try discriminate.
    - destruct (nth_error (heap s) b) as [k|] eqn:Hb; [|discriminate]. destruct (b_freed k) eqn:Hf; [discriminate|]. cbn [negb andb].
      destruct (Nat.eqb_spec (length (b_cells k)) n) as [E|]; [|discriminate]. intros H. injection H as <-.
      exists (Some b). subst n. split; [reflexivity|]. right. exists b, (b_bytes k). split; [reflexivity|].
      rewrite Hb. destruct k; cbn in *; congruence.
    - destruct (Nat.eqb_spec n 0) as [->|]; [|discriminate]. intros H. injection H as <-.
      exists None. split; [reflexivity|]. left. auto.
  Qed.
  Lemma contents_frame (s s' : St) c l :
    contents s c = Some l -> nth_error (vars s') c = nth_error (vars s) c ->
    (forall n b, nth_error (vars s) c = Some (Arr n (Some b)) -> b < length (heap s) -> nth_error (heap s') b = nth_error (heap s) b) ->
    contents s' c = Some l.
  Proof.
    intros H Hv Hh. destruct (contents_inv _ _ _ H) as (p & Hp & Hpt).
    eapply contents_intro; [rewrite Hv; exact Hp|reflexivity|].
    destruct Hpt as [[-> ->]|(b & bytes & -> & Hb)]; [left; auto|right]. exists b, bytes. split; [reflexivity|].
    rewrite (Hh _ b Hp) by exact (nth_error_lt _ _ _ Hb). exact Hb.
  Qed.
  Lemma pointee_lt (h : list (blk V)) l b : pointee h l (Some b) -> b < length h.
  Proof. intros [[E _]|(c & bytes & E & H)]; [discriminate|]. injection E as <-. exact (nth_error_lt _ _ _ H). Qed.

  (** ** arguments *)
  Lemma arg_bind (s : St) t x : arg_is s t x -> exists r, bind_arg t s = Ret r s /\ ref_ok s r x.
  Proof.
    destruct t as [v|a i]; cbn [arg_is].
    - intros ->. exists (inl x). split; reflexivity.
    - intros (l & Hl & Hi). destruct (holds_inv _ _ _ Hl) as (p & Hv & Hp).
      destruct Hp as [[_ E]|(b & bytes & -> & Hb)]; [destruct l; [destruct i|]; discriminate|].
      assert (nth_error (map Some l) i = Some (Some x)) as Hi' by (rewrite nth_error_map, Hi; reflexivity).
      exists (inr (Some b, i)). split.
      + cbn [bind_arg]. unfold bind. rewrite (elem_ref_ok s a i _ b _ (Some x) Hv Hb eq_refl Hi'). reflexivity.
      + cbn [ref_ok]. exists b, (mkBlk bytes (map Some l) false). repeat split; [exact Hb|exact Hi'].
  Qed.
  Lemma iter_bind (s : St) a i l p : nth_error (vars s) a = Some (Arr (length l) p) -> pointee (heap s) (map Some l) p -> i <= length l ->
    iter a i s = Ret (p, i) s.
  Proof.
    intros Hv Hp Hi. unfold iter, bind, get_var. rewrite Hv. cbn [snd].
    destruct Hp as [[-> E]|(b & bytes & -> & Hb)].
    - destruct l; [|discriminate]. destruct i; [reflexivity|cbn in Hi; lia].
    - unfold block. rewrite Hb. cbn [b_freed snd b_cells]. rewrite map_length.
      destruct (Nat.leb_spec i (length l)); [reflexivity|lia].
  Qed.
  Definition small (n : nat) : Prop := (Z.of_nat n < 2 ^ 64)%Z.
  Lemma src_bind (s : St) y vs : src_is s y vs -> small (length vs) ->
    exists c, bind_src y s = Ret (c, length vs) s /\ cur_ok s c vs /\
      (forall f p i, c = CPtr f p i -> exists a j l, y = SRange f a i j /\ holds s a l /\ nth_error (vars s) a = Some (Arr (length l) p)).
  Proof.
    destruct y as [f l|f a i j]; cbn [src_is].
    - intros -> Hsm. exists (CList f l). rewrite map_length. split; [reflexivity|]. split; [cbn [cur_ok]; auto|discriminate].
    - intros (l & Hl & Hij & ->) Hsm. destruct (holds_inv _ _ _ Hl) as (p & Hv & Hp).
      set (ws := firstn (j - i) (skipn i l)) in *. rewrite map_length in *.
      assert (length ws = j - i) as Hlen by (unfold ws; rewrite firstn_length, skipn_length; lia).
      exists (CPtr f p i). split; [|split].
      + cbn [bind_src]. unfold bind. rewrite (iter_bind s a i l p Hv Hp ltac:(lia)), (iter_bind s a j l p Hv Hp ltac:(lia)). cbn [fst snd].
        unfold ret. do 2 f_equal. rewrite Hlen, <- Nat2Z.inj_sub by lia. rewrite wrap64_small; [apply Nat2Z.id|]. unfold small in Hsm. lia.
      + cbn [cur_ok]. destruct Hp as [[-> E]|(b & bytes & -> & Hb)].
        * left. destruct l; [|discriminate]. unfold ws. rewrite skipn_nil, firstn_nil. reflexivity.
        * right. exists b, (mkBlk bytes (map Some l) false). repeat split; [exact Hb|].
          intros k v' Hk. rewrite nth_error_map in Hk. destruct (nth_error ws k) as [v|] eqn:Hkv; [|discriminate].
          injection Hk as <-. exists v. split; [|reflexivity]. cbn [b_cells]. rewrite nth_error_map.
          pose proof (nth_error_lt _ _ _ Hkv) as Hlt. unfold ws in Hkv. rewrite firstn_skipn_nth in Hkv by lia. rewrite Hkv. reflexivity.
      + intros f' p' i' E. injection E as <- <- <-. exists a, j, l. auto.
  Qed.
  Lemma cur_whole (s : St) ws p (f : V -> V) : pointee (heap s) (map Some ws) p -> cur_ok s (CPtr f p 0) (map f ws).
  Proof.
    intros Hp. cbn [cur_ok]. destruct Hp as [[_ E]|(b & bytes & -> & Hb)].
    - destruct ws; [|discriminate]. left. reflexivity.
    - right. exists b, (mkBlk bytes (map Some ws) false). repeat split; [exact Hb|].
      intros j v' Hj. rewrite nth_error_map in Hj. destruct (nth_error ws j) as [w|] eqn:Hw; [|discriminate]. injection Hj as <-.
      exists w. split; [|reflexivity]. cbn [b_cells Nat.add]. rewrite nth_error_map, Hw. reflexivity.
  Qed.

  (** ** constructors *)
  Definition built (s : St) (d : nat) (vs : list V) : res St (out V) :=
    match try_new sz (length vs) (cd s) with
    | Success => Ret ODone (mkSt (upd d (Arr (length vs) (Some (length (heap s)))) (vars s))
                                 (heap s ++ [nblk sz (length vs) (map Some vs)]) (made s + length vs) (gone s) (after (S (length vs)) (cd s)))
    | NoMemory => Exc EBadAlloc (with_failure (ncd (cd s)) s)
    | ElemFails j => Exc (EUser 0) (mkSt (vars s) (heap s ++ [nblk sz (length vs) (map Some (firstn j vs) ++ repeat None (length vs - j))])
                                         (made s + j) (gone s) None)
    end.
  Lemma build_exact (s : St) d n rd vs : new_var s d -> n = length vs -> sane sz n = true -> old_reader s rd vs ->
    done (fresh_var d ;;; a_build sz d n rd) s = built s d vs.
  Proof.
    intros Hd -> Hs Hrd. unfold done, bind at 1, bind at 1. rewrite (fresh_ok _ _ Hd). unfold a_build.
    rewrite (new_fill sz sz_pos rd vs (fun p => put_var d (Arr (length vs) p)) s (length vs) eq_refl Hs Hrd).
    unfold built. destruct (try_new sz (length vs) (cd s)); reflexivity.
  Qed.
  Lemma sane_small n : sane sz n = true -> small n.
  Proof. unfold sane, small. intros H. apply Z.ltb_lt in H. nia. Qed.
  Lemma constructs_exact (s : St) d o vs : new_var s d -> constructs dflt s d o vs -> sane sz (length vs) = true ->
    exec_op sz dflt neq o s = built s d vs.
  Proof.
    intros Hd Hc Hs. pose proof (sane_small _ Hs) as Hsm. destruct Hc as [n|n t x Ht|y vs Hy|n g|a f l Hl]; cbn [exec_op].
    - apply build_exact; [exact Hd|symmetry; apply repeat_length|rewrite repeat_length in Hs; exact Hs|apply reader_const].
    - destruct (arg_bind _ _ _ Ht) as (r & Hr & Hok).
      rewrite <- (build_exact s d n (fun _ => read_ref r) (repeat x n) Hd);
        [|symmetry; apply repeat_length|rewrite repeat_length in Hs; exact Hs|apply reader_ref; exact Hok].
      unfold a_value, done, bind. rewrite (fresh_ok _ _ Hd), Hr. reflexivity.
    - destruct (src_bind _ _ _ Hy Hsm) as (c & Hb & Hc & _).
      rewrite <- (build_exact s d (length vs) (read_cursor c) vs Hd eq_refl Hs (reader_cursor s c vs Hc)).
      unfold a_from, done, bind. rewrite (fresh_ok _ _ Hd), Hb. reflexivity.
    - rewrite map_length, seq_length in Hs. apply build_exact; [exact Hd| |exact Hs|apply reader_gen]. rewrite map_length, seq_length. reflexivity.
    - destruct (holds_inv _ _ _ Hl) as (p & Hv & Hp). rewrite map_length in Hs.
      rewrite <- (build_exact s d (length l) (read_cursor (CPtr f p 0)) (map f l) Hd);
        [|symmetry; apply map_length|exact Hs|apply reader_cursor; apply cur_whole; exact Hp].
      unfold a_copy, done, bind. rewrite (fresh_ok _ _ Hd), (get_ok _ _ _ _ Hv). reflexivity.
  Qed.
  Lemma try_ok n : fits sz n -> try_new sz n None = Success.
  Proof. unfold fits, try_new. intros H. destruct (Z.leb_spec (2 ^ 63) (Z.of_nat n * sz)); [lia|reflexivity]. Qed.
  Lemma fits_sane n : fits sz n -> sane sz n = true.
  Proof. unfold fits, sane. intros H. apply Z.ltb_lt. lia. Qed.
  Lemma try_elem n j : fits sz n -> j < n -> try_new sz n (Some (S j)) = ElemFails j.
  Proof.
    unfold fits, try_new. intros H Hj. destruct (Z.leb_spec (2 ^ 63) (Z.of_nat n * sz)); [lia|].
    destruct (Nat.ltb_spec j n); [reflexivity|lia].
  Qed.
  Lemma try_alloc n : try_new sz n (Some 0) = NoMemory.
  Proof. unfold try_new. destruct (2 ^ 63 <=? Z.of_nat n * sz)%Z; reflexivity. Qed.

  Lemma failing_constructor_leaks (s : St) d o vs j : new_var s d -> constructs dflt s d o vs -> fits sz (length vs) ->
    j < length vs -> cd s = Some (S j) ->
    exists s', exec_op sz dflt neq o s = Exc (EUser 0) s' /\ vars s' = vars s /\
      unreleased s' = unreleased s + 1 /\ made s' = made s + j /\ gone s' = gone s.
  Proof.
    intros Hd Hc Hf Hj Hcd. rewrite (constructs_exact s d o vs Hd Hc (fits_sane _ Hf)). unfold built. rewrite Hcd, (try_elem _ _ Hf Hj).
    eexists. split; [reflexivity|]. split; [reflexivity|]. rewrite unreleased_snoc. cbn [nblk b_freed made gone]. auto.
  Qed.
  Lemma failing_allocation_clean (s : St) d o vs : new_var s d -> constructs dflt s d o vs -> sane sz (length vs) = true ->
    cd s = Some 0 \/ ~ fits sz (length vs) ->
    exists s', exec_op sz dflt neq o s = Exc EBadAlloc s' /\ vars s' = vars s /\ heap s' = heap s /\ made s' = made s /\ gone s' = gone s.
  Proof.
    intros Hd Hc Hs Hcd. rewrite (constructs_exact s d o vs Hd Hc Hs). unfold built.
    assert (try_new sz (length vs) (cd s) = NoMemory) as ->.
    { destruct Hcd as [->|Hf]; [apply try_alloc|]. unfold try_new, fits in *.
      destruct (Z.leb_spec (2 ^ 63) (Z.of_nat (length vs) * sz)); [reflexivity|lia]. }
    eexists. split; [reflexivity|]. auto.
  Qed.
  Lemma constructor_room (s : St) d o vs : new_var s d -> constructs dflt s d o vs -> sane sz (length vs) = true -> no_failure s ->
    (exists s', exec_op sz dflt neq o s = Exc EBadAlloc s' /\ all_kept s s') \/
    (exists s', exec_op sz dflt neq o s = Ret ODone s' /\ holds s' d vs /\ storage s' d = Some (Z.of_nat (length vs) * sz)%Z /\ others_kept s s' d).
  Proof.
    intros Hd Hc Hs Hn. rewrite (constructs_exact s d o vs Hd Hc Hs). unfold built. rewrite Hn.
    destruct (try_new sz (length vs) None) as [| |j] eqn:Ht.
    - right. eexists. split; [reflexivity|].
      assert (nth_error (upd d (Arr (length vs) (Some (length (heap s)))) (vars s)) d = Some (Arr (length vs) (Some (length (heap s))))) as Hv
        by (apply nth_error_upd_eq; exact (nth_error_lt _ _ _ Hd)).
      split; [|split].
      + eapply holds_intro; [exact Hv|reflexivity|]. right. exists (length (heap s)), (Z.of_nat (length vs) * sz)%Z.
        split; [reflexivity|]. apply nth_error_app_mid.
      + unfold storage. cbn [vars heap]. rewrite Hv, nth_error_app_mid. reflexivity.
      + intros c l Hc' Hl. eapply contents_frame; [exact Hl|cbn [vars]; apply nth_error_upd_neq; congruence|].
        intros n b _ Hb. cbn [heap]. apply nth_error_snoc_old. exact Hb.
    - left. eexists. split; [reflexivity|]. intros c l Hl. exact Hl.
    - exfalso. unfold try_new in Ht. destruct (2 ^ 63 <=? Z.of_nat (length vs) * sz)%Z; discriminate.
  Qed.

  (** ** resize *)
  Definition fill_of (t : option (arg V)) (s : St) (x : V) : Prop := match t with None => x = dflt | Some t => arg_is s t x end.
  Lemma resize_reader (s : St) t x : fill_of t s x ->
    exists rd, (forall a n, a_resize sz dflt a n t s = resize_to sz a n rd s) /\
      forall s' : St, vars s' = vars s -> (forall b, b < length (heap s) -> nth_error (heap s') b = nth_error (heap s) b) -> rd s' = Ret x s'.
  Proof.
    destruct t as [t|]; cbn [fill_of].
    - intros H. destruct (arg_bind _ _ _ H) as (r & Hr & Hok). exists (read_ref r). split.
      + intros a n. cbn [a_resize]. unfold bind. rewrite Hr. reflexivity.
      + intros s' _ Hfr. apply read_ref_ok. eapply ref_ok_old; eassumption.
    - intros ->. exists (ret dflt). split; reflexivity.
  Qed.
  Lemma resized_length n (l : list V) x : length (resized n l x) = n.
  Proof. unfold resized. rewrite app_length, firstn_length, repeat_length. lia. Qed.
  Lemma resized_old n (l : list V) x i : i < n -> i < length l -> nth_error (resized n l x) i = nth_error l i.
  Proof.
    intros H1 H2. unfold resized. rewrite nth_error_app1 by (rewrite firstn_length; lia). apply nth_firstn. exact H1.
  Qed.
  Lemma resized_new n (l : list V) x i : i < n -> length l <= i -> nth_error (resized n l x) i = Some x.
  Proof.
    intros H1 H2. destruct (nth_error (resized n l x) i) as [y|] eqn:Hy.
    - unfold resized in Hy. rewrite nth_error_app2 in Hy by (rewrite firstn_length; lia).
      apply nth_error_In, repeat_spec in Hy. congruence.
    - apply nth_error_None in Hy. rewrite resized_length in Hy. lia.
  Qed.
  Lemma resized_same (l : list V) x : resized (length l) l x = l.
  Proof. unfold resized. rewrite firstn_all, Nat.sub_diag. apply app_nil_r. Qed.
  Lemma resize_holds (s : St) a l n t x : holds s a l -> no_failure s -> fits sz n -> fill_of t s x ->
    exists s', a_resize sz dflt a n t s = Ret tt s' /\ holds s' a (resized n l x) /\ (sole_owner s a -> others_kept s s' a).
  Proof.
    intros Hl Hn Hf Ht. destruct (holds_inv _ _ _ Hl) as (p & Hv & Hp). destruct (resize_reader s t x Ht) as (rd & Hrs & Hrd). rewrite Hrs.
    destruct (Nat.eq_dec n (length l)) as [->|Hne].
    - exists s. split; [|split].
      + unfold resize_to, bind. rewrite (get_ok _ _ _ _ Hv). cbn [fst]. rewrite Nat.eqb_refl. reflexivity.
      + rewrite resized_same. exact Hl.
      + intros _ c k _ Hk. exact Hk.
    - rewrite (resize_exact sz sz_pos a n l p rd x s Hv Hp Hne (fits_sane _ Hf) Hrd). rewrite Hn, (try_ok _ Hf).
      eexists. split; [reflexivity|].
      assert (p <> Some (length (heap s))) as Hpn by (intros ->; apply pointee_lt in Hp; lia).
      split.
      + eapply holds_intro; [cbn [vars]; apply nth_error_upd_eq; exact (nth_error_lt _ _ _ Hv)|symmetry; apply resized_length|].
        right. exists (length (heap s)), (Z.of_nat n * sz)%Z. split; [reflexivity|]. cbn [heap].
        rewrite release_other by exact Hpn. apply nth_error_app_mid.
      + intros Hso c k Hc Hk. eapply contents_frame; [exact Hk|cbn [vars]; apply nth_error_upd_neq; congruence|].
        intros n' b Hb Hlt. cbn [heap]. rewrite release_other; [apply nth_error_snoc_old; exact Hlt|].
        intros ->. apply Hc. exact (Hso c _ _ b Hv Hb).
  Qed.
  Lemma resize_failure (s : St) a l n t x k : holds s a l -> n <> length l -> fits sz n -> fill_of t s x -> cd s = Some k -> k <= n ->
    exists s', a_resize sz dflt a n t s = Exc (match k with 0 => EBadAlloc | _ => EUser 0 end) s' /\ vars s' = vars s /\ all_kept s s'.
  Proof.
    intros Hl Hne Hf Ht Hcd Hk. destruct (holds_inv _ _ _ Hl) as (p & Hv & Hp). destruct (resize_reader s t x Ht) as (rd & Hrs & Hrd). rewrite Hrs.
    rewrite (resize_exact sz sz_pos a n l p rd x s Hv Hp Hne (fits_sane _ Hf) Hrd). rewrite Hcd.
    destruct k as [|j].
    - rewrite try_alloc. eexists. split; [reflexivity|]. split; [reflexivity|]. intros c k Hc. exact Hc.
    - rewrite (try_elem n j Hf) by lia. eexists. split; [reflexivity|]. split; [reflexivity|]. intros c k Hc.
      eapply contents_frame; [exact Hc|reflexivity|]. intros n' b _ Hb. cbn [heap]. apply nth_error_snoc_old. exact Hb.
  Qed.
  Lemma resize_too_big (s : St) a l n t x : holds s a l -> fits sz (length l) -> sane sz n = true -> ~ fits sz n -> fill_of t s x ->
    exists s', a_resize sz dflt a n t s = Exc EBadAlloc s' /\ all_kept s s'.
  Proof.
    intros Hl Hfl Hsa Hf Ht. destruct (holds_inv _ _ _ Hl) as (p & Hv & Hp). destruct (resize_reader s t x Ht) as (rd & Hrs & Hrd). rewrite Hrs.
    assert (n <> length l) as Hne by congruence.
    rewrite (resize_exact sz sz_pos a n l p rd x s Hv Hp Hne Hsa Hrd).
    assert (try_new sz n (cd s) = NoMemory) as ->.
    { unfold try_new, fits in *. destruct (Z.leb_spec (2 ^ 63) (Z.of_nat n * sz)); [reflexivity|lia]. }
    eexists. split; [reflexivity|]. intros c k Hc. exact Hc.
  Qed.

  (** ** access *)
  Lemma at_exact (s : St) a l i : holds s a l ->
    a_at a i s = match nth_error l i with Some v => Ret v s | None => Exc EOutOfRange s end.
  Proof.
    intros Hl. destruct (holds_inv _ _ _ Hl) as (p & Hv & Hp). unfold a_at, at_ref, bind. rewrite (get_ok _ _ _ _ Hv). cbn [fst].
    destruct (nth_error l i) as [v|] eqn:Hi.
    - pose proof (nth_error_lt _ _ _ Hi) as Hlt. apply Nat.ltb_lt in Hlt. rewrite Hlt.
      destruct Hp as [[_ E]|(b & bytes & -> & Hb)]; [destruct l; [destruct i|]; discriminate|].
      assert (nth_error (map Some l) i = Some (Some v)) as Hi' by (rewrite nth_error_map, Hi; reflexivity).
      rewrite (elem_ref_ok s a i _ b _ (Some v) Hv Hb eq_refl Hi'). cbn [fst snd]. eapply load_ok; [exact Hb|reflexivity|exact Hi'].
    - apply nth_error_None in Hi. apply Nat.ltb_ge in Hi. rewrite Hi. reflexivity.
  Qed.
  Lemma set_at_exact (s : St) a l i t x : holds s a l -> arg_is s t x -> no_failure s ->
    match nth_error l i with
    | Some _ => exists s', a_set_at a i t s = Ret tt s' /\ holds s' a (upd i x l) /\ (sole_owner s a -> others_kept s s' a)
    | None => a_set_at a i t s = Exc EOutOfRange s
    end.
  Proof.
    intros Hl Ht Hn. destruct (holds_inv _ _ _ Hl) as (p & Hv & Hp). destruct (arg_bind _ _ _ Ht) as (r & Hr & Hok).
    unfold a_set_at, at_ref, bind. rewrite Hr, (get_ok _ _ _ _ Hv). cbn [fst].
    destruct (nth_error l i) as [v|] eqn:Hi.
    - pose proof (nth_error_lt _ _ _ Hi) as Hlt. apply Nat.ltb_lt in Hlt. rewrite Hlt.
      destruct Hp as [[_ E]|(b & bytes & -> & Hb)]; [destruct l; [destruct i|]; discriminate|].
      assert (nth_error (map Some l) i = Some (Some v)) as Hi' by (rewrite nth_error_map, Hi; reflexivity).
      rewrite (elem_ref_ok s a i _ b _ (Some v) Hv Hb eq_refl Hi'). cbn [fst snd]. rewrite (read_ref_ok _ _ _ Hok).
      pose proof (put_ok false s b bytes _ i x (Some v) Hb Hi' ltac:(discriminate)) as E. cbn [put] in E. rewrite E, Hn.
      eexists. split; [reflexivity|]. split.
      + eapply holds_intro; [exact Hv|symmetry; apply upd_length|]. right. exists b, bytes. split; [reflexivity|]. cbn [heap].
        rewrite nth_error_upd_eq by exact (nth_error_lt _ _ _ Hb). do 2 f_equal.
        clear. revert i. induction l as [|h l IH]; intros [|i]; cbn [map upd]; auto. f_equal. apply IH.
      + intros Hso c k Hc Hk. eapply contents_frame; [exact Hk|reflexivity|].
        intros n' b' Hb' _. cbn [heap]. apply nth_error_upd_neq. intros ->. apply Hc. exact (Hso c _ _ b' Hv Hb').
    - apply nth_error_None in Hi. apply Nat.ltb_ge in Hi. rewrite Hi. reflexivity.
  Qed.
  Lemma eq_exact (s : St) a b l l' : (forall x y, neq x y = false <-> x = y) -> holds s a l -> holds s b l' ->
    exists e, a_eq neq a b s = Ret e s /\ a_ne neq a b s = Ret (negb e) s /\ (e = true <-> l = l').
  Proof.
    intros Hneq Hl Hl'.
    assert (forall x y : V, {x = y} + {x <> y}) as eq_dec.
    { intros x y. destruct (neq x y) eqn:E; [right|left; apply Hneq; exact E]. intros H. apply Hneq in H. congruence. }
    assert (forall x y, neq x y = true <-> x <> y) as Hneq'.
    { intros x y. specialize (Hneq x y). destruct (neq x y); split; intros H; try congruence.
      - intros E. apply Hneq in E. discriminate.
      - exfalso. apply H. apply Hneq. reflexivity. }
    destruct (holds_inv _ _ _ Hl) as (p & Hv & Hp). destruct (holds_inv _ _ _ Hl') as (q & Hv' & Hp').
    assert (a_eq neq a b s = Ret (if list_eq_dec eq_dec l l' then true else false) s) as E.
    { unfold a_eq, bind. rewrite (get_ok _ _ _ _ Hv), (get_ok _ _ _ _ Hv'). cbn [fst snd].
      destruct (Nat.eqb_spec (length l) (length l')) as [E|E].
      - destruct Hp as [[-> E1]|(c & bytes & -> & Hc)]; [destruct l; [|discriminate]; destruct l'; [reflexivity|discriminate]|].
        destruct Hp' as [[-> E1]|(c' & bytes' & -> & Hc')]; [destruct l'; [|discriminate]; destruct l; [reflexivity|discriminate]|].
        eapply eq_loop_ok; [exact Hneq'|exact Hc|reflexivity|exact Hc'|reflexivity|reflexivity|symmetry; exact E|..];
          intros j v Hj; cbn [b_cells Nat.add]; rewrite nth_error_map, Hj; reflexivity.
      - destruct (list_eq_dec eq_dec l l') as [->|_]; [contradiction|]. reflexivity. }
    exists (if list_eq_dec eq_dec l l' then true else false). split; [exact E|]. split.
    - unfold a_ne, bind. rewrite E. reflexivity.
    - destruct (list_eq_dec eq_dec l l'); split; congruence.
  Qed.

  (** ** assignment *)
  Lemma holds_same_block (s : St) a b l l' n m c : holds s a l -> holds s b l' ->
    nth_error (vars s) a = Some (Arr n (Some c)) -> nth_error (vars s) b = Some (Arr m (Some c)) -> l = l'.
  Proof.
    intros Hl Hl' Ha Hb. destruct (holds_inv _ _ _ Hl) as (p & Hv & Hp). destruct (holds_inv _ _ _ Hl') as (q & Hv' & Hp').
    rewrite Ha in Hv. injection Hv as _ <-. rewrite Hb in Hv'. injection Hv' as _ <-.
    destruct Hp as [[E _]|(c1 & bytes & E & Hc)]; [discriminate|]. destruct Hp' as [[E' _]|(c2 & bytes' & E' & Hc')]; [discriminate|].
    injection E as <-. injection E' as <-. rewrite Hc in Hc'. injection Hc' as _ Hm.
    clear - Hm. revert l' Hm. induction l as [|x l IH]; intros [|y l'] H; try discriminate; [reflexivity|]. injection H as -> H. f_equal. apply IH. exact H.
  Qed.
  Lemma assign_replace (s : St) d a l l' p q : holds s d l -> holds s a l' -> length l <> length l' ->
    nth_error (vars s) d = Some (Arr (length l) p) -> pointee (heap s) (map Some l) p -> nth_error (vars s) a = Some (Arr (length l') q) ->
    a_assign sz d a s = replace_seq sz d (length l) p (length l') (read_cursor (CPtr (fun v => v) q 0)) s.
  Proof.
    intros Hl Hl' Hne Hv Hp Hv'. assert (d <> a) as Hda by (intros ->; rewrite Hv in Hv'; injection Hv' as E _; contradiction).
    unfold a_assign, bind at 1 2. rewrite (get_ok _ _ _ _ Hv), (get_ok _ _ _ _ Hv'). cbn [fst snd].
    destruct (Nat.eqb_spec (length l) (length l')) as [|_]; [contradiction|].
    unfold replace_seq. rewrite !(destroy_release l p _ s _ eq_refl Hp).
    unfold bind at 1. rewrite (get_ok _ a (length l') q) by exact Hv'. cbn [fst snd]. unfold bind, put_var. cbn [vars heap made gone cd].
    destruct (uninitialized_new sz (length l') _) as [b s1|e s1| | |] eqn:En; try reflexivity.
    assert (vars s1 = upd d (Arr (length l') p) (vars s)) as Hs1.
    { revert En. unfold uninitialized_new, bind, event. cbn [cd vars heap made gone].
      destruct (cd s) as [[|c]|]; try discriminate; destruct (2 ^ 63 <=? bytes_for sz (length l'))%Z; try discriminate;
        intros E; injection E as _ <-; reflexivity. }
    rewrite (get_ok _ a (length l') q); [reflexivity|]. cbn [vars]. rewrite Hs1, !nth_error_upd_neq by exact Hda. exact Hv'.
  Qed.
  (** the state after a failed replacement cannot be destroyed *)
  Lemma broken_destroy d l p rd (s : St) n' vs k :
    nth_error (vars s) d = Some (Arr (length l) p) -> pointee (heap s) (map Some l) p -> n' = length vs -> n' <> length l -> fits sz n' ->
    (forall i v (s' : St), nth_error vs i = Some v ->
       (forall b, p <> Some b -> b < length (heap s) -> nth_error (heap s') b = nth_error (heap s) b) -> rd i s' = Ret v s') ->
    cd s = Some k -> k <= n' ->
    exists e s', replace_seq sz d (length l) p n' rd s = Exc e s' /\ exists r, a_destroy d s' = Ub r.
  Proof.
    intros Hv Hp -> Hne Hf Hrd Hcd Hk.
    rewrite (replace_exact sz sz_pos d l vs p rd s _ _ eq_refl eq_refl Hp (fits_sane _ Hf) Hrd). rewrite Hcd.
    destruct k as [|j].
    - rewrite try_alloc. do 2 eexists. split; [reflexivity|].
      unfold a_destroy, bind at 1. rewrite (get_ok _ d (length vs) p) by (cbn [vars]; apply nth_error_upd_eq; exact (nth_error_lt _ _ _ Hv)).
      cbn [fst snd]. destruct Hp as [[-> E]|(b & bytes & -> & Hb)].
      + destruct l; [|discriminate]. unfold destroy_elements. destruct (length vs) as [|n] eqn:En; [cbn in Hne; congruence|].
        cbn [for_down]. exists UbNull. reflexivity.
      + unfold release. rewrite Hb. cbn [b_bytes].
        assert (forall X, nth_error (upd b X (heap s)) b = Some X) as Hu by (intros X; apply nth_error_upd_eq; exact (nth_error_lt _ _ _ Hb)).
        destruct (length vs) as [|n].
        * exists UbDoubleFree. unfold destroy_elements, bind. cbn [for_down]. unfold ret, uninitialized_delete. cbn [heap]. rewrite Hu. reflexivity.
        * exists UbDangling. unfold destroy_elements. cbn [for_down]. unfold bind, destroy_at, bind, block. cbn [heap]. rewrite Hu. reflexivity.
    - rewrite (try_elem _ j Hf) by lia. do 2 eexists. split; [reflexivity|].
      unfold a_destroy, bind at 1.
      rewrite (get_ok _ d (length vs) (Some (length (heap s)))) by (cbn [vars]; apply nth_error_upd_eq; exact (nth_error_lt _ _ _ Hv)).
      cbn [fst snd]. exists UbDangling. unfold destroy_elements. destruct (length vs) as [|n] eqn:En; [lia|]. cbn [for_down].
      unfold bind, destroy_at, bind, block. cbn [heap].
      assert (nth_error (release (length l) p (heap s) ++ [nblk sz (S n) (map Some (firstn j vs) ++ repeat None (S n - j))]) (length (heap s))
              = Some (nblk sz (S n) (map Some (firstn j vs) ++ repeat None (S n - j)))) as ->.
      { rewrite <- (release_length (length l) p (heap s)). apply nth_error_app_mid. }
      cbn [b_freed nblk snd]. unfold cell. cbn [b_cells nblk].
      assert (nth_error (map Some (firstn j vs) ++ repeat None (S n - j)) n = Some None) as ->; [|reflexivity].
      rewrite nth_error_app2 by (rewrite map_length, firstn_length; lia). rewrite map_length, firstn_length, En, Nat.min_l by lia.
      destruct (nth_error (repeat (@None V) (S n - j)) (n - j)) as [y|] eqn:Hy.
      + apply nth_error_In, repeat_spec in Hy. congruence.
      + apply nth_error_None in Hy. rewrite repeat_length in Hy. lia.
  Qed.
  Lemma assign_failure_breaks (s : St) d a l l' k : holds s d l -> holds s a l' -> length l <> length l' -> fits sz (length l') ->
    cd s = Some k -> k <= length l' ->
    exists e s', a_assign sz d a s = Exc e s' /\ exists r, a_destroy d s' = Ub r.
  Proof.
    intros Hl Hl' Hne Hf Hcd Hk. destruct (holds_inv _ _ _ Hl) as (p & Hv & Hp). destruct (holds_inv _ _ _ Hl') as (q & Hv' & Hp').
    rewrite (assign_replace s d a l l' p q Hl Hl' Hne Hv Hp Hv').
    eapply (broken_destroy d l p _ s (length l') l' k Hv Hp eq_refl); [congruence|exact Hf| |exact Hcd|exact Hk].
    intros i v s' Hi Hfr. pose proof (cur_whole s l' q (fun v => v) Hp') as Hc. rewrite map_id in Hc.
    eapply read_cursor_ok; [|exact Hi]. eapply cur_ok_others; [exact Hc| |exact Hfr].
    intros f i' E Hpn. injection E as _ -> _. destruct p as [c|]; [|contradiction].
    pose proof (holds_same_block s d a l l' _ _ c Hl Hl' Hv Hv'). congruence.
  Qed.
  Lemma reallocate_replace (s : St) a (l : list V) n p : nth_error (vars s) a = Some (Arr (length l) p) -> n <> length l ->
    a_reallocate sz dflt a n s = replace_seq sz a (length l) p n (fun _ => ret dflt) s.
  Proof.
    intros Hv Hne. unfold a_reallocate, bind at 1. rewrite (get_ok _ _ _ _ Hv). cbn [fst snd].
    destruct (Nat.eqb_spec (length l) n) as [E|_]; [congruence|]. reflexivity.
  Qed.
  Lemma reallocate_failure_breaks (s : St) a l n k : holds s a l -> n <> length l -> fits sz n -> cd s = Some k -> k <= n ->
    exists e s', a_reallocate sz dflt a n s = Exc e s' /\ exists r, a_destroy a s' = Ub r.
  Proof.
    intros Hl Hne Hf Hcd Hk. destruct (holds_inv _ _ _ Hl) as (p & Hv & Hp).
    rewrite (reallocate_replace s a l n p Hv Hne).
    eapply (broken_destroy a l p _ s n (repeat dflt n) k Hv Hp); [symmetry; apply repeat_length|congruence|exact Hf| |exact Hcd|exact Hk].
    intros i v s' Hi _. apply nth_error_In, repeat_spec in Hi. subst v. reflexivity.
  Qed.
  Lemma assign_same_size_failure (s : St) d a l l' j : holds s d l -> holds s a l' -> length l = length l' -> j < length l -> cd s = Some j ->
    exists s', a_assign sz d a s = Exc (EUser 0) s' /\ holds s' d (firstn j l' ++ skipn j l) /\ (sole_owner s d -> others_kept s s' d).
  Proof.
    intros Hl Hl' Hlen Hj Hcd. destruct (holds_inv _ _ _ Hl) as (p & Hv & Hp). destruct (holds_inv _ _ _ Hl') as (q & Hv' & Hp').
    unfold a_assign, bind at 1 2. rewrite (get_ok _ _ _ _ Hv), (get_ok _ _ _ _ Hv'). cbn [fst snd]. rewrite Hlen, Nat.eqb_refl, <- Hlen.
    pose proof (cur_whole s l' q (fun v => v) Hp') as Hc. rewrite map_id in Hc.
    rewrite (fill_exact _ l l' p s (length l) eq_refl Hp (eq_sym Hlen)).
    - rewrite Hcd. cbn [fails]. destruct (Nat.ltb_spec j (length l)); [|lia].
      eexists. split; [reflexivity|].
      destruct Hp as [[-> E]|(b & bytes & -> & Hb)]; [destruct l; [cbn in Hj; lia|discriminate]|].
      unfold overwrite. rewrite Hb. cbn [b_bytes b_freed]. split.
      + eapply holds_intro; [exact Hv|rewrite app_length, firstn_length, skipn_length; lia|].
        right. exists b, bytes. split; [reflexivity|]. cbn [heap]. rewrite nth_error_upd_eq by exact (nth_error_lt _ _ _ Hb). reflexivity.
      + intros Hso c k Hck Hk. eapply contents_frame; [exact Hk|reflexivity|].
        intros n' b' Hb' _. cbn [heap]. apply nth_error_upd_neq. intros ->. apply Hck. exact (Hso c _ _ b' Hv Hb').
    - apply fill_reader_cursor; [exact Hp|exact Hc|symmetry; exact Hlen].
  Qed.

  Lemma upd_var_eq (s : St) a x y : nth_error (vars s) a = Some x -> nth_error (upd a y (vars s)) a = Some y.
  Proof. intros H. apply nth_error_upd_eq. exact (nth_error_lt _ _ _ H). Qed.
  (** replacing and overwriting, without failure *)
  Lemma replace_holds (s : St) d l vs p rd :
    nth_error (vars s) d = Some (Arr (length l) p) -> pointee (heap s) (map Some l) p -> no_failure s -> fits sz (length vs) ->
    (forall i v (s' : St), nth_error vs i = Some v ->
       (forall b, p <> Some b -> b < length (heap s) -> nth_error (heap s') b = nth_error (heap s) b) -> rd i s' = Ret v s') ->
    exists s', replace_seq sz d (length l) p (length vs) rd s = Ret tt s' /\ holds s' d vs /\ (sole_owner s d -> others_kept s s' d).
  Proof.
    intros Hv Hp Hn Hf Hrd.
    rewrite (replace_exact sz sz_pos d l vs p rd s _ _ eq_refl eq_refl Hp (fits_sane _ Hf) Hrd), Hn, (try_ok _ Hf).
    eexists. split; [reflexivity|]. split.
    - eapply holds_intro; [exact (upd_var_eq s d _ _ Hv)|reflexivity|]. right. exists (length (heap s)), (Z.of_nat (length vs) * sz)%Z.
      split; [reflexivity|]. cbn [heap]. rewrite <- (release_length (length l) p (heap s)). apply nth_error_app_mid.
    - intros Hso c k Hc Hk. eapply contents_frame; [exact Hk|cbn [vars]; apply nth_error_upd_neq; congruence|].
      intros n' b Hb Hlt. cbn [heap]. rewrite nth_error_snoc_old by (rewrite release_length; exact Hlt). apply release_other.
      intros ->. apply Hc. exact (Hso c _ _ b Hv Hb).
  Qed.
  Lemma fill_holds (s : St) d l vs p c :
    nth_error (vars s) d = Some (Arr (length l) p) -> pointee (heap s) (map Some l) p -> no_failure s -> cur_ok s c vs -> length vs = length l ->
    exists s', fill_with (length l) p (read_cursor c) s = Ret tt s' /\ holds s' d vs /\
      forall k w, contents s k = Some w -> (forall n b, nth_error (vars s) k = Some (Arr n (Some b)) -> p <> Some b) -> contents s' k = Some w.
  Proof.
    intros Hv Hp Hn Hc Hlen. rewrite (fill_exact _ l vs p s _ eq_refl Hp Hlen (fill_reader_cursor s c vs p l Hp Hc Hlen)), Hn.
    cbn [fails]. eexists. split; [reflexivity|]. destruct Hp as [[-> E]|(b & bytes & -> & Hb)].
    - destruct l; [|discriminate]. destruct vs; [|discriminate]. split; [|intros k w Hk _; exact Hk].
      eapply holds_intro; [exact Hv|reflexivity|]. left. split; reflexivity.
    - unfold overwrite. rewrite Hb. cbn [b_bytes b_freed]. split.
      + eapply holds_intro; [exact Hv|symmetry; exact Hlen|].
        right. exists b, bytes. split; [reflexivity|]. cbn [heap]. apply nth_error_upd_eq. exact (nth_error_lt _ _ _ Hb).
      + intros k w Hk Hck. eapply contents_frame; [exact Hk|reflexivity|].
        intros n' b' Hb' _. cbn [heap]. apply nth_error_upd_neq. intros ->. apply (Hck _ _ Hb'). reflexivity.
  Qed.
  Lemma sole_apart (s : St) a n p : sole_owner s a -> nth_error (vars s) a = Some (Arr n p) ->
    forall k, k <> a -> forall m b, nth_error (vars s) k = Some (Arr m (Some b)) -> p <> Some b.
  Proof. intros Hso Hv k Hk m b Hb ->. apply Hk. exact (Hso k _ _ b Hv Hb). Qed.
  Lemma assign_holds (s : St) d a l l' : holds s d l -> holds s a l' -> no_failure s -> fits sz (length l') ->
    exists s', a_assign sz d a s = Ret tt s' /\ holds s' d l' /\ (sole_owner s d -> others_kept s s' d).
  Proof.
    intros Hl Hl' Hn Hf. destruct (holds_inv _ _ _ Hl) as (p & Hv & Hp). destruct (holds_inv _ _ _ Hl') as (q & Hv' & Hp').
    pose proof (cur_whole s l' q (fun v => v) Hp') as Hc. rewrite map_id in Hc.
    destruct (Nat.eq_dec (length l) (length l')) as [E|E].
    - unfold a_assign, bind at 1 2. rewrite (get_ok _ _ _ _ Hv), (get_ok _ _ _ _ Hv'). cbn [fst snd]. rewrite E, Nat.eqb_refl, <- E.
      destruct (fill_holds s d l l' p _ Hv Hp Hn Hc (eq_sym E)) as (s' & H1 & H2 & H3). exists s'. split; [exact H1|]. split; [exact H2|].
      intros Hso k w Hk Hw. apply H3; [exact Hw|]. exact (sole_apart s d _ _ Hso Hv k Hk).
    - rewrite (assign_replace s d a l l' p q Hl Hl' E Hv Hp Hv'). apply replace_holds; auto.
      intros i v s' Hi Hfr. eapply read_cursor_ok; [|exact Hi]. eapply cur_ok_others; [exact Hc| |exact Hfr].
      intros f i' E' Hpn. injection E' as _ -> _. destruct p as [c|]; [|contradiction].
      pose proof (holds_same_block s d a l l' _ _ c Hl Hl' Hv Hv'). congruence.
  Qed.
  Lemma reallocate_holds (s : St) a l n : holds s a l -> no_failure s -> fits sz n -> n <> length l ->
    exists s', a_reallocate sz dflt a n s = Ret tt s' /\ holds s' a (repeat dflt n) /\ (sole_owner s a -> others_kept s s' a).
  Proof.
    intros Hl Hn Hf Hne. destruct (holds_inv _ _ _ Hl) as (p & Hv & Hp). rewrite (reallocate_replace s a l n p Hv Hne).
    pose proof (replace_holds s a l (repeat dflt n) p (fun _ => ret dflt) Hv Hp Hn) as H. rewrite repeat_length in H. apply H; [exact Hf|].
    intros i v s' Hi _. apply nth_error_In, repeat_spec in Hi. subst v. reflexivity.
  Qed.
  Lemma reallocate_same (s : St) a l : holds s a l -> a_reallocate sz dflt a (length l) s = Ret tt s.
  Proof.
    intros Hl. destruct (holds_inv _ _ _ Hl) as (p & Hv & Hp). unfold a_reallocate, bind. rewrite (get_ok _ _ _ _ Hv). cbn [fst].
    rewrite Nat.eqb_refl. reflexivity.
  Qed.

  (** ** assign *)
  Lemma fits_small n : fits sz n -> small n.
  Proof. intros H. apply sane_small, fits_sane, H. Qed.
  Lemma assign_range_holds (s : St) a l y vs : holds s a l -> src_is s y vs -> no_failure s -> fits sz (length vs) -> sole_owner s a ->
    inside a y = false \/ length vs = length l ->
    exists s', a_assign_range sz dflt a y s = Ret tt s' /\ holds s' a vs /\ others_kept s s' a.
  Proof.
    intros Hl Hy Hn Hf Hso Hor. destruct (src_bind s y vs Hy (fits_small _ Hf)) as (c & Hb & Hc & Hown).
    unfold a_assign_range, bind at 1. rewrite Hb. cbn [fst snd].
    destruct (holds_inv _ _ _ Hl) as (p & Hv & Hp).
    destruct (Nat.eq_dec (length vs) (length l)) as [E|E].
    - unfold bind at 1. cbn [a_resize]. unfold resize_to, bind at 1. rewrite (get_ok _ _ _ _ Hv). cbn [fst snd]. rewrite E, Nat.eqb_refl.
      unfold ret, bind. rewrite (get_ok _ _ _ _ Hv). cbn [fst snd].
      destruct (fill_holds s a l vs p c Hv Hp Hn Hc E) as (s' & H1 & H2 & H3). exists s'. split; [exact H1|]. split; [exact H2|].
      intros k w Hk Hw. apply H3; [exact Hw|]. exact (sole_apart s a _ _ Hso Hv k Hk).
    - assert (inside a y = false) as Hin by (destruct Hor; [assumption|contradiction]).
      assert (forall s' : St, vars s' = vars s -> (forall b, b < length (heap s) -> nth_error (heap s') b = nth_error (heap s) b) ->
        ret dflt s' = Ret dflt s') as Hrd by reflexivity.
      unfold bind at 1. cbn [a_resize].
      rewrite (resize_exact sz sz_pos a (length vs) l p (ret dflt) dflt s Hv Hp E (fits_sane _ Hf) Hrd). rewrite Hn, (try_ok _ Hf).
      match goal with |- context [mkSt ?v ?h ?x ?y ?z] => set (s1 := mkSt v h x y z) end.
      assert (p <> Some (length (heap s))) as Hpn by (intros ->; apply pointee_lt in Hp; lia).
      assert (nth_error (vars s1) a = Some (Arr (length (resized (length vs) l dflt)) (Some (length (heap s))))) as Hv1.
      { rewrite resized_length. exact (upd_var_eq s a _ _ Hv). }
      assert (pointee (heap s1) (map Some (resized (length vs) l dflt)) (Some (length (heap s)))) as Hp1.
      { right. exists (length (heap s)), (Z.of_nat (length vs) * sz)%Z. split; [reflexivity|]. unfold s1. cbn [heap].
        rewrite release_other by exact Hpn. apply nth_error_app_mid. }
      assert (cur_ok s1 c vs) as Hc1.
      { apply (cur_ok_others s s1 c vs p Hc).
        - intros f i E1 Hpn'. destruct (Hown _ _ _ E1) as (a' & j & l' & -> & Ha' & Hva'). destruct p as [b|]; [|contradiction].
          cbn [inside] in Hin. apply Nat.eqb_neq in Hin. exfalso. apply Hin. symmetry. exact (Hso a' _ _ b Hv Hva').
        - intros b Hb' Hlt. unfold s1. cbn [heap]. rewrite release_other by exact Hb'. apply nth_error_snoc_old. exact Hlt. }
      cbv iota. unfold bind. rewrite (get_ok _ _ _ _ Hv1). cbn [fst snd].
      assert (length vs = length (resized (length vs) l dflt)) as Hlen by (symmetry; apply resized_length).
      destruct (fill_holds s1 a _ vs _ c Hv1 Hp1 eq_refl Hc1 Hlen) as (s' & H1 & H2 & H3). exists s'.
      split; [exact H1|]. split; [exact H2|]. intros k w Hk Hw.
      assert (nth_error (vars s1) k = nth_error (vars s) k) as Hvk by (unfold s1; cbn [vars]; apply nth_error_upd_neq; congruence).
      apply H3.
      + eapply contents_frame; [exact Hw|exact Hvk|]. intros n' b Hb' Hlt. unfold s1. cbn [heap].
        rewrite release_other by exact (sole_apart s a _ _ Hso Hv k Hk _ _ Hb'). apply nth_error_snoc_old. exact Hlt.
      + intros n' b Hb'. rewrite Hvk in Hb'. intros E1. injection E1 as <-.
        unfold contents in Hw. rewrite Hb' in Hw. rewrite (proj2 (nth_error_None _ _)) in Hw by lia. discriminate.
  Qed.
  Lemma assign_range_own (s : St) a l f i j : holds s a l -> no_failure s -> i < j -> j <= length l -> j - i <> length l -> fits sz (length l) ->
    a_assign_range sz dflt a (SRange f a i j) s = Ub UbDangling.
  Proof.
    intros Hl Hn Hij Hj Hne Hf. destruct (holds_inv _ _ _ Hl) as (p & Hv & Hp).
    assert (src_is s (SRange f a i j) (map f (firstn (j - i) (skipn i l)))) as Hy by (exists l; repeat split; auto; lia).
    assert (length (map f (firstn (j - i) (skipn i l))) = j - i) as Hlen by (rewrite map_length, firstn_length, skipn_length; lia).
    assert (fits sz (j - i)) as Hf' by (unfold fits in *; nia).
    destruct (src_bind s _ _ Hy) as (c & Hb & Hc & Hown); [rewrite Hlen; apply fits_small; exact Hf'|]. rewrite Hlen in Hb.
    unfold a_assign_range, bind at 1. rewrite Hb. cbn [fst snd].
    destruct Hp as [[-> E]|(b & bytes & -> & Hbk)]; [destruct l; [cbn in Hj; lia|discriminate]|].
    assert (pointee (heap s) (map Some l) (Some b)) as Hp by (right; exists b, bytes; split; [reflexivity|exact Hbk]).
    assert (c = CPtr f (Some b) i) as ->.
    { clear - Hb Hv. revert Hb. unfold bind_src, iter, bind. rewrite (get_ok _ _ _ _ Hv). cbn [snd].
      destruct (block (Some b) s) as [bk s1| | | |] eqn:Ek; try discriminate.
      destruct (i <=? length (b_cells (snd bk))); unfold ret, undefined; [|discriminate].
      destruct (get_var a s1) as [np s2| | | |]; try discriminate. destruct (snd np) as [b'|].
      - destruct (block (Some b') s2) as [bk' s3| | | |]; try discriminate. destruct (j <=? length (b_cells (snd bk'))); [|discriminate].
        intros E. injection E as <- _ _. reflexivity.
      - destruct (j =? 0); [|discriminate]. intros E. injection E as <- _ _. reflexivity. }
    assert (forall s' : St, vars s' = vars s -> (forall b, b < length (heap s) -> nth_error (heap s') b = nth_error (heap s) b) ->
      ret dflt s' = Ret dflt s') as Hrd by reflexivity.
    unfold bind at 1. cbn [a_resize].
    rewrite (resize_exact sz sz_pos a (j - i) l (Some b) (ret dflt) dflt s Hv Hp Hne (fits_sane _ Hf') Hrd). rewrite Hn, (try_ok _ Hf').
    match goal with |- context [mkSt ?v ?h ?x ?y ?z] => set (s1 := mkSt v h x y z) end. cbv iota.
    assert (nth_error (vars s1) a = Some (Arr (j - i) (Some (length (heap s))))) as Hv1 by exact (upd_var_eq s a _ _ Hv).
    unfold bind at 1. rewrite (get_ok _ _ _ _ Hv1). cbn [fst snd].
    unfold fill_with. destruct (j - i) as [|n] eqn:En; [lia|]. cbn [for_up read_cursor]. unfold bind at 1 2 3. unfold load, bind, block.
    assert (nth_error (heap s1) b = Some (mkBlk bytes (repeat None (length l)) true)) as ->; [|reflexivity].
    unfold s1. cbn [heap release].
    assert (nth_error (heap s ++ [nblk sz (S n) (map Some (resized (S n) l dflt))]) b = Some (mkBlk bytes (map Some l) false)) as Hbk'.
    { rewrite nth_error_snoc_old by exact (nth_error_lt _ _ _ Hbk). exact Hbk. }
    rewrite Hbk'. cbn [b_bytes]. apply nth_error_upd_eq. exact (nth_error_lt _ _ _ Hbk').
  Qed.

  (** ** the size in bytes *)
  Lemma for_up_split (body : nat -> M St unit) n m i (s : St) :
    for_up i (n + m) body s = (for_up i n body ;;; for_up (i + n) m body)%M s.
  Proof.
    revert i s. induction n as [|n IH]; intros i s; cbn [for_up Nat.add].
    - rewrite Nat.add_0_r. reflexivity.
    - unfold bind. destruct (body i s) as [u s1| | | |]; try reflexivity. rewrite IH. unfold bind.
      replace (S i + n) with (i + S n) by lia. reflexivity.
  Qed.
  Lemma new_wraps n (s : St) : no_failure s -> (wrap64 (Z.of_nat n * sz) < 2 ^ 63)%Z ->
    uninitialized_new sz n s =
      Ret (Some (length (heap s)))
          (mkSt (vars s) (heap s ++ [mkBlk (wrap64 (Z.of_nat n * sz)) (repeat None (Z.to_nat (wrap64 (Z.of_nat n * sz) / sz))) false]) (made s) (gone s) None).
  Proof.
    intros Hn Hw. unfold uninitialized_new, bind, event, bytes_for. rewrite Hn.
    destruct (Z.leb_spec (2 ^ 63) (wrap64 (Z.of_nat n * sz))); [lia|]. rewrite Hn. reflexivity.
  Qed.
  Lemma wrap_less z : (2 ^ 64 <= z -> wrap64 z < z)%Z.
  Proof. intros H. unfold wrap64. pose proof (Z.mod_pos_bound z (2 ^ 64) ltac:(lia)). lia. Qed.
  Lemma uninit_too_small (s : St) d n : new_var s d -> no_failure s -> (2 ^ 64 <= Z.of_nat n * sz)%Z -> (wrap64 (Z.of_nat n * sz) < 2 ^ 63)%Z ->
    exists s' bytes, a_uninit sz d n s = Ret tt s' /\ a_len d s' = Ret n s' /\ storage s' d = Some bytes /\ (bytes < Z.of_nat n * sz)%Z.
  Proof.
    intros Hd Hn Hbig Hw. unfold a_uninit, bind at 1. rewrite (fresh_ok _ _ Hd). unfold bind at 1. rewrite (new_wraps n s Hn Hw).
    unfold put_var. do 2 eexists. split; [reflexivity|].
    assert (nth_error (upd d (Arr n (Some (length (heap s)))) (vars s)) d = Some (Arr n (Some (length (heap s))))) as Hv by exact (upd_var_eq s d _ _ Hd).
    split; [|split].
    - unfold a_len, bind. rewrite (get_ok _ d n (Some (length (heap s)))) by exact Hv. reflexivity.
    - unfold storage. cbn [vars heap]. rewrite Hv, nth_error_app_mid. reflexivity.
    - apply wrap_less. exact Hbig.
  Qed.
  Lemma size_overruns (s : St) d n : new_var s d -> no_failure s -> (2 ^ 64 <= Z.of_nat n * sz)%Z -> (wrap64 (Z.of_nat n * sz) < 2 ^ 63)%Z ->
    a_size sz dflt d n s = Ub UbOutOfBounds.
  Proof.
    intros Hd Hn Hbig Hw. unfold a_size, bind at 1. rewrite (fresh_ok _ _ Hd). unfold a_build, bind at 1. rewrite (new_wraps n s Hn Hw).
    set (r := Z.to_nat (wrap64 (Z.of_nat n * sz) / sz)).
    assert (r < n) as Hr.
    { unfold r. pose proof (wrap_less _ Hbig). assert (0 <= wrap64 (Z.of_nat n * sz))%Z as H0 by (apply Z.mod_pos_bound; lia).
      assert (wrap64 (Z.of_nat n * sz) / sz < Z.of_nat n)%Z by (apply Z.div_lt_upper_bound; lia). lia. }
    match goal with |- context [mkSt (vars s) ?h ?a ?b ?c] => set (s1 := mkSt (vars s) h a b c) end.
    replace n with (length (repeat dflt r) + S (n - r - 1)) at 1 by (rewrite repeat_length; lia).
    unfold bind at 1, uninitialized_fill. rewrite for_up_split. unfold bind at 1.
    change (for_up 0 (length (repeat dflt r)) _) with (uninitialized_fill (length (repeat dflt r)) (Some (length (heap s))) (fun _ : nat => @ret St V dflt)).
    rewrite (fill_new _ (length (heap s)) (wrap64 (Z.of_nat n * sz)) (repeat dflt r) s1).
    - unfold s1 at 1. cbn [cd fails]. cbn [for_up]. unfold bind at 1, bind at 1, ret at 1. unfold construct, bind at 1, block. cbn [heap].
      assert (nth_error (upd (length (heap s)) (mkBlk (wrap64 (Z.of_nat n * sz)) (map Some (repeat dflt r)) false) (heap s1)) (length (heap s))
        = Some (mkBlk (wrap64 (Z.of_nat n * sz)) (map Some (repeat dflt r)) false)) as ->.
      { apply nth_error_upd_eq. unfold s1. cbn [heap]. rewrite app_length. cbn [length]. lia. }
      cbn [b_freed]. unfold bind at 1, cell. cbn [snd b_cells Nat.add].
      rewrite (proj2 (nth_error_None _ _)) by (rewrite map_length, repeat_length; lia). reflexivity.
    - unfold s1. cbn [heap]. rewrite repeat_length. apply nth_error_app_mid.
    - intros i v s' Hi _ _. apply nth_error_In, repeat_spec in Hi. subst v. reflexivity.
  Qed.
  Lemma too_big_exists : (2 <= sz < 2 ^ 63)%Z ->
    exists n, small n /\ (2 ^ 64 <= Z.of_nat n * sz)%Z /\ (wrap64 (Z.of_nat n * sz) < 2 ^ 63)%Z.
  Proof.
    intros H. exists (Z.to_nat (2 ^ 64 / sz + 1)). unfold small.
    pose proof (Z.div_mod (2 ^ 64) sz ltac:(lia)) as E. pose proof (Z.mod_pos_bound (2 ^ 64) sz ltac:(lia)) as Hm.
    assert (0 <= 2 ^ 64 / sz <= 2 ^ 63)%Z as Hq.
    { split; [apply Z.div_pos; lia|]. apply Z.div_le_upper_bound; lia. }
    rewrite Z2Nat.id by lia.
    assert ((2 ^ 64 / sz + 1) * sz = 2 ^ 64 + (sz - 2 ^ 64 mod sz))%Z as -> by lia.
    split; [lia|]. split; [lia|]. unfold wrap64. rewrite <- Z.add_mod_idemp_l, Z.mod_same, Z.add_0_l by lia. rewrite Z.mod_small; lia.
  Qed.

  Lemma resize_spec (s : St) a l n t x : holds s a l -> no_failure s -> fits sz n -> fill_of t s x ->
    exists s' l', a_resize sz dflt a n t s = Ret tt s' /\ holds s' a l' /\ length l' = n /\
      (forall i, i < n -> i < length l -> nth_error l' i = nth_error l i) /\
      (forall i, i < n -> length l <= i -> nth_error l' i = Some x) /\
      (sole_owner s a -> others_kept s s' a).
  Proof.
    intros Hl Hn Hf Ht. destruct (resize_holds s a l n t x Hl Hn Hf Ht) as (s' & H1 & H2 & H3). exists s', (resized n l x).
    split; [exact H1|]. split; [exact H2|]. split; [apply resized_length|]. split; [intros i; apply resized_old|]. split; [intros i; apply resized_new|exact H3].
  Qed.
End Thms.
Lemma overflow_exists {V} (sz : Z) (dflt : V) : (2 <= sz < 2 ^ 63)%Z -> forall s d, new_var s d -> no_failure s ->
  exists n, (Z.of_nat n < 2 ^ 64)%Z /\
    (exists s' bytes, a_uninit sz d n s = Ret tt s' /\ a_len d s' = Ret n s' /\ storage s' d = Some bytes /\ (bytes < Z.of_nat n * sz)%Z) /\
    a_size sz dflt d n s = Ub UbOutOfBounds.
Proof.
  intros Hsz s d Hd Hn. assert (0 < sz)%Z as Hp by lia. destruct (too_big_exists sz Hp Hsz) as (n & H1 & H2 & H3). exists n. split; [exact H1|].
  split; [exact (uninit_too_small sz s d n Hd Hn H2 H3)|exact (size_overruns sz dflt Hp s d n Hd Hn H2 H3)].
Qed.
