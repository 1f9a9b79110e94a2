(** ArrayProofs.v -- proofs about the array model. *)
From Verif Require Import Base ArrayModel ArraySpec.
Local Open Scope monad_scope.
Open Scope nat_scope.

(** ** lists *)
Lemma upd_upd {A} i (x y : A) l : upd i x (upd i y l) = upd i x l.
Proof. revert i; induction l as [|h t IH]; intros [|i]; simpl; auto. rewrite IH. reflexivity. Qed.
Lemma upd_same {A} i (x : A) l : nth_error l i = Some x -> upd i x l = l.
Proof.
  revert i; induction l as [|h t IH]; intros [|i] H; simpl in *; try discriminate.
  - congruence.
  - f_equal. apply IH. exact H.
Qed.
Lemma upd_comm {A} i j (x y : A) l : i <> j -> upd i x (upd j y l) = upd j y (upd i x l).
Proof.
  revert i j; induction l as [|h t IH]; intros [|i] [|j] H; simpl; auto; try congruence.
  f_equal. apply IH. congruence.
Qed.
Lemma upd_app_l {A} i (x : A) l l' : i < length l -> upd i x (l ++ l') = upd i x l ++ l'.
Proof.
  revert i; induction l as [|h t IH]; intros [|i] H; simpl in *; try lia; auto.
  f_equal. apply IH. lia.
Qed.
Lemma upd_app_last {A} (x y : A) l : upd (length l) x (l ++ [y]) = l ++ [x].
Proof. exact (upd_app_mid l [] y x). Qed.
Lemma nth_error_lt {A} (l : list A) i x : nth_error l i = Some x -> i < length l.
Proof. intros H. apply nth_error_Some. congruence. Qed.
Lemma Forall2_len {A B} (R : A -> B -> Prop) l l' : Forall2 R l l' -> length l = length l'.
Proof. induction 1; simpl; congruence. Qed.
Lemma Forall2_upd {A B} (R : A -> B -> Prop) l l' i x y :
  Forall2 R l l' -> R x y -> Forall2 R (upd i x l) (upd i y l').
Proof.
  intros H Hxy. revert i. induction H as [|a b l l' Hab H IH]; intros [|i]; simpl; constructor; auto.
Qed.
Lemma Forall2_nth {A B} (R : A -> B -> Prop) l l' i x :
  Forall2 R l l' -> nth_error l i = Some x -> exists y, nth_error l' i = Some y /\ R x y.
Proof.
  intros H. revert i. induction H as [|a b l l' Hab H IH]; intros [|i] Hi; simpl in *; try discriminate.
  - injection Hi as <-. eauto.
  - apply IH. exact Hi.
Qed.
Lemma Forall2_nth_r {A B} (R : A -> B -> Prop) l l' i y :
  Forall2 R l l' -> nth_error l' i = Some y -> exists x, nth_error l i = Some x /\ R x y.
Proof.
  intros H. revert i. induction H as [|a b l l' Hab H IH]; intros [|i] Hi; simpl in *; try discriminate.
  - injection Hi as <-. eauto.
  - apply IH. exact Hi.
Qed.
Lemma Forall2_intro {A B} (R : A -> B -> Prop) l l' :
  length l = length l' -> (forall i x y, nth_error l i = Some x -> nth_error l' i = Some y -> R x y) -> Forall2 R l l'.
Proof.
  revert l'. induction l as [|a l IH]; intros [|b l'] Hl H; simpl in *; try discriminate; constructor.
  - apply (H 0); reflexivity.
  - apply IH; [congruence|]. intros i x y. apply (H (S i)).
Qed.
Fixpoint sum_by {A} (f : A -> nat) (l : list A) : nat := match l with [] => 0 | x :: l => f x + sum_by f l end.
Lemma sum_by_upd {A} (f : A -> nat) i (x y : A) l :
  nth_error l i = Some y -> sum_by f (upd i x l) + f y = sum_by f l + f x.
Proof.
  revert i; induction l as [|h t IH]; intros [|i] H; simpl in *; try discriminate.
  - injection H as ->. lia.
  - specialize (IH i H). lia.
Qed.
Lemma sum_by_app {A} (f : A -> nat) l l' : sum_by f (l ++ l') = sum_by f l + sum_by f l'.
Proof. induction l; simpl; lia. Qed.
Lemma filter_length_sum {A} (g : A -> bool) l : length (filter g l) = sum_by (fun x => if g x then 1 else 0) l.
Proof. induction l as [|x l IH]; simpl; [reflexivity|]. destruct (g x); simpl; lia. Qed.

Section Proofs.
  Context {V : Type} (sz : Z) (dflt : V) (neq : V -> V -> bool).
  Notation St := (st V).

  Definition fails (c : option nat) (n : nat) : option nat :=
    match c with Some j => if j <? n then Some j else None | None => None end.
  Notation drop := after.

  Lemma load_ok (s : St) b k i v :
    nth_error (heap s) b = Some k -> b_freed k = false -> nth_error (b_cells k) i = Some (Some v) ->
    load (Some b) i s = Ret v s.
  Proof. intros H1 H2 H3. unfold load, bind, block, cell. rewrite H1, H2. cbn [snd]. rewrite H3. reflexivity. Qed.

  Definition put (c : bool) (p : option nat) (i : nat) (v : V) : M St unit :=
    if c then construct p i v else store_at p i v.

  Lemma put_ok (c : bool) (s : St) b bytes cells i v x :
    nth_error (heap s) b = Some (mkBlk bytes cells false) -> nth_error cells i = Some x -> (c = false -> x <> None) ->
    put c (Some b) i v s =
    match cd s with
    | Some 0 => Exc (EUser 0) (mkSt (vars s) (heap s) (made s) (gone s) None)
    | d => Ret tt (mkSt (vars s) (upd b (mkBlk bytes (upd i (Some v) cells) false) (heap s))
                        (made s + (if c then 1 else 0)) (gone s) (after 1 d))
    end.
  Proof.
    intros H1 H2 Hc. destruct s as [vs h m g d]. cbn [heap vars made gone cd] in *.
    unfold put. destruct c.
    - unfold construct, bind, block, cell. cbn [heap]. rewrite H1. cbn [b_freed snd fst b_cells]. rewrite H2.
      unfold event, set_cell. cbn [vars heap made gone cd b_bytes b_freed b_cells].
      destruct d as [[|d]|]; cbn [vars heap made gone cd after]; rewrite ?Nat.sub_0_r, ?Nat.add_0_r; try reflexivity.
      f_equal. f_equal. f_equal. lia.
    - unfold store_at, bind, block, cell. cbn [heap]. rewrite H1. cbn [b_freed snd fst b_cells]. rewrite H2.
      destruct x as [x|]; [|destruct (Hc eq_refl eq_refl)].
      unfold event, set_cell. cbn [vars heap made gone cd b_bytes b_freed b_cells].
      destruct d as [[|d]|]; cbn [vars heap made gone cd after]; rewrite ?Nat.sub_0_r, ?Nat.add_0_r; try reflexivity.
      f_equal. f_equal. f_equal. lia.
  Qed.

  Lemma firstn_S_nth (vs : list V) i v : nth_error vs i = Some v -> firstn (S i) vs = firstn i vs ++ [v].
  Proof.
    revert i; induction vs as [|h t IH]; intros [|i] H; simpl in *; try discriminate.
    - congruence.
    - f_equal. apply IH. exact H.
  Qed.
  Lemma skipn_nth {A} (l : list A) i x : nth_error l i = Some x -> skipn i l = x :: skipn (S i) l.
  Proof.
    revert i; induction l as [|h t IH]; intros [|i] H; simpl in *; try discriminate.
    - congruence.
    - rewrite (IH i H). reflexivity.
  Qed.
  Lemma mix_step (vs : list V) (old : list (option V)) i v x :
    nth_error vs i = Some v -> nth_error old i = Some x ->
    upd i (Some v) (map Some (firstn i vs) ++ skipn i old) = map Some (firstn (S i) vs) ++ skipn (S i) old.
  Proof.
    intros Hv Hx. pose proof (nth_error_lt _ _ _ Hv) as Hlt.
    rewrite (firstn_S_nth _ _ _ Hv), map_app. cbn [map]. rewrite <- app_assoc. cbn [app].
    rewrite (skipn_nth _ _ _ Hx).
    replace i with (length (map Some (firstn i vs))) at 1 by (rewrite map_length, firstn_length; lia).
    apply upd_app_mid.
  Qed.
  Lemma mix_nth (vs : list V) (old : list (option V)) i : i <= length vs ->
    nth_error (map Some (firstn i vs) ++ skipn i old) i = nth_error old i.
  Proof.
    intros H. rewrite nth_error_app2 by (rewrite map_length, firstn_length; lia).
    rewrite map_length, firstn_length, Nat.min_l by lia.
    rewrite Nat.sub_diag. clear H. revert i; induction old as [|h t IH]; intros [|i]; try reflexivity.
    cbn [skipn nth_error]. apply IH.
  Qed.

  Lemma put_loop (c : bool) rd b bytes (old : list (option V)) (vs : list V) n k (s : St) :
    nth_error (heap s) b = Some (mkBlk bytes (map Some (firstn k vs) ++ skipn k old) false) ->
    length vs <= length old -> k + n = length vs ->
    (c = false -> forall i, nth_error old i <> Some None) ->
    (forall i (s' : St), k <= i < k + n -> vars s' = vars s ->
       (forall b', b' <> b -> nth_error (heap s') b' = nth_error (heap s) b') ->
       nth_error (heap s') b = Some (mkBlk bytes (map Some (firstn i vs) ++ skipn i old) false) ->
       exists v, nth_error vs i = Some v /\ rd i s' = Ret v s') ->
    for_up k n (fun i => v <- rd i ;; put c (Some b) i v) s =
    match fails (cd s) n with
    | None => Ret tt (mkSt (vars s) (upd b (mkBlk bytes (map Some vs ++ skipn (length vs) old) false) (heap s))
                           (made s + (if c then n else 0)) (gone s) (drop n (cd s)))
    | Some j => Exc (EUser 0) (mkSt (vars s) (upd b (mkBlk bytes (map Some (firstn (k + j) vs) ++ skipn (k + j) old) false) (heap s))
                                    (made s + (if c then j else 0)) (gone s) None)
    end.
  Proof.
    revert k s. induction n as [|n IH]; intros k s Hb Hlen Hk Hc Hrd.
    - cbn [for_up]. unfold ret. rewrite Nat.add_0_r in Hk. subst k.
      rewrite firstn_all in Hb.
      assert (fails (cd s) 0 = None) as -> by (unfold fails; destruct (cd s); reflexivity).
      rewrite (upd_same _ _ _ Hb). destruct s as [v h m g d]. cbn [vars heap made gone cd]. f_equal.
      destruct d as [j|]; cbn [after]; rewrite ?Nat.sub_0_r; destruct c; rewrite Nat.add_0_r; reflexivity.
    - cbn [for_up]. unfold bind at 1.
      destruct (Hrd k s ltac:(lia) eq_refl ltac:(auto) Hb) as (v & Hv & Hr).
      unfold bind at 1. rewrite Hr.
      destruct (nth_error old k) as [x|] eqn:Ho; [|apply nth_error_None in Ho; lia].
      rewrite (put_ok c s b bytes _ k v x Hb).
      2:{ rewrite mix_nth by lia. exact Ho. }
      2:{ intros Hf Hx. subst x. exact (Hc Hf k Ho). }
      rewrite (mix_step _ _ _ _ _ Hv Ho).
      destruct (cd s) as [[|j]|] eqn:Hcd.
      + change (fails (Some 0) (S n)) with (Some 0). cbv iota.
        rewrite Nat.add_0_r, (upd_same _ _ _ Hb).
        destruct c; rewrite Nat.add_0_r; reflexivity.
      + cbv iota. cbn [after].
        rewrite (IH (S k)); cbn [heap vars made gone cd].
        * replace (fails (Some (S j - 1)) n) with (match fails (Some (S j)) (S n) with Some i => Some (i - 1) | None => None end).
          2:{ unfold fails. replace (S j - 1) with j by lia. destruct (Nat.ltb_spec (S j) (S n)), (Nat.ltb_spec j n); try lia; try reflexivity.
              f_equal. lia. }
          unfold fails. destruct (Nat.ltb_spec (S j) (S n)).
          -- rewrite upd_upd. f_equal. f_equal.
             ++ f_equal. f_equal. replace (S k + (S j - 1)) with (k + S j) by lia. reflexivity.
             ++ destruct c; lia.
          -- rewrite upd_upd. f_equal. f_equal.
             ++ destruct c; lia.
             ++ cbn [after]. f_equal. lia.
        * rewrite nth_error_upd_eq; [reflexivity|]. exact (nth_error_lt _ _ _ Hb).
        * exact Hlen.
        * lia.
        * exact Hc.
        * intros i s' Hi Hvs Hoth Hs'. apply Hrd; [lia|exact Hvs| |exact Hs'].
          intros b' Hb'. rewrite (Hoth b' Hb'). apply nth_error_upd_neq. congruence.
      + cbv iota. cbn [after].
        rewrite (IH (S k)); cbn [heap vars made gone cd].
        * cbn [fails]. rewrite upd_upd. f_equal. f_equal. destruct c; lia.
        * rewrite nth_error_upd_eq; [reflexivity|]. exact (nth_error_lt _ _ _ Hb).
        * exact Hlen.
        * lia.
        * exact Hc.
        * intros i s' Hi Hvs Hoth Hs'. apply Hrd; [lia|exact Hvs| |exact Hs'].
          intros b' Hb'. rewrite (Hoth b' Hb'). apply nth_error_upd_neq. congruence.
  Qed.

  (** destroying the first n elements *)
  Lemma destroy_loop n (s : St) b bytes (vs : list V) rest :
    n = length vs -> nth_error (heap s) b = Some (mkBlk bytes (map Some vs ++ rest) false) ->
    destroy_elements n (Some b) s =
    Ret tt (mkSt (vars s) (upd b (mkBlk bytes (repeat None n ++ rest) false) (heap s)) (made s) (gone s + n) (cd s)).
  Proof.
    unfold destroy_elements.
    revert s vs rest. induction n as [|n IH]; intros s vs rest Hn Hb.
    - destruct vs; [|discriminate]. cbn [for_down]. unfold ret. cbn [repeat app map] in *.
      rewrite (upd_same _ _ _ Hb), Nat.add_0_r. destruct s; reflexivity.
    - cbn [for_down]. unfold bind at 1.
      destruct (exists_last (l := vs) ltac:(intros ->; discriminate)) as (vs' & v & ->).
      rewrite app_length in Hn. cbn [length] in Hn.
      rewrite map_app in Hb. cbn [map] in Hb. rewrite <- app_assoc in Hb. cbn [app] in Hb.
      unfold destroy_at, bind, block, cell. rewrite Hb. cbn [b_freed snd fst b_cells b_bytes].
      assert (n = length (map Some vs')) as Hn' by (rewrite map_length; lia).
      assert (nth_error (map Some vs' ++ Some v :: rest) n = Some (Some v)) as ->
        by (rewrite Hn'; apply nth_error_app_mid).
      unfold set_cell. cbn [b_bytes b_cells b_freed].
      assert (upd n None (map Some vs' ++ Some v :: rest) = map Some vs' ++ None :: rest) as ->
        by (rewrite Hn'; apply upd_app_mid).
      rewrite (IH _ vs' (None :: rest)); cbn [vars heap made gone cd].
      + rewrite upd_upd. rewrite Nat.add_0_r. f_equal. f_equal.
        * f_equal. f_equal. change (repeat None (S n)) with (@None V :: repeat None n).
          rewrite repeat_cons, <- app_assoc. reflexivity.
        * lia.
      + lia.
      + rewrite nth_error_upd_eq; [reflexivity|]. exact (nth_error_lt _ _ _ Hb).
  Qed.

  Hypothesis sz_pos : (0 < sz)%Z.

  (** ** allocation *)
  Definition ncd (c : option nat) : option nat := match c with Some 0 => None | c => after 1 c end.
  Definition fits (n : nat) : Prop := (Z.of_nat n * sz < 2 ^ 63)%Z.
  Definition nblk (n : nat) (l : list (option V)) : blk V := mkBlk (Z.of_nat n * sz)%Z l false.

  Lemma bytes_sane n : sane sz n = true -> bytes_for sz n = (Z.of_nat n * sz)%Z.
  Proof.
    unfold sane, bytes_for. intros H. apply Z.ltb_lt in H. apply wrap64_small. split; [|exact H].
    apply Z.mul_nonneg_nonneg; lia.
  Qed.
  Lemma new_ok n (s : St) : sane sz n = true ->
    uninitialized_new sz n s =
    match try_new sz 0 (cd s), try_new sz n None with
    | Success, Success => Ret (Some (length (heap s)))
                              (mkSt (vars s) (heap s ++ [nblk n (repeat None n)]) (made s) (gone s) (after 1 (cd s)))
    | _, _ => Exc EBadAlloc (with_failure (ncd (cd s)) s)
    end.
  Proof.
    intros H. unfold uninitialized_new, bind, event, try_new. rewrite (bytes_sane n H).
    rewrite Z.div_mul by lia. rewrite Nat2Z.id.
    change (2 ^ 63 <=? Z.of_nat 0 * sz)%Z with false. cbv iota.
    destruct s as [vs h m g c]. cbn [cd vars heap made gone].
    destruct c as [[|c]|]; cbn [cd vars heap made gone after Nat.ltb Nat.leb ncd];
      destruct (2 ^ 63 <=? Z.of_nat n * sz)%Z; cbn [cd vars heap made gone after];
      try (replace (S c - 1) with c by lia); reflexivity.
  Qed.
  Lemma try_new_split n c :
    try_new sz n c = match try_new sz 0 c, try_new sz n None with
                     | Success, Success => match fails (after 1 c) n with Some j => ElemFails j | None => Success end
                     | _, _ => NoMemory
                     end.
  Proof.
    unfold try_new. change (2 ^ 63 <=? Z.of_nat 0 * sz)%Z with false. cbv iota.
    destruct (2 ^ 63 <=? Z.of_nat n * sz)%Z, c as [[|j]|]; cbn [after fails]; try reflexivity.
    change (j <? 0) with false. cbv iota. replace (S j - 1) with j by lia. destruct (j <? n); reflexivity.
  Qed.
  Lemma try_new_fits n c : try_new sz n c = Success -> fits n.
  Proof. unfold try_new, fits. destruct (Z.leb_spec (2 ^ 63) (Z.of_nat n * sz)); [discriminate|auto]. Qed.

  (** filling a new block *)
  Lemma fill_new rd b bytes (vs : list V) (s : St) :
    nth_error (heap s) b = Some (mkBlk bytes (repeat None (length vs)) false) ->
    (forall i v (s' : St), nth_error vs i = Some v -> vars s' = vars s ->
       (forall b', b' <> b -> nth_error (heap s') b' = nth_error (heap s) b') -> rd i s' = Ret v s') ->
    uninitialized_fill (length vs) (Some b) rd s =
    match fails (cd s) (length vs) with
    | None => Ret tt (mkSt (vars s) (upd b (mkBlk bytes (map Some vs) false) (heap s))
                           (made s + length vs) (gone s) (drop (length vs) (cd s)))
    | Some j => Exc (EUser 0) (mkSt (vars s) (upd b (mkBlk bytes (map Some (firstn j vs) ++ repeat None (length vs - j)) false) (heap s))
                                    (made s + j) (gone s) None)
    end.
  Proof.
    intros Hb Hrd.
    pose proof (put_loop true rd b bytes (repeat None (length vs)) vs (length vs) 0 s) as H.
    change (for_up 0 (length vs) (fun i => v <- rd i ;; put true (Some b) i v)) with (uninitialized_fill (length vs) (Some b) rd) in H.
    rewrite H; clear H.
    - destruct (fails (cd s) (length vs)) as [j|] eqn:Hf.
      + rewrite Nat.add_0_l. f_equal. f_equal. f_equal. f_equal. f_equal.
        assert (j < length vs) as Hj.
        { unfold fails in Hf. destruct (cd s) as [i|]; [|discriminate]. destruct (Nat.ltb_spec i (length vs)); [|discriminate]. congruence. }
        replace (length vs) with (j + (length vs - j)) at 1 by lia. rewrite repeat_app, skipn_app, skipn_all2, repeat_length, Nat.sub_diag by (rewrite repeat_length; lia).
        reflexivity.
      + f_equal. f_equal. f_equal. f_equal. rewrite skipn_all2 by (rewrite repeat_length; lia). apply app_nil_r.
    - exact Hb.
    - rewrite repeat_length. lia.
    - reflexivity.
    - discriminate.
    - intros i s' Hi Hv Ho _.
      destruct (nth_error vs i) as [v|] eqn:Hn; [|apply nth_error_None in Hn; lia].
      exists v. split; [reflexivity|]. apply Hrd; assumption.
  Qed.
  Lemma nth_error_snoc {A} (l : list A) x : nth_error (l ++ [x]) (length l) = Some x.
  Proof. apply nth_error_app_mid. Qed.
  Lemma nth_error_snoc_old {A} (l : list A) x i : i < length l -> nth_error (l ++ [x]) i = nth_error l i.
  Proof. apply nth_error_app1. Qed.

  (** allocation followed by filling *)
  Definition old_reader (s : St) (rd : nat -> M St V) (vs : list V) : Prop :=
    forall i v (s' : St), nth_error vs i = Some v -> vars s' = vars s ->
      (forall b', b' < length (heap s) -> nth_error (heap s') b' = nth_error (heap s) b') -> rd i s' = Ret v s'.
  Lemma new_fill {B} rd (vs : list V) (k : option nat -> M St B) (s : St) n :
    n = length vs -> sane sz n = true -> old_reader s rd vs ->
    (p <- uninitialized_new sz n ;; uninitialized_fill n p rd ;;; k p) s =
    match try_new sz n (cd s) with
    | Success => k (Some (length (heap s)))
                   (mkSt (vars s) (heap s ++ [nblk n (map Some vs)]) (made s + n) (gone s) (drop (S n) (cd s)))
    | NoMemory => Exc EBadAlloc (with_failure (ncd (cd s)) s)
    | ElemFails j => Exc (EUser 0) (mkSt (vars s) (heap s ++ [nblk n (map Some (firstn j vs) ++ repeat None (n - j))])
                                         (made s + j) (gone s) None)
    end.
  Proof.
    intros -> Hs Hrd. unfold bind at 1. rewrite (new_ok _ s Hs), (try_new_split (length vs) (cd s)).
    destruct (try_new sz 0 (cd s)), (try_new sz (length vs) None); try reflexivity.
    unfold bind. rewrite (fill_new rd (length (heap s)) (Z.of_nat (length vs) * sz)%Z vs); cbn [heap vars made gone cd].
    - destruct (fails (after 1 (cd s)) (length vs)) as [j|]; rewrite upd_app_last; [reflexivity|].
      f_equal. f_equal. destruct (cd s) as [c|]; cbn [after]; [f_equal; lia|reflexivity].
    - apply nth_error_snoc.
    - intros i v s' Hi Hv Ho. apply Hrd; [exact Hi|exact Hv|].
      intros b' Hb'. rewrite (Ho b') by lia. apply nth_error_snoc_old. exact Hb'.
  Qed.

  (** ** releasing *)
  Definition pointee (h : list (blk V)) (l : list (option V)) (p : option nat) : Prop :=
    (p = None /\ l = []) \/ exists b bytes, p = Some b /\ nth_error h b = Some (mkBlk bytes l false).
  Definition release (n : nat) (p : option nat) (h : list (blk V)) : list (blk V) :=
    match p with
    | None => h
    | Some b => match nth_error h b with
                | Some k => upd b (mkBlk (b_bytes k) (repeat None n) true) h
                | None => h
                end
    end.
  Lemma destroy_release {B} (l : list V) p (k : M St B) (s : St) n :
    n = length l -> pointee (heap s) (map Some l) p ->
    (destroy_elements n p ;;; uninitialized_delete p ;;; k) s =
    k (mkSt (vars s) (release n p (heap s)) (made s) (gone s + n) (cd s)).
  Proof.
    intros -> [[-> Hl]|(b & bytes & -> & Hb)].
    - destruct l; [|discriminate]. unfold bind, destroy_elements, uninitialized_delete. cbn [length for_down release].
      unfold ret. rewrite Nat.add_0_r. destruct s; reflexivity.
    - unfold bind. rewrite (destroy_loop (length l) s b bytes l []); [|reflexivity|rewrite app_nil_r; exact Hb].
      unfold uninitialized_delete, release. rewrite Hb. cbn [heap vars made gone cd].
      rewrite nth_error_upd_eq by exact (nth_error_lt _ _ _ Hb). cbn [b_freed b_bytes b_cells].
      rewrite upd_upd, app_nil_r. reflexivity.
  Qed.
  Lemma release_length n p h : length (release n p h) = length h.
  Proof. unfold release. destruct p as [b|]; [|reflexivity]. destruct (nth_error h b); [apply upd_length|reflexivity]. Qed.
  Lemma release_other n p h b : p <> Some b -> nth_error (release n p h) b = nth_error h b.
  Proof.
    intros H. unfold release. destruct p as [c|]; [|reflexivity]. destruct (nth_error h c); [|reflexivity].
    apply nth_error_upd_neq. congruence.
  Qed.

  (** ** the representation of sequences *)
  Lemma values_iff (l : list (option V)) vs : values l = Some vs <-> l = map Some vs.
  Proof.
    split.
    - revert vs. induction l as [|[v|] l IH]; intros vs H; simpl in H; try discriminate.
      + injection H as <-. reflexivity.
      + destruct (values l) as [ws|]; [|discriminate]. injection H as <-. cbn [map]. f_equal. apply IH. reflexivity.
    - intros ->. induction vs as [|v vs IH]; simpl; [reflexivity|]. rewrite IH. reflexivity.
  Qed.
  Lemma count_live_map (vs : list V) : count_live (map Some vs) = length vs.
  Proof. unfold count_live. induction vs; simpl; auto. Qed.
  Lemma count_live_none n : count_live (repeat (@None V) n) = 0.
  Proof. unfold count_live. induction n; simpl; auto. Qed.
  Lemma count_live_upd i (c x : option V) l : nth_error l i = Some c ->
    count_live (upd i x l) + (match c with Some _ => 1 | None => 0 end) = count_live l + (match x with Some _ => 1 | None => 0 end).
  Proof.
    intros H. unfold count_live. rewrite !filter_length_sum.
    pose proof (sum_by_upd (fun x : option V => if match x with Some _ => true | None => false end then 1 else 0) i x c l H) as E.
    cbv beta in E. destruct c, x; exact E.
  Qed.

  Definition ptr_ok (h : list (blk V)) (own : bool) (l : list (option V)) (p : option nat) : Prop :=
    if own then fits (length l) /\ exists b, p = Some b /\ nth_error h b = Some (nblk (length l) l)
    else l = [] /\ p = None.
  Definition slot_ok (h : list (blk V)) (x : vslot V) (y : avar) : Prop :=
    match x, y with
    | VDead, Dead => True
    | VArr own l, Arr n p => n = length l /\ ptr_ok h own l p
    | _, _ => False
    end.
  Definition owned (y : avar) : option nat := match y with Arr _ p => p | Dead => None end.
  Definition own1 (x : vslot V) : nat := match x with VArr true _ => 1 | _ => 0 end.
  Definition live1 (x : vslot V) : nat := match x with VArr _ l => count_live l | VDead => 0 end.
  Record Rep (m : vst V) (s : St) : Prop := {
    r_slots : Forall2 (slot_ok (heap s)) (store m) (vars s);
    r_uniq : forall i j b x y, nth_error (vars s) i = Some x -> nth_error (vars s) j = Some y ->
               owned x = Some b -> owned y = Some b -> i = j;
    r_blocks : unreleased s = sum_by own1 (store m) + lost_blocks m;
    r_elems : made s = gone s + sum_by live1 (store m) + lost_elems m }.

  Lemma ptr_pointee h own l p : ptr_ok h own l p -> pointee h l p.
  Proof.
    unfold ptr_ok, pointee. destruct own.
    - intros (_ & b & -> & Hb). right. exists b, (Z.of_nat (length l) * sz)%Z. split; [reflexivity|exact Hb].
    - intros (-> & ->). left. split; reflexivity.
  Qed.
  Lemma ptr_ok_frame h h' own l p :
    ptr_ok h own l p -> (forall b, p = Some b -> nth_error h' b = nth_error h b) -> ptr_ok h' own l p.
  Proof.
    unfold ptr_ok. destruct own; [|auto]. intros (Hf & b & -> & Hb) Hfr. split; [exact Hf|].
    exists b. split; [reflexivity|]. rewrite (Hfr b eq_refl). exact Hb.
  Qed.
  Lemma slot_ok_frame h h' x y :
    slot_ok h x y -> (forall b, owned y = Some b -> nth_error h' b = nth_error h b) -> slot_ok h' x y.
  Proof.
    destruct x, y; cbn [slot_ok owned]; auto. intros (H1 & H2) Hfr. split; [exact H1|].
    eapply ptr_ok_frame; eassumption.
  Qed.
  Lemma slot_ok_lt h x y b : slot_ok h x y -> owned y = Some b -> b < length h.
  Proof.
    destruct x as [|own l], y as [|n p]; cbn [slot_ok owned]; try discriminate; try contradiction.
    intros (_ & H) ->. unfold ptr_ok in H. destruct own.
    - destruct H as (_ & b' & E & H). injection E as <-. exact (nth_error_lt _ _ _ H).
    - destruct H as (_ & H). discriminate.
  Qed.
  Lemma ptr_ok_fits h own l p : ptr_ok h own l p -> fits (length l).
  Proof. unfold ptr_ok. destruct own; [intros (H & _); exact H|]. intros (-> & _). unfold fits. cbn. lia. Qed.

  Lemma rep_lookup m (s : St) a own l : Rep m s -> lookup m a = Some (own, l) ->
    exists p, nth_error (store m) a = Some (VArr own l) /\ nth_error (vars s) a = Some (Arr (length l) p) /\ ptr_ok (heap s) own l p.
  Proof.
    intros HR H. unfold lookup in H. destruct (nth_error (store m) a) as [[|own' l']|] eqn:Ha; try discriminate.
    injection H as -> ->.
    destruct (Forall2_nth _ _ _ _ _ (r_slots _ _ HR) Ha) as (y & Hy & Hok).
    destruct y as [|n p]; [contradiction|]. destruct Hok as (-> & Hp). exists p. auto.
  Qed.
  Lemma rep_seq m (s : St) a own vs : Rep m s -> seq_of m a = Some (own, vs) ->
    lookup m a = Some (own, map Some vs) /\
    exists p, nth_error (store m) a = Some (VArr own (map Some vs)) /\ nth_error (vars s) a = Some (Arr (length vs) p) /\
              ptr_ok (heap s) own (map Some vs) p.
  Proof.
    intros HR H. unfold seq_of in H. destruct (lookup m a) as [[own' l]|] eqn:Hl; [|discriminate].
    destruct (values l) as [ws|] eqn:Hv; [|discriminate]. injection H as -> ->.
    apply values_iff in Hv. subst l. split; [reflexivity|].
    destruct (rep_lookup _ _ _ _ _ HR Hl) as (p & H1 & H2 & H3). rewrite map_length in H2. exists p. auto.
  Qed.
  Lemma rep_free m (s : St) d : Rep m s -> is_free m d = true ->
    nth_error (store m) d = Some VDead /\ nth_error (vars s) d = Some Dead.
  Proof.
    intros HR H. unfold is_free in H. destruct (nth_error (store m) d) as [[|]|] eqn:Hd; try discriminate.
    split; [reflexivity|]. destruct (Forall2_nth _ _ _ _ _ (r_slots _ _ HR) Hd) as (y & Hy & Hok).
    destruct y; [exact Hy|contradiction].
  Qed.
  Lemma rep_failure m (s : St) f : Rep m s -> Rep m (with_failure f s).
  Proof. intros [H1 H2 H3 H4]. constructor; assumption. Qed.

  Lemma rep_upd1 m (s s' : St) a x y x' y' lb le :
    Rep m s -> nth_error (store m) a = Some x -> nth_error (vars s) a = Some y ->
    vars s' = upd a y' (vars s) ->
    (forall b, owned y <> Some b -> b < length (heap s) -> nth_error (heap s') b = nth_error (heap s) b) ->
    slot_ok (heap s') x' y' ->
    (forall b, owned y' = Some b -> owned y = Some b \/ length (heap s) <= b) ->
    unreleased s' + own1 x + lost_blocks m = unreleased s + own1 x' + lb ->
    made s' + gone s + live1 x + lost_elems m = gone s' + made s + live1 x' + le ->
    Rep (mkVst (upd a x' (store m)) lb le) s'.
  Proof.
    intros [H1 H2 H3 H4] Hx Hy Hv Hfr Hok Hnew Hb He.
    assert (forall i z b, i <> a -> nth_error (vars s) i = Some z -> owned z = Some b -> owned y <> Some b /\ b < length (heap s)) as Hoth.
    { intros i z b Hi Hz Ho. split.
      - intros Hyb. apply Hi. exact (H2 i a b z y Hz Hy Ho Hyb).
      - destruct (Forall2_nth_r _ _ _ _ _ H1 Hz) as (w & _ & Hw). exact (slot_ok_lt _ _ _ _ Hw Ho). }
    constructor; cbn [store lost_blocks lost_elems].
    - rewrite Hv. pose proof (Forall2_len _ _ _ H1) as Hlen.
      apply Forall2_intro; [rewrite !upd_length; exact Hlen|].
      intros i u w Hu Hw. rewrite nth_error_upd in Hu. rewrite nth_error_upd in Hw.
      destruct (Nat.eqb_spec a i) as [->|Hai].
      + rewrite Hlen in Hu. destruct (i <? length (vars s)); [|discriminate]. injection Hu as <-. injection Hw as <-. exact Hok.
      + destruct (Forall2_nth _ _ _ _ _ H1 Hu) as (w' & Hw' & Huw). rewrite Hw in Hw'. injection Hw' as <-.
        apply (slot_ok_frame _ _ _ _ Huw). intros b Hwb.
        destruct (Hoth i w b ltac:(congruence) Hw Hwb). apply Hfr; assumption.
    - rewrite Hv. intros i j b u w Hu Hw Hub Hwb. rewrite nth_error_upd in Hu. rewrite nth_error_upd in Hw.
      destruct (Nat.eqb_spec a i) as [Hai|Hai]; destruct (Nat.eqb_spec a j) as [Haj|Haj]; try congruence.
      + subst i. destruct (a <? length (vars s)); [|discriminate]. injection Hu as <-.
        destruct (Hoth j w b ltac:(congruence) Hw Hwb). destruct (Hnew b Hub); [contradiction|lia].
      + subst j. destruct (a <? length (vars s)); [|discriminate]. injection Hw as <-.
        destruct (Hoth i u b ltac:(congruence) Hu Hub). destruct (Hnew b Hwb); [contradiction|lia].
      + exact (H2 i j b u w Hu Hw Hub Hwb).
    - pose proof (sum_by_upd own1 a x' x _ Hx). lia.
    - pose proof (sum_by_upd live1 a x' x _ Hx). lia.
  Qed.
  (** only new, lost, storage *)
  Lemma rep_same m (s s' : St) b e :
    Rep m s -> vars s' = vars s ->
    (forall c, c < length (heap s) -> nth_error (heap s') c = nth_error (heap s) c) ->
    unreleased s' = unreleased s + b -> made s' + gone s = gone s' + made s + e ->
    Rep (lose m b e) s'.
  Proof.
    intros [H1 H2 H3 H4] Hv Hfr Hb He.
    constructor; cbn [store lost_blocks lost_elems lose]; rewrite ?Hv; auto; try lia.
    apply Forall2_intro; [exact (Forall2_len _ _ _ H1)|]. intros i x y Hx Hy.
    destruct (Forall2_nth _ _ _ _ _ H1 Hx) as (y' & Hy' & Hxy). rewrite Hy in Hy'. injection Hy' as <-.
    apply (slot_ok_frame _ _ _ _ Hxy). intros c Hc. apply Hfr. exact (slot_ok_lt _ _ _ _ Hxy Hc).
  Qed.
  Lemma lose_0 (m : vst V) : lose m 0 0 = m.
  Proof. destruct m; unfold lose; cbn. rewrite !Nat.add_0_r. reflexivity. Qed.

  Lemma unreleased_snoc vs (h : list (blk V)) k m g c :
    unreleased (mkSt vs (h ++ [k]) m g c) = length (filter (fun k => negb (b_freed k)) h) + (if b_freed k then 0 else 1).
  Proof. unfold unreleased. cbn [heap]. rewrite filter_app, app_length. cbn [filter]. destruct (b_freed k); reflexivity. Qed.
  Lemma count_blocks_upd b (k k' : blk V) h : nth_error h b = Some k ->
    length (filter (fun k => negb (b_freed k)) (upd b k' h)) + (if b_freed k then 0 else 1)
    = length (filter (fun k => negb (b_freed k)) h) + (if b_freed k' then 0 else 1).
  Proof.
    intros H. rewrite !filter_length_sum.
    pose proof (sum_by_upd (fun k : blk V => if negb (b_freed k) then 1 else 0) b k' k h H) as E. cbv beta in E.
    destruct (b_freed k), (b_freed k'); cbn [negb] in E; lia.
  Qed.
  Lemma count_release own l p n (h : list (blk V)) : ptr_ok h own l p ->
    length (filter (fun k => negb (b_freed k)) (release n p h)) + (if own then 1 else 0)
    = length (filter (fun k => negb (b_freed k)) h).
  Proof.
    unfold ptr_ok. destruct own.
    - intros (_ & b & -> & Hb). unfold release. rewrite Hb.
      pose proof (count_blocks_upd b _ (mkBlk (b_bytes (nblk (length l) l)) (repeat None n) true) h Hb) as E.
      cbn [b_freed nblk] in E. cbn [b_bytes nblk]. cbn [b_bytes nblk] in E. lia.
    - intros (_ & ->). cbn [release]. lia.
  Qed.

  (** ** arguments *)
  Definition ref_ok (s : St) (r : V + option nat * nat) (x : V) : Prop :=
    match r with
    | inl v => v = x
    | inr (p, i) => exists b k, p = Some b /\ nth_error (heap s) b = Some k /\ b_freed k = false /\ nth_error (b_cells k) i = Some (Some x)
    end.
  Lemma read_ref_ok (s : St) r x : ref_ok s r x -> read_ref r s = Ret x s.
  Proof.
    destruct r as [v|[p i]]; cbn [ref_ok read_ref].
    - intros ->. reflexivity.
    - intros (b & k & -> & H1 & H2 & H3). eapply load_ok; eassumption.
  Qed.
  Lemma ref_ok_old (s s' : St) r x :
    ref_ok s r x -> (forall b, b < length (heap s) -> nth_error (heap s') b = nth_error (heap s) b) -> ref_ok s' r x.
  Proof.
    destruct r as [v|[p i]]; cbn [ref_ok]; [auto|]. intros (b & k & -> & H1 & H2 & H3) Hfr.
    exists b, k. rewrite (Hfr b) by exact (nth_error_lt _ _ _ H1). auto.
  Qed.
  Lemma elem_ref_ok (s : St) a i n b k c :
    nth_error (vars s) a = Some (Arr n (Some b)) -> nth_error (heap s) b = Some k -> b_freed k = false ->
    nth_error (b_cells k) i = Some c -> elem_ref a i s = Ret (Some b, i) s.
  Proof.
    intros H1 H2 H3 H4. unfold elem_ref, bind, get_var, block, cell, ret. rewrite H1. cbn [snd]. rewrite H2, H3. cbn [snd].
    rewrite H4. reflexivity.
  Qed.
  Lemma bind_arg_ok m (s : St) t x : Rep m s -> arg_val m t = Some x ->
    exists r, bind_arg t s = Ret r s /\ ref_ok s r x.
  Proof.
    intros HR H. destruct t as [v|a i]; cbn [arg_val] in H.
    - injection H as ->. exists (inl x). split; reflexivity.
    - destruct (lookup m a) as [[own l]|] eqn:Hl; [|discriminate].
      destruct (nth_error l i) as [c|] eqn:Hi; [|discriminate]. subst c.
      destruct (rep_lookup _ _ _ _ _ HR Hl) as (p & _ & Hv & Hp).
      destruct own; cbn [ptr_ok] in Hp.
      + destruct Hp as (_ & b & -> & Hb). exists (inr (Some b, i)). split.
        * cbn [bind_arg]. unfold bind. rewrite (elem_ref_ok s a i _ b _ (Some x) Hv Hb eq_refl Hi). reflexivity.
        * cbn [ref_ok]. exists b, (nblk (length l) l). repeat split; assumption.
      + destruct Hp as (-> & _). destruct i; discriminate.
  Qed.
  Definition cur_ok (s : St) (c : cursor) (vs : list V) : Prop :=
    match c with
    | CList f l => forall j v', nth_error vs j = Some v' -> nth_error (map f l) j = Some v'
    | CPtr f p i => vs = [] \/ exists b k, p = Some b /\ nth_error (heap s) b = Some k /\ b_freed k = false /\
        forall j v', nth_error vs j = Some v' -> exists v, nth_error (b_cells k) (i + j) = Some (Some v) /\ v' = f v
    end.
  Lemma read_cursor_ok (s : St) c vs j v : cur_ok s c vs -> nth_error vs j = Some v -> read_cursor c j s = Ret v s.
  Proof.
    destruct c as [f l|f p i]; cbn [cur_ok read_cursor].
    - intros H Hj. specialize (H j v Hj). rewrite nth_error_map in H. destruct (nth_error l j); [|discriminate].
      injection H as <-. reflexivity.
    - intros [->|(b & k & -> & H1 & H2 & H3)] Hj; [destruct j; discriminate|].
      destruct (H3 j v Hj) as (w & Hw & ->). unfold bind. rewrite (load_ok s b k _ w H1 H2 Hw). reflexivity.
  Qed.
  Lemma cur_ok_old (s s' : St) c vs :
    cur_ok s c vs -> (forall b, b < length (heap s) -> nth_error (heap s') b = nth_error (heap s) b) -> cur_ok s' c vs.
  Proof.
    destruct c as [f l|f p i]; cbn [cur_ok]; [auto|]. intros [->|(b & k & -> & H1 & H2 & H3)] Hfr; [left; reflexivity|right].
    exists b, k. rewrite (Hfr b) by exact (nth_error_lt _ _ _ H1). auto.
  Qed.

  Lemma fits_lt n : fits n -> (Z.of_nat n < 2 ^ 63)%Z.
  Proof. unfold fits. intros H. nia. Qed.
  Lemma firstn_skipn_nth {A} (l : list A) i n j : j < n -> nth_error (firstn n (skipn i l)) j = nth_error l (i + j).
  Proof.
    intros H. assert (nth_error (skipn i l) j = nth_error l (i + j)) as E.
    { clear. revert i. induction l as [|h t IH]; intros [|i]; cbn [skipn]; auto.
      - destruct j; reflexivity.
      - rewrite IH. reflexivity. }
    rewrite <- E. clear E. revert j H. generalize (skipn i l) as k. clear. induction n as [|n IH]; intros k j H; [lia|].
    destruct k as [|x k]; [destruct j; reflexivity|]. destruct j as [|j]; [reflexivity|]. cbn [firstn nth_error]. apply IH. lia.
  Qed.
  Lemma iter_ok m (s : St) a i own l p : Rep m s -> nth_error (vars s) a = Some (Arr (length l) p) -> ptr_ok (heap s) own l p ->
    i <= length l -> iter a i s = Ret (p, i) s.
  Proof.
    intros HR Hv Hp Hi. unfold iter, bind, get_var. rewrite Hv. cbn [snd].
    unfold ptr_ok in Hp. destruct own.
    - destruct Hp as (_ & b & -> & Hb). unfold block. rewrite Hb. cbn [b_freed nblk snd b_cells].
      destruct (Nat.leb_spec i (length l)); [reflexivity|lia].
    - destruct Hp as (-> & ->). destruct i; [reflexivity|cbn in Hi; lia].
  Qed.
  Lemma bind_src_ok m (s : St) x vs : Rep m s -> src_val m x = Some vs ->
    exists c, bind_src x s = Ret (c, length vs) s /\ cur_ok s c vs /\
      (forall f p i, c = CPtr f p i -> exists a j n, x = SRange f a i j /\ nth_error (vars s) a = Some (Arr n p)).
  Proof.
    intros HR H. destruct x as [f l|f a i j]; cbn [src_val] in H.
    - injection H as <-. exists (CList f l). rewrite map_length. split; [reflexivity|]. split; [cbn [cur_ok]; auto|]. discriminate.
    - destruct (lookup m a) as [[own l]|] eqn:Hl; [|discriminate].
      destruct (Nat.leb_spec i j) as [Hij|]; [|discriminate]. destruct (Nat.leb_spec j (length l)) as [Hj|]; [|discriminate].
      cbn [andb] in H. destruct (values (firstn (j - i) (skipn i l))) as [ws|] eqn:Hw; [|discriminate].
      injection H as <-. apply values_iff in Hw.
      destruct (rep_lookup _ _ _ _ _ HR Hl) as (p & _ & Hv & Hp).
      exists (CPtr f p i). rewrite map_length.
      assert (length ws = j - i) as Hlen.
      { rewrite <- (map_length Some ws), <- Hw, firstn_length, skipn_length. lia. }
      split; [|split].
      + cbn [bind_src]. unfold bind.
        rewrite (iter_ok m s a i own l p HR Hv Hp ltac:(lia)), (iter_ok m s a j own l p HR Hv Hp ltac:(lia)). cbn [fst snd].
        unfold ret. do 2 f_equal. rewrite Hlen. rewrite <- Nat2Z.inj_sub by lia. rewrite wrap64_small; [apply Nat2Z.id|].
        pose proof (fits_lt _ (ptr_ok_fits _ _ _ _ Hp)). lia.
      + cbn [cur_ok]. destruct ws as [|w ws]; [left; reflexivity|right].
        unfold ptr_ok in Hp. destruct own.
        * destruct Hp as (_ & b & -> & Hb). exists b, (nblk (length l) l). repeat split; [exact Hb|].
          intros k v' Hk. rewrite nth_error_map in Hk. destruct (nth_error (w :: ws) k) as [v|] eqn:Hkv; [|discriminate].
          injection Hk as <-. exists v. split; [|reflexivity]. cbn [b_cells nblk].
          rewrite <- (firstn_skipn_nth l i (j - i) k) by (rewrite <- Hlen; exact (nth_error_lt _ _ _ Hkv)).
          rewrite Hw, nth_error_map, Hkv. reflexivity.
        * destruct Hp as (-> & _). cbn in Hj. cbn [length] in Hlen. lia.
      + intros f' p' i' E. injection E as <- <- <-. exists a, j, (length l). split; [reflexivity|exact Hv].
  Qed.
  Lemma bind_src_reversed m (s : St) x : Rep m s -> reversed m x = true ->
    exists c n, bind_src x s = Ret (c, n) s /\ (forall n', fits n' -> n' <> n) /\
      forall s' : St, uninitialized_new sz n s' = Exc EBadAlloc (with_failure (ncd (cd s')) s').
  Proof.
    intros HR H. destruct x as [f l|f a i j]; cbn [reversed] in H; [discriminate|].
    destruct (lookup m a) as [[own l]|] eqn:Hl; [|discriminate].
    apply andb_true_iff in H. destruct H as (Hji & Hi). apply Nat.ltb_lt in Hji. apply Nat.leb_le in Hi.
    destruct (rep_lookup _ _ _ _ _ HR Hl) as (p & _ & Hv & Hp).
    pose proof (ptr_ok_fits _ _ _ _ Hp) as Hfits. unfold fits in Hfits.
    set (k := (Z.of_nat i - Z.of_nat j)%Z).
    assert (0 < k /\ k * sz < 2 ^ 63)%Z as (Hk & Hksz) by (unfold k; nia).
    assert (wrap64 (Z.of_nat j - Z.of_nat i) = 2 ^ 64 - k)%Z as Hw.
    { unfold wrap64. replace (Z.of_nat j - Z.of_nat i)%Z with (2 ^ 64 - k + (-1) * 2 ^ 64)%Z by (unfold k; lia).
      rewrite Z.mod_add by lia. apply Z.mod_small. nia. }
    exists (CPtr f p i), (Z.to_nat (2 ^ 64 - k)). split; [|split].
    - cbn [bind_src]. unfold bind.
      rewrite (iter_ok m s a i own l p HR Hv Hp ltac:(lia)), (iter_ok m s a j own l p HR Hv Hp ltac:(lia)). cbn [fst snd].
      rewrite Hw. reflexivity.
    - intros n' Hn' E. unfold fits in Hn'. subst n'. rewrite Z2Nat.id in Hn' by nia. nia.
    - intros s'. unfold uninitialized_new, bind.
      assert (bytes_for sz (Z.to_nat (2 ^ 64 - k)) = 2 ^ 64 - k * sz)%Z as ->.
      { unfold bytes_for. rewrite Z2Nat.id by nia. unfold wrap64.
        replace ((2 ^ 64 - k) * sz)%Z with (2 ^ 64 - k * sz + (sz - 1) * 2 ^ 64)%Z by ring.
        rewrite Z.mod_add by lia. apply Z.mod_small. nia. }
      assert (2 ^ 63 <=? 2 ^ 64 - k * sz = true)%Z as -> by (apply Z.leb_le; nia).
      unfold event, with_failure. destruct s' as [vs h mm g c]. cbn [cd vars heap made gone].
      destruct c as [[|c]|]; cbn [ncd after]; [reflexivity| |reflexivity].
      replace (S c - 1) with c by lia. reflexivity.
  Qed.

  (** ** exact effects of the loops over existing arrays *)
  Definition overwrite (p : option nat) (l : list (option V)) (h : list (blk V)) : list (blk V) :=
    match p with
    | None => h
    | Some b => match nth_error h b with Some k => upd b (mkBlk (b_bytes k) l (b_freed k)) h | None => h end
    end.
  Definition fill_reader (s : St) (p : option nat) (l : list V) (rd : nat -> M St V) (vs : list V) : Prop :=
    forall i v (s' : St), nth_error vs i = Some v -> vars s' = vars s ->
      (forall b, p <> Some b -> nth_error (heap s') b = nth_error (heap s) b) ->
      (forall b k, p = Some b -> nth_error (heap s) b = Some k ->
         nth_error (heap s') b = Some (mkBlk (b_bytes k) (map Some (firstn i vs ++ skipn i l)) false)) ->
      rd i s' = Ret v s'.
  Lemma fill_exact rd (l vs : list V) p (s : St) n :
    n = length l -> pointee (heap s) (map Some l) p -> length vs = length l -> fill_reader s p l rd vs ->
    fill_with n p rd s =
    match fails (cd s) n with
    | None => Ret tt (mkSt (vars s) (overwrite p (map Some vs) (heap s)) (made s) (gone s) (drop n (cd s)))
    | Some j => Exc (EUser 0) (mkSt (vars s) (overwrite p (map Some (firstn j vs ++ skipn j l)) (heap s)) (made s) (gone s) None)
    end.
  Proof.
    intros -> [[-> Hl]|(b & bytes & -> & Hb)] Hlen Hrd.
    - destruct l; [|discriminate]. destruct vs; [|discriminate]. unfold fill_with. cbn [length for_up].
      assert (fails (cd s) 0 = None) as -> by (unfold fails; destruct (cd s); reflexivity).
      unfold ret, overwrite. destruct s as [v h m g [c|]]; cbn [vars heap made gone cd after]; rewrite ?Nat.sub_0_r; reflexivity.
    - pose proof (put_loop false rd b bytes (map Some l) vs (length l) 0 s) as H.
      change (for_up 0 (length l) (fun i => v <- rd i ;; put false (Some b) i v)) with (fill_with (length l) (Some b) rd) in H.
      rewrite H; clear H.
      + unfold overwrite. rewrite Hb. cbn [b_bytes b_freed]. rewrite skipn_all2 by (rewrite map_length; lia).
        destruct (fails (cd s) (length l)) as [j|]; rewrite ?app_nil_r, Nat.add_0_r; [|reflexivity].
        rewrite Nat.add_0_l, map_app, skipn_map. reflexivity.
      + exact Hb.
      + rewrite map_length. lia.
      + lia.
      + intros _ i E. rewrite nth_error_map in E. destruct (nth_error l i); discriminate.
      + intros i s' Hi Hv Ho Hs'. destruct (nth_error vs i) as [v|] eqn:Hn; [|apply nth_error_None in Hn; lia].
        exists v. split; [reflexivity|]. apply Hrd; [exact Hn|exact Hv| |].
        * intros b' Hb'. apply Ho. congruence.
        * intros b' k E Hk. injection E as <-. rewrite Hb in Hk. injection Hk as <-. cbn [b_bytes].
          rewrite Hs', map_app, skipn_map. reflexivity.
  Qed.

  (** resize *)
  Lemma resize_exact a n (l : list V) p rd x (s : St) :
    nth_error (vars s) a = Some (Arr (length l) p) -> pointee (heap s) (map Some l) p -> n <> length l -> sane sz n = true ->
    (forall s' : St, vars s' = vars s -> (forall b, b < length (heap s) -> nth_error (heap s') b = nth_error (heap s) b) -> rd s' = Ret x s') ->
    resize_to sz a n rd s =
    match try_new sz n (cd s) with
    | Success => Ret tt (mkSt (upd a (Arr n (Some (length (heap s)))) (vars s))
                              (release (length l) p (heap s ++ [nblk n (map Some (resized n l x))]))
                              (made s + n) (gone s + length l) (drop (S n) (cd s)))
    | NoMemory => Exc EBadAlloc (with_failure (ncd (cd s)) s)
    | ElemFails j => Exc (EUser 0) (mkSt (vars s) (heap s ++ [nblk n (map Some (firstn j (resized n l x)) ++ repeat None (n - j))])
                                         (made s + j) (gone s) None)
    end.
  Proof.
    intros Hv Hp Hn Hs Hrd. unfold resize_to, bind at 1, get_var. rewrite Hv. cbn [fst snd].
    destruct (Nat.eqb_spec (length l) n) as [E|_]; [congruence|].
    assert (length (resized n l x) = n) as Hlen.
    { unfold resized. rewrite app_length, firstn_length, repeat_length. lia. }
    pose proof (new_fill (fun i => if i <? length l then load p i else rd) (resized n l x)
      (fun q => destroy_elements (length l) p ;;; uninitialized_delete p ;;; put_var a (Arr n q)) s n (eq_sym Hlen) Hs) as H.
    unfold old_reader in H. rewrite H; clear H.
    - destruct (try_new sz n (cd s)); try reflexivity.
      rewrite (destroy_release l); [|reflexivity|].
      + unfold put_var. cbn [vars heap made gone cd]. reflexivity.
      + cbn [heap]. destruct Hp as [[-> Hl]|(b & bytes & -> & Hb)]; [left; split; auto|right].
        exists b, bytes. split; [reflexivity|]. rewrite nth_error_snoc_old by exact (nth_error_lt _ _ _ Hb). exact Hb.
    - intros i v s' Hi Hvs Hfr. unfold resized in Hi.
      destruct (Nat.ltb_spec i (length l)) as [Hlt|Hge].
      + assert (i < n) as Hin by (rewrite <- Hlen; exact (nth_error_lt _ _ _ Hi)).
        rewrite nth_error_app1 in Hi by (rewrite firstn_length; lia).
        pose proof (firstn_skipn_nth l 0 n i Hin) as E. cbn [skipn Nat.add] in E. rewrite E in Hi.
        destruct Hp as [[_ Hl]|(b & bytes & -> & Hb)]; [destruct l; [cbn in Hlt; lia|discriminate]|].
        apply (load_ok s' b (mkBlk bytes (map Some l) false)).
        * rewrite (Hfr b) by exact (nth_error_lt _ _ _ Hb). exact Hb.
        * reflexivity.
        * cbn [b_cells]. rewrite nth_error_map, Hi. reflexivity.
      + rewrite nth_error_app2 in Hi by (rewrite firstn_length; lia).
        apply nth_error_In, repeat_spec in Hi. subst v. apply Hrd; assumption.
  Qed.

  (** replacing everything: 131 and 157-158 *)
  Definition replace_seq (d n : nat) (p : option nat) (n' : nat) (rd : nat -> M St V) : M St unit :=
    destroy_elements n p ;;; uninitialized_delete p ;;; put_var d (Arr n' p) ;;;
    q <- uninitialized_new sz n' ;; put_var d (Arr n' q) ;;; uninitialized_fill n' q rd.
  Lemma replace_exact d (l vs : list V) p rd (s : St) n n' :
    n = length l -> n' = length vs -> pointee (heap s) (map Some l) p -> sane sz n' = true ->
    (forall i v (s' : St), nth_error vs i = Some v ->
       (forall b, p <> Some b -> b < length (heap s) -> nth_error (heap s') b = nth_error (heap s) b) -> rd i s' = Ret v s') ->
    replace_seq d n p n' rd s =
    match try_new sz n' (cd s) with
    | Success => Ret tt (mkSt (upd d (Arr n' (Some (length (heap s)))) (vars s)) (release n p (heap s) ++ [nblk n' (map Some vs)])
                              (made s + n') (gone s + n) (drop (S n') (cd s)))
    | NoMemory => Exc EBadAlloc (mkSt (upd d (Arr n' p) (vars s)) (release n p (heap s)) (made s) (gone s + n) (ncd (cd s)))
    | ElemFails j => Exc (EUser 0) (mkSt (upd d (Arr n' (Some (length (heap s)))) (vars s))
                                         (release n p (heap s) ++ [nblk n' (map Some (firstn j vs) ++ repeat None (n' - j))])
                                         (made s + j) (gone s + n) None)
    end.
  Proof.
    intros Hn -> Hp Hs Hrd. unfold replace_seq. rewrite (destroy_release l _ _ _ _ Hn Hp).
    unfold bind, put_var. cbn [vars heap made gone cd].
    rewrite (new_ok _ _ Hs), (try_new_split (length vs) (cd s)). cbn [vars heap made gone cd].
    destruct (try_new sz 0 (cd s)), (try_new sz (length vs) None); try reflexivity.
    cbn [vars heap made gone cd]. rewrite release_length.
    rewrite (fill_new rd (length (heap s)) (Z.of_nat (length vs) * sz)%Z vs); cbn [vars heap made gone cd].
    - rewrite upd_upd.
      assert (length (release n p (heap s)) = length (heap s)) as Hr by apply release_length.
      destruct (fails (after 1 (cd s)) (length vs)) as [j|]; rewrite <- Hr, upd_app_last; [reflexivity|].
      f_equal. f_equal. destruct (cd s) as [c|]; cbn [after]; [f_equal; lia|reflexivity].
    - rewrite <- (release_length n p (heap s)). apply nth_error_snoc.
    - intros i v s' Hi _ Hfr. apply Hrd; [exact Hi|]. intros b Hb Hlt.
      rewrite (Hfr b) by lia. rewrite nth_error_snoc_old by (rewrite release_length; exact Hlt). apply release_other. exact Hb.
  Qed.
End Proofs.
