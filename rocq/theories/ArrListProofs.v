(** ArrListProofs.v -- proofs for ArrListProps.v. *)
From Verif Require Import Base ArrayModel ArraySpec ArrayProofs ArrayStep ArrayThms ArrayPrograms ArrListModel ArrListSpec.

Section Proofs.
  Context {V : Type} (sz : Z) (dflt : V) (eq_dec : forall x y : V, {x = y} + {x <> y}).
  Notation sstep := (@sstep V sz dflt eq_dec).
  Notation sexec := (@sexec V sz dflt eq_dec).
  Notation slots l := (map (@hold V) l).
  Definition empty_slot : vslot V := VArr false [].

  (** [p] runs without exceptions *)
  Definition sx (m : vst V) (p : list (op V)) (m' : vst V) : Prop := sexec m (calm p) = Some (repeat ODone (length p), m').
  Lemma sx_nil m : sx m [] m.
  Proof. reflexivity. Qed.
  Lemma sx_cons m o p m1 m2 : sstep m o None = Some (ODone, m1) -> sx m1 p m2 -> sx m (o :: p) m2.
  Proof.
    unfold sx. intros H1 H2. change (calm (o :: p)) with ((o, @None nat) :: calm p). cbn [ArraySpec.sexec length repeat].
    rewrite H1, H2. reflexivity.
  Qed.
  Lemma sx_app m p q m1 m2 : sx m p m1 -> sx m1 q m2 -> sx m (p ++ q) m2.
  Proof.
    revert m. induction p as [|o p IH]; intros m Hp Hq; [unfold sx in Hp; cbn in Hp; injection Hp as <-; exact Hq|].
    unfold sx in Hp. change (calm (o :: p)) with ((o, @None nat) :: calm p) in Hp. cbn [length repeat ArraySpec.sexec] in Hp.
    destruct (sstep m o None) as [[x mx]|] eqn:Hs; [|discriminate].
    destruct (sexec mx (calm p)) as [[l my]|] eqn:He; [|discriminate]. injection Hp as Hx Hl Hm. subst x l my.
    cbn [app]. eapply sx_cons; [exact Hs|]. apply IH; [exact He|exact Hq].
  Qed.
  Lemma sx_one m o m1 : sstep m o None = Some (ODone, m1) -> sx m [o] m1.
  Proof. intros H. eapply sx_cons; [exact H|apply sx_nil]. Qed.

  (** slots in the middle of the store *)
  Lemma nth_mid {A} (l1 l2 : list A) x : nth_error (l1 ++ x :: l2) (length l1) = Some x.
  Proof. rewrite nth_error_app2, Nat.sub_diag by lia. reflexivity. Qed.
  Lemma upd_mid {A} (l1 l2 : list A) x y : upd (length l1) y (l1 ++ x :: l2) = l1 ++ y :: l2.
  Proof. induction l1; cbn; [reflexivity|]. now rewrite IHl1. Qed.
  Lemma lookup_mid l1 l2 own (l : list (option V)) b e : lookup (mkVst (l1 ++ VArr own l :: l2) b e) (length l1) = Some (own, l).
  Proof. unfold lookup. cbn [store]. now rewrite nth_mid. Qed.
  Lemma values_some (vs : list V) : values (map Some vs) = Some vs.
  Proof. now apply values_iff. Qed.
  Lemma seq_mid l1 l2 own (vs : list V) b e : seq_of (mkVst (l1 ++ VArr own (map Some vs) :: l2) b e) (length l1) = Some (own, vs).
  Proof. unfold seq_of. rewrite lookup_mid, values_some. reflexivity. Qed.

  (** move assignment from the next slot and to it *)
  Lemma move_down l1 own l own' l' l2 b e :
    sstep (mkVst (l1 ++ VArr own l :: VArr own' l' :: l2) b e) (OpMoveAssign (length l1) (S (length l1))) None =
    Some (ODone, mkVst (l1 ++ VArr own' l' :: empty_slot :: l2) (b + (if own then 1 else 0)) (e + count_live l)).
  Proof.
    unfold ArraySpec.sstep. rewrite lookup_mid.
    assert (H : lookup (mkVst (l1 ++ VArr own l :: VArr own' l' :: l2) b e) (S (length l1)) = Some (own', l')).
    { replace (S (length l1)) with (length (l1 ++ [VArr own l])) by (rewrite app_length; cbn; lia).
      change (VArr own l :: VArr own' l' :: l2) with ([VArr own l] ++ VArr own' l' :: l2). rewrite app_assoc. apply lookup_mid. }
    rewrite H. rewrite (proj2 (Nat.eqb_neq _ _)) by lia. unfold ok, lose, set. cbn [store lost_blocks lost_elems].
    rewrite upd_mid. do 3 f_equal.
    replace (S (length l1)) with (length (l1 ++ [VArr own' l'])) by (rewrite app_length; cbn; lia).
    change (VArr own' l' :: VArr own' l' :: l2) with ([VArr own' l'] ++ VArr own' l' :: l2). rewrite app_assoc, upd_mid, <- app_assoc. reflexivity.
  Qed.
  Lemma move_up l1 own l own' l' l2 b e :
    sstep (mkVst (l1 ++ VArr own l :: VArr own' l' :: l2) b e) (OpMoveAssign (S (length l1)) (length l1)) None =
    Some (ODone, mkVst (l1 ++ empty_slot :: VArr own l :: l2) (b + (if own' then 1 else 0)) (e + count_live l')).
  Proof.
    unfold ArraySpec.sstep. rewrite lookup_mid.
    assert (H : lookup (mkVst (l1 ++ VArr own l :: VArr own' l' :: l2) b e) (S (length l1)) = Some (own', l')).
    { replace (S (length l1)) with (length (l1 ++ [VArr own l])) by (rewrite app_length; cbn; lia).
      change (VArr own l :: VArr own' l' :: l2) with ([VArr own l] ++ VArr own' l' :: l2). rewrite app_assoc. apply lookup_mid. }
    rewrite H. rewrite (proj2 (Nat.eqb_neq _ _)) by lia. unfold ok, lose, set. cbn [store lost_blocks lost_elems].
    assert (H1 : upd (S (length l1)) (VArr own l) (l1 ++ VArr own l :: VArr own' l' :: l2) = l1 ++ VArr own l :: VArr own l :: l2).
    { replace (S (length l1)) with (length (l1 ++ [VArr own l])) by (rewrite app_length; cbn; lia).
      change (VArr own l :: VArr own' l' :: l2) with ([VArr own l] ++ VArr own' l' :: l2). rewrite app_assoc, upd_mid, <- app_assoc. reflexivity. }
    rewrite H1, upd_mid. reflexivity.
  Qed.
  Lemma destroy_mid l1 own vs l2 b e :
    sstep (mkVst (l1 ++ VArr own (map Some vs) :: l2) b e) (OpDestroy (length l1)) None = Some (ODone, mkVst (l1 ++ VDead :: l2) b e).
  Proof. unfold ArraySpec.sstep. rewrite seq_mid. unfold ok, set. cbn [store]. rewrite upd_mid. reflexivity. Qed.

  Lemma snoc_cons {A} (l1 : list A) x l2 : l1 ++ x :: l2 = (l1 ++ [x]) ++ l2.
  Proof. rewrite <- app_assoc. reflexivity. Qed.
  (** an empty slot moves up through the slots of [l] *)
  Lemma shift_down_empty l : forall l1 l2 b e,
    sx (mkVst (l1 ++ empty_slot :: slots l ++ l2) b e) (shift_down (length l1) (length l)) (mkVst (l1 ++ slots l ++ empty_slot :: l2) b e).
  Proof.
    induction l as [|x l IH]; intros l1 l2 b e; [apply sx_nil|].
    cbn [length]. unfold shift_down. cbn [seq map app]. eapply sx_cons; [apply move_down|].
    unfold empty_slot at 2. cbn [count_live filter length]. rewrite !Nat.add_0_r.
    specialize (IH (l1 ++ [hold x]) l2 b e). rewrite app_length in IH. cbn [length] in IH. rewrite Nat.add_1_r in IH.
    rewrite <- !app_assoc in IH. exact IH.
  Qed.
  Lemma shift_down_array x y l l1 l2 b e :
    sx (mkVst (l1 ++ hold x :: slots (y :: l) ++ l2) b e) (shift_down (length l1) (length (y :: l)))
       (mkVst (l1 ++ slots (y :: l) ++ empty_slot :: l2) (b + 1) (e + length x)).
  Proof.
    cbn [length]. unfold shift_down. cbn [seq map app]. eapply sx_cons; [apply move_down|].
    rewrite count_live_map.
    pose proof (shift_down_empty l (l1 ++ [hold y]) l2 (b + 1) (e + length x)) as H.
    rewrite app_length in H. cbn [length] in H. rewrite (Nat.add_1_r (length l1)) in H. rewrite <- !app_assoc in H. exact H.
  Qed.
  (** and down *)
  Lemma shift_up_empty l : forall l1 l2 b e,
    sx (mkVst (l1 ++ slots l ++ empty_slot :: l2) b e) (shift_up (length l1) (length l)) (mkVst (l1 ++ empty_slot :: slots l ++ l2) b e).
  Proof.
    induction l as [|x l IH] using rev_ind; intros l1 l2 b e; [apply sx_nil|].
    rewrite app_length. cbn [length]. rewrite Nat.add_1_r. unfold shift_up. rewrite seq_S, rev_app_distr, !map_app. cbn [rev app map].
    rewrite <- !app_assoc. cbn [app].
    eapply sx_cons.
    - replace (length l1 + length l) with (length (l1 ++ slots l)) by (rewrite app_length, map_length; reflexivity).
      rewrite app_assoc. apply move_up.
    - cbn [count_live filter length]. rewrite !Nat.add_0_r. rewrite <- app_assoc. apply IH.
  Qed.

  Lemma alloc_ok n : allocatable sz n -> sane sz n = true /\ try_new sz n None = Success.
  Proof.
    unfold allocatable, sane, try_new. intros H. split.
    - apply Z.ltb_lt. lia.
    - destruct (2 ^ 63 <=? Z.of_nat n * sz)%Z eqn:Hn; [|reflexivity]. apply Z.leb_le in Hn. lia.
  Qed.
  Lemma from_mid l1 l2 vs b e : allocatable sz (length vs) ->
    sstep (mkVst (l1 ++ VDead :: l2) b e) (OpFrom (length l1) (SList (fun v => v) vs)) None = Some (ODone, mkVst (l1 ++ hold vs :: l2) b e).
  Proof.
    intros Ha. destruct (alloc_ok _ Ha) as [H1 H2]. unfold ArraySpec.sstep. cbn [reversed]. rewrite andb_false_r. cbn [src_val].
    rewrite map_id. unfold s_build, is_free. cbn [store]. rewrite nth_mid, H1, H2. cbn [andb]. unfold ok, set. cbn [store].
    rewrite upd_mid. reflexivity.
  Qed.
  Lemma from_0 l2 vs b e : allocatable sz (length vs) ->
    sstep (mkVst (VDead :: l2) b e) (OpFrom 0 (SList (fun v => v) vs)) None = Some (ODone, mkVst (hold vs :: l2) b e).
  Proof. exact (from_mid [] l2 vs b e). Qed.
  Lemma destroy_0 own vs l2 b e :
    sstep (mkVst (VArr own (map Some vs) :: l2) b e) (OpDestroy 0) None = Some (ODone, mkVst (VDead :: l2) b e).
  Proof. exact (destroy_mid [] own vs l2 b e). Qed.
  Lemma destroy_0_empty l2 b e : sstep (mkVst (empty_slot :: l2) b e) (OpDestroy 0) None = Some (ODone, mkVst (VDead :: l2) b e).
  Proof. exact (destroy_0 false [] l2 b e). Qed.

  (** the state of a list [l] of capacity N *)
  Definition lst (N : nat) (l : list (list V)) (b e : nat) : vst V := mkVst (VDead :: slots l ++ repeat VDead (N - length l)) b e.
  Definition fitting (N : nat) (l : list (list V)) : Prop := length l <= N /\ Forall (fun x => allocatable sz (length x)) l.

  Lemma move_from_0 l1 l2 own l b e :
    sstep (mkVst (VArr own l :: l1 ++ VDead :: l2) b e) (OpMove (S (length l1)) 0) None = Some (ODone, mkVst (empty_slot :: l1 ++ VArr own l :: l2) b e).
  Proof.
    unfold ArraySpec.sstep, lookup. cbn [store nth_error]. unfold is_free. cbn [store nth_error]. rewrite nth_mid.
    unfold ok, set. cbn [store upd lost_blocks lost_elems]. rewrite upd_mid. reflexivity.
  Qed.
  Lemma room N (l : list (list V)) : length l < N -> repeat (@VDead V) (N - length l) = VDead :: repeat VDead (N - S (length l)).
  Proof. intros H. replace (N - length l) with (S (N - S (length l))) by lia. reflexivity. Qed.

  Lemma push_ok N l vs b e : length l < N -> allocatable sz (length vs) ->
    sx (lst N l b e) (program (length l) (LPush vs)) (lst N (l ++ [vs]) b e).
  Proof.
    intros Hl Ha. unfold lst, program. rewrite (room N l Hl).
    eapply sx_cons; [apply from_0; exact Ha|]. eapply sx_cons.
    - pose proof (move_from_0 (slots l) (repeat VDead (N - S (length l))) true (map Some vs) b e) as H.
      rewrite map_length in H. exact H.
    - apply sx_one. rewrite destroy_0_empty. do 3 f_equal. f_equal. rewrite map_app, app_length, <- app_assoc. cbn [length map app].
      rewrite Nat.add_1_r. reflexivity.
  Qed.
  Lemma nth_slots l i (x : list V) d : nth_error l i = Some x -> nth_error (slots l ++ d) i = Some (hold x).
  Proof.
    intros H. assert (Hi := nth_error_lt _ _ _ H). rewrite nth_error_app1 by (rewrite map_length; exact Hi).
    now apply map_nth_error.
  Qed.
  Lemma upd_slots l i (x : list V) d : i < length l -> upd i (hold x) (slots l ++ d) = slots (upd i x l) ++ d.
  Proof.
    intros H. rewrite upd_app_l by (rewrite map_length; exact H). f_equal.
    clear d. revert i H. induction l as [|y l IH]; intros i H; [cbn in H; lia|]. destruct i; cbn [upd map]; [reflexivity|].
    f_equal. apply IH. cbn in H. lia.
  Qed.
  Lemma append_ok N l i x b e : length l < N -> nth_error l i = Some x -> allocatable sz (length x) ->
    sx (lst N l b e) (program (length l) (LAppend i)) (lst N (l ++ [x]) b e).
  Proof.
    intros Hl Hx Ha. destruct (alloc_ok _ Ha) as [H1 H2]. unfold lst, program. rewrite (room N l Hl). apply sx_one.
    unfold ArraySpec.sstep, seq_of, lookup. cbn [store nth_error]. rewrite (nth_slots l i x _ Hx). unfold hold at 1. rewrite values_some.
    rewrite map_id. unfold s_build, is_free. cbn [store nth_error].
    replace (nth_error (slots l ++ VDead :: repeat VDead (N - S (length l))) (length l)) with (Some (@VDead V))
      by (pose proof (nth_mid (slots l) (repeat VDead (N - S (length l))) VDead) as H; rewrite map_length in H; now rewrite H).
    rewrite H1, H2. cbn [andb]. unfold ok, set. cbn [store upd]. do 3 f_equal. f_equal.
    pose proof (upd_mid (slots l) (repeat VDead (N - S (length l))) VDead (hold x)) as H. rewrite map_length in H. rewrite H.
    rewrite map_app, app_length, <- app_assoc. cbn [length map app]. rewrite Nat.add_1_r. reflexivity.
  Qed.
  Lemma dead_more N (l1 : list (list V)) n : n + length l1 <= N -> repeat (@VDead V) n ++ repeat VDead (N - (n + length l1)) = repeat VDead (N - length l1).
  Proof. intros H. rewrite <- repeat_app. f_equal. lia. Qed.
  Lemma pop_ok N l1 x b e : length (l1 ++ [x]) <= N ->
    sx (lst N (l1 ++ [x]) b e) (program (length (l1 ++ [x])) LPop) (lst N l1 b e).
  Proof.
    rewrite app_length. cbn [length]. intros Hl. unfold lst, program. apply sx_one. rewrite app_length. cbn [length].
    rewrite map_app, <- app_assoc. cbn [map app]. rewrite app_comm_cons.
    replace (length l1 + 1) with (length (VDead :: slots l1)) at 1 by (cbn; rewrite map_length; lia).
    replace (length l1 + 1) with (length (VDead :: slots l1)) by (cbn; rewrite map_length; lia).
    unfold hold at 2. rewrite destroy_mid. do 3 f_equal. cbn [app]. f_equal. f_equal. cbn [length]. rewrite map_length.
    rewrite <- (dead_more N l1 1) by lia. reflexivity.
  Qed.
  Lemma erase_ok N l1 x l2 b e : length (l1 ++ x :: l2) <= N ->
    sx (lst N (l1 ++ x :: l2) b e) (program (length (l1 ++ x :: l2)) (LErase (length l1)))
       (lst N (l1 ++ l2) (b + match l2 with [] => 0 | _ => 1 end) (e + match l2 with [] => 0 | _ => length x end)).
  Proof.
    intros Hl. destruct l2 as [|y l2].
    - rewrite !Nat.add_0_r, app_nil_r. unfold program. rewrite app_length in *. cbn [length] in *.
      replace (length l1 + 1 - S (length l1)) with 0 by lia. cbn [shift_down seq map app].
      pose proof (pop_ok N l1 x b e) as H. unfold program in H. rewrite app_length in H. apply H. exact Hl.
    - unfold program, lst. rewrite !app_length in *. cbn [length] in *.
      replace (length l1 + S (S (length l2)) - S (length l1)) with (length (y :: l2)) by (cbn; lia).
      rewrite map_app, <- app_assoc. cbn [map app]. rewrite app_comm_cons.
      eapply sx_app.
      + replace (S (length l1)) with (length (VDead :: slots l1)) by (cbn; now rewrite map_length).
        change (hold y :: slots l2 ++ ?d) with (slots (y :: l2) ++ d). apply shift_down_array.
      + apply sx_one. rewrite app_assoc.
        replace (length l1 + S (S (length l2))) with (length ((VDead :: slots l1) ++ slots (y :: l2))) at 2
          by (rewrite app_length; cbn; rewrite !map_length; lia).
        rewrite (destroy_mid _ false []). do 3 f_equal. rewrite map_app, <- !app_assoc. cbn [app]. f_equal. f_equal. f_equal.
        replace (N - (length l1 + S (length l2))) with (S (N - (length l1 + S (S (length l2))))) by lia. reflexivity.
  Qed.

  Lemma move_last l1 own l l2 b e :
    sstep (mkVst (l1 ++ VArr own l :: VDead :: l2) b e) (OpMove (S (length l1)) (length l1)) None = Some (ODone, mkVst (l1 ++ empty_slot :: VArr own l :: l2) b e).
  Proof.
    unfold ArraySpec.sstep. rewrite lookup_mid. unfold is_free. cbn [store].
    pose proof (nth_mid (l1 ++ [VArr own l]) l2 VDead) as H. rewrite app_length, Nat.add_1_r, <- app_assoc in H. cbn [app] in H. rewrite H.
    unfold ok, set. cbn [store lost_blocks lost_elems]. rewrite upd_mid.
    pose proof (upd_mid (l1 ++ [empty_slot]) l2 VDead (VArr own l)) as H1. rewrite app_length, Nat.add_1_r, <- app_assoc in H1. cbn [app] in H1.
    rewrite <- app_assoc in H1. cbn [app] in H1. unfold empty_slot in *. rewrite H1. reflexivity.
  Qed.
  Lemma move_assign_0 l1 own l own' l' l2 b e :
    sstep (mkVst (VArr own l :: l1 ++ VArr own' l' :: l2) b e) (OpMoveAssign (S (length l1)) 0) None =
    Some (ODone, mkVst (empty_slot :: l1 ++ VArr own l :: l2) (b + (if own' then 1 else 0)) (e + count_live l')).
  Proof.
    unfold ArraySpec.sstep, lookup. cbn [store nth_error]. rewrite nth_mid. cbn [Nat.eqb].
    unfold ok, lose, set. cbn [store upd lost_blocks lost_elems]. rewrite upd_mid. reflexivity.
  Qed.
  Lemma insert_ok N l1 l2 vs b e : length (l1 ++ l2) < N -> allocatable sz (length vs) ->
    sx (lst N (l1 ++ l2) b e) (program (length (l1 ++ l2)) (LInsert (length l1) vs)) (lst N (l1 ++ vs :: l2) b e).
  Proof.
    intros Hl Ha. destruct l2 as [|y l2 _] using rev_ind.
    - rewrite app_nil_r in *. unfold program. rewrite Nat.eqb_refl. exact (push_ok N l1 vs b e Hl Ha).
    - assert (Hn : length (l1 ++ l2 ++ [y]) = S (length l1 + length l2)) by (rewrite !app_length; cbn; lia).
      rewrite Hn in *. unfold program. rewrite (proj2 (Nat.eqb_neq (length l1) _)) by lia. cbn [app].
      unfold lst. rewrite Hn, !map_app, <- !app_assoc. cbn [map app].
      replace (N - S (length l1 + length l2)) with (S (N - S (S (length l1 + length l2)))) by lia. cbn [repeat].
      replace (S (length l1 + length l2) - S (length l1)) with (length l2) by lia.
      eapply sx_cons; [apply from_0; exact Ha|]. eapply sx_cons.
      { rewrite app_comm_cons, app_assoc.
        pose proof (move_last ((hold vs :: slots l1) ++ slots l2) true (map Some y) (repeat VDead (N - S (S (length l1 + length l2)))) b e) as H.
        rewrite app_length in H. cbn [length] in H. rewrite !map_length in H. exact H. }
      eapply sx_app.
      { rewrite <- app_assoc.
        pose proof (shift_up_empty l2 (hold vs :: slots l1) (VArr true (map Some y) :: repeat VDead (N - S (S (length l1 + length l2)))) b e) as H.
        cbn [length] in H. rewrite map_length in H. exact H. }
      eapply sx_cons.
      { pose proof (move_assign_0 (slots l1) true (map Some vs) false [] (slots l2 ++ VArr true (map Some y) :: repeat VDead (N - S (S (length l1 + length l2)))) b e) as H.
        rewrite map_length in H. exact H. }
      apply sx_one. cbn [count_live filter length]. rewrite !Nat.add_0_r, destroy_0_empty. do 3 f_equal. f_equal. f_equal.
      rewrite map_app, <- app_assoc. cbn [map app]. unfold hold at 3. rewrite !app_length. cbn [length]. rewrite app_length. cbn [length].
      do 4 f_equal. lia.
  Qed.

  Lemma set_split l i (x : list V) : nth_error l i = Some x -> exists l1 l2, l = l1 ++ x :: l2 /\ length l1 = i /\ forall y, upd i y l = l1 ++ y :: l2.
  Proof.
    intros H. destruct (nth_error_split _ _ H) as [l1 [l2 [Hl Hi]]]. exists l1, l2. split; [exact Hl|]. split; [exact Hi|].
    intros y. subst l i. apply upd_mid.
  Qed.
  Lemma set_ok N l i x vs b e : nth_error l i = Some x -> allocatable sz (length vs) ->
    sx (lst N l b e) (program (length l) (LSet i vs)) (lst N (upd i vs l) (b + 1) (e + length x)).
  Proof.
    intros Hx Ha. destruct (set_split l i x Hx) as [l1 [l2 [Hl [Hi Hu]]]]. rewrite Hu. subst l i. unfold program, lst.
    rewrite !app_length. cbn [length]. rewrite !map_app, <- !app_assoc. cbn [map app].
    eapply sx_cons; [apply from_0; exact Ha|]. eapply sx_cons.
    { pose proof (move_assign_0 (slots l1) true (map Some vs) true (map Some x) (slots l2 ++ repeat VDead (N - (length l1 + S (length l2)))) b e) as H.
      rewrite map_length in H. exact H. }
    apply sx_one. rewrite count_live_map, destroy_0_empty. reflexivity.
  Qed.
  Lemma copy_ok N l i j x y b e : nth_error l i = Some x -> nth_error l j = Some y -> allocatable sz (length y) ->
    sx (lst N l b e) (program (length l) (LCopy i j)) (lst N (upd i y l) b e).
  Proof.
    intros Hx Hy Ha. destruct (alloc_ok _ Ha) as [H1 H2]. unfold program, lst. apply sx_one.
    unfold ArraySpec.sstep, seq_of, lookup. cbn [store nth_error]. rewrite (nth_slots l i x _ Hx), (nth_slots l j y _ Hy).
    unfold hold at 1 2. rewrite !values_some. rewrite upd_length.
    assert (Hi := nth_error_lt _ _ _ Hx).
    destruct (length x =? length y).
    - unfold s_fill, ok, set. cbn [store upd]. change (VArr true (map Some y)) with (hold y). rewrite upd_slots by exact Hi. reflexivity.
    - unfold s_replace. rewrite H1, H2. unfold ok, set. cbn [store upd]. rewrite upd_slots by exact Hi. reflexivity.
  Qed.
  Lemma swap_ok N l i j x y b e : i <> j -> nth_error l i = Some x -> nth_error l j = Some y ->
    sx (lst N l b e) (program (length l) (LSwap i j)) (lst N (upd j x (upd i y l)) b e).
  Proof.
    intros Hij Hx Hy. assert (Hi := nth_error_lt _ _ _ Hx). assert (Hj := nth_error_lt _ _ _ Hy).
    unfold program, lst. rewrite !upd_length. set (d := repeat VDead (N - length l)). set (S0 := slots l ++ d).
    assert (HSi : nth_error S0 i = Some (hold x)) by now apply nth_slots.
    assert (HSj : nth_error S0 j = Some (hold y)) by now apply nth_slots.
    assert (Li : i < length S0) by (unfold S0; rewrite app_length, map_length; lia).
    assert (Lj : j < length S0) by (unfold S0; rewrite app_length, map_length; lia).
    eapply sx_cons; [unfold ArraySpec.sstep, lookup; cbn [store nth_error]; rewrite HSi; unfold hold at 1, is_free; cbn [store nth_error]; reflexivity|].
    unfold set. cbn [store upd lost_blocks lost_elems].
    eapply sx_cons.
    { unfold ArraySpec.sstep, lookup. cbn [store nth_error]. rewrite nth_error_upd_eq by exact Li. rewrite nth_error_upd_neq by exact Hij. rewrite HSj.
      unfold hold at 1. change (S i =? S j) with (i =? j). rewrite (proj2 (Nat.eqb_neq _ _) Hij). reflexivity. }
    unfold lose, set. cbn [store upd lost_blocks lost_elems count_live filter length]. rewrite !Nat.add_0_r.
    eapply sx_cons.
    { unfold ArraySpec.sstep, lookup. cbn [store nth_error]. rewrite nth_error_upd_eq by (rewrite !upd_length; exact Lj). cbn [Nat.eqb]. reflexivity. }
    unfold lose, set. cbn [store upd lost_blocks lost_elems count_live filter length]. rewrite !Nat.add_0_r.
    apply sx_one. rewrite (destroy_0_empty). do 3 f_equal. f_equal.
    rewrite upd_upd, upd_upd. unfold S0. change (VArr true (map Some y)) with (hold y). change (VArr true (map Some x)) with (hold x).
    rewrite upd_slots by exact Hi. rewrite upd_slots by (rewrite upd_length; exact Hj). reflexivity.
  Qed.

  (** ** std::remove_if *)
  (** the flags of the elements looked at, with the elements *)
  Notation flags d := (map fst d).
  Notation elems d := (map snd d).
  Definition keeps (d : list (bool * list V)) : list (list V) := elems (filter fst d).
  Definition gap (p : bool * list V) : vslot V := if fst p then empty_slot else hold (snd p).
  Definition gone (d : list (bool * list V)) : list (list V) := elems (filter (fun p => negb (fst p)) d).
  Definition remove_state (d r : list (bool * list V)) (post : list (vslot V)) (b e : nat) : vst V :=
    let k := length (keeps d) in
    mkVst (VDead :: slots (keeps d) ++ map gap (skipn k d) ++ slots (elems r) ++ post)
      (b + length (gone (firstn k d))) (e + total (gone (firstn k d))).
  Lemma keeps_le d : length (keeps d) <= length d.
  Proof. unfold keeps. rewrite map_length. induction d as [|[[|] x] d IH]; cbn; lia. Qed.
  Lemma keeps_all d : length (keeps d) = length d -> gone d = [].
  Proof.
    unfold keeps, gone. rewrite map_length. induction d as [|[[|] x] d IH]; cbn; intros H; [reflexivity|apply IH; lia|].
    assert (length (filter fst d) <= length d) by (clear; induction d as [|[[|] x] d IH]; cbn; lia). lia.
  Qed.
  Lemma keeps_snoc d p : keeps (d ++ [p]) = keeps d ++ (if fst p then [snd p] else []).
  Proof. unfold keeps. rewrite filter_app, map_app. destruct p as [[|] x]; reflexivity. Qed.
  Lemma gone_snoc d p : gone (d ++ [p]) = gone d ++ (if fst p then [] else [snd p]).
  Proof. unfold gone. rewrite filter_app, map_app. destruct p as [[|] x]; reflexivity. Qed.
  Lemma total_snoc (l : list (list V)) x : total (l ++ [x]) = total l + length x.
  Proof. unfold total. rewrite concat_app, app_length. cbn. rewrite app_nil_r. reflexivity. Qed.

  Lemma move_far l1 own l l2 own' l' l3 b e :
    sstep (mkVst (l1 ++ VArr own l :: l2 ++ VArr own' l' :: l3) b e) (OpMoveAssign (length l1) (length l1 + S (length l2))) None =
    Some (ODone, mkVst (l1 ++ VArr own' l' :: l2 ++ empty_slot :: l3) (b + (if own then 1 else 0)) (e + count_live l)).
  Proof.
    unfold ArraySpec.sstep. rewrite lookup_mid.
    assert (Hlen : forall z : vslot V, length (l1 ++ z :: l2) = length l1 + S (length l2)) by (intros z; rewrite app_length; reflexivity).
    assert (H : lookup (mkVst (l1 ++ VArr own l :: l2 ++ VArr own' l' :: l3) b e) (length l1 + S (length l2)) = Some (own', l')).
    { rewrite <- (Hlen (VArr own l)). rewrite app_comm_cons, app_assoc. apply lookup_mid. }
    rewrite H. rewrite (proj2 (Nat.eqb_neq _ _)) by lia. unfold ok, lose, set. cbn [store lost_blocks lost_elems].
    rewrite upd_mid. rewrite <- (Hlen (VArr own' l')). rewrite app_comm_cons, app_assoc, upd_mid, <- app_assoc. reflexivity.
  Qed.

  Lemma remove_loop_ok r : forall d post b e,
    sx (remove_state d r post b e) (remove_loop (S (length (keeps d))) (S (length d)) (flags r)) (remove_state (d ++ r) [] post b e).
  Proof.
    induction r as [|[[|] x] r IH]; intros d post b e.
    - rewrite app_nil_r. apply sx_nil.
    - cbn [map fst remove_loop]. replace (d ++ (true, x) :: r) with ((d ++ [(true, x)]) ++ r) by (rewrite <- app_assoc; reflexivity).
      specialize (IH (d ++ [(true, x)]) post b e).
      assert (Hk : length (keeps (d ++ [(true, x)])) = S (length (keeps d))) by (rewrite keeps_snoc, app_length; cbn; lia).
      rewrite Hk, app_length, Nat.add_1_r in IH.
      eapply sx_app; [|exact IH]. clear IH. pose proof (keeps_le d) as Hle.
      destruct (S (length (keeps d)) =? S (length d)) eqn:He.
      + apply Nat.eqb_eq in He. injection He as He. assert (Hg := keeps_all d He).
        replace (remove_state (d ++ [(true, x)]) r post b e) with (remove_state d ((true, x) :: r) post b e); [apply sx_nil|].
        unfold remove_state. rewrite Hk, keeps_snoc. cbn [fst snd map]. rewrite He. rewrite !skipn_all2 by (rewrite ?app_length; cbn; lia).
        rewrite !firstn_all2 by (rewrite ?app_length; cbn; lia). rewrite gone_snoc, Hg. cbn [fst app map length].
        rewrite map_app, <- app_assoc. reflexivity.
      + apply Nat.eqb_neq in He. assert (Hlt : length (keeps d) < length d) by lia.
        set (k := length (keeps d)) in *. destruct (nth_error d k) as [g|] eqn:Hg; [|apply nth_error_None in Hg; lia].
        assert (Hsk := skipn_nth d k g Hg).
        assert (Hfn : firstn (S k) (d ++ [(true, x)]) = firstn k d ++ [g]).
        { rewrite firstn_app. replace (S k - length d) with 0 by lia. cbn [firstn]. rewrite app_nil_r. now apply firstn_S_nth. }
        assert (Hsk' : skipn (S k) (d ++ [(true, x)]) = skipn (S k) d ++ [(true, x)]).
        { rewrite skipn_app. replace (S k - length d) with 0 by lia. reflexivity. }
        apply sx_one. unfold remove_state. rewrite Hk, Hfn, Hsk', keeps_snoc. fold k. rewrite Hsk. cbn [map fst snd app].
        rewrite app_comm_cons.
        assert (Hl1 : length (VDead :: slots (keeps d)) = S k) by (cbn; rewrite map_length; reflexivity).
        assert (Hpos : S (length d) = length (VDead :: slots (keeps d)) + S (length (map gap (skipn (S k) d)))).
        { rewrite Hl1, map_length, skipn_length. lia. }
        rewrite Hpos. set (pre := VDead :: slots (keeps d)) in *. set (mid := map gap (skipn (S k) d)) in *.
        replace (@OpMoveAssign V (S k)) with (@OpMoveAssign V (length pre)) by (now rewrite Hl1). destruct g as [[|] y].
        * change (gap (true, y)) with (@VArr V false []). change (@hold V x) with (VArr true (map Some x)). rewrite move_far, gone_snoc. cbn [fst app].
          rewrite app_nil_r. cbn [count_live filter length]. rewrite !Nat.add_0_r. do 3 f_equal. unfold pre. cbn [app]. f_equal.
          rewrite !map_app, <- !app_assoc. reflexivity.
        * change (gap (false, y)) with (VArr true (map Some y)). change (@hold V x) with (VArr true (map Some x)). rewrite move_far, gone_snoc. cbn [fst snd].
          rewrite total_snoc, app_length. cbn [length]. rewrite count_live_map, !Nat.add_assoc. do 3 f_equal. unfold pre. cbn [app]. f_equal.
          rewrite !map_app, <- !app_assoc. reflexivity.
    - cbn [map fst remove_loop]. replace (d ++ (false, x) :: r) with ((d ++ [(false, x)]) ++ r) by (rewrite <- app_assoc; reflexivity).
      specialize (IH (d ++ [(false, x)]) post b e). rewrite keeps_snoc in IH. cbn [fst] in IH. rewrite app_nil_r in IH.
      rewrite app_length, Nat.add_1_r in IH. pose proof (keeps_le d) as Hle.
      replace (remove_state d ((false, x) :: r) post b e) with (remove_state (d ++ [(false, x)]) r post b e); [exact IH|].
      unfold remove_state. rewrite keeps_snoc. cbn [fst]. rewrite app_nil_r. rewrite skipn_app, firstn_app.
      replace (length (keeps d) - length d) with 0 by lia. cbn [skipn firstn]. rewrite app_nil_r, map_app, <- app_assoc. reflexivity.
  Qed.

  Lemma destroy_slots t : forall l1 l2 b e, Forall (fun x => exists own vs, x = VArr own (map Some vs)) t ->
    sx (mkVst (l1 ++ t ++ l2) b e) (map OpDestroy (seq (length l1) (length t))) (mkVst (l1 ++ repeat VDead (length t) ++ l2) b e).
  Proof.
    induction t as [|x t IH]; intros l1 l2 b e Ht; [apply sx_nil|].
    inversion_clear Ht as [|? ? [own [vs ->]] Hr]. cbn [length seq map app repeat]. eapply sx_cons; [apply destroy_mid|].
    specialize (IH (l1 ++ [VDead]) l2 b e Hr). rewrite app_length in IH. cbn [length] in IH. rewrite Nat.add_1_r in IH.
    rewrite <- !app_assoc in IH. exact IH.
  Qed.
  Lemma slots_arrays l : Forall (fun x : vslot V => exists own vs, x = VArr own (map Some vs)) (slots l).
  Proof. induction l; cbn; constructor; [unfold hold; eauto|assumption]. Qed.
  Lemma gaps_arrays d : Forall (fun x : vslot V => exists own vs, x = VArr own (map Some vs)) (map gap d).
  Proof.
    induction d as [|[[|] x] d IH]; cbn; constructor; try assumption; unfold gap; cbn; [exists false, []; reflexivity|unfold hold; eauto].
  Qed.

  Lemma flagged_true keep l : length keep = length l -> flagged true keep l = keeps (combine keep l).
  Proof.
    unfold keeps. revert l. induction keep as [|k keep IH]; intros [|x l]; cbn; try discriminate; [reflexivity|]. intros [= H].
    destruct k; cbn; [f_equal|]; apply IH; exact H.
  Qed.
  Lemma flagged_false keep l : flagged false keep l = gone (combine keep l).
  Proof.
    unfold gone. revert l. induction keep as [|k keep IH]; intros [|x l]; cbn; try reflexivity. destruct k; cbn; [|f_equal]; apply IH.
  Qed.
  Lemma kept_keeps keep l : length keep = length l -> kept keep = length (keeps (combine keep l)).
  Proof.
    unfold keeps, kept. rewrite map_length. revert l. induction keep as [|k keep IH]; intros [|x l]; cbn; try discriminate; [reflexivity|]. intros [= H].
    destruct k; cbn; [f_equal|]; apply IH; exact H.
  Qed.
  Lemma combine_flags {A B} (l : list A) (l' : list B) : length l = length l' -> map fst (combine l l') = l /\ map snd (combine l l') = l'.
  Proof.
    revert l'. induction l as [|x l IH]; intros [|y l']; cbn; try discriminate; [auto|]. intros [= H]. destruct (IH l' H) as [H1 H2].
    rewrite H1, H2. auto.
  Qed.
  Lemma firstn_combine {A B} k (l : list A) (l' : list B) : firstn k (combine l l') = combine (firstn k l) l'.
  Proof. revert l l'. induction k as [|k IH]; intros [|x l] [|y l']; cbn; try reflexivity. f_equal. apply IH. Qed.
  Lemma remove_ok N l keep b e : length l <= N -> length keep = length l ->
    let g := flagged false (firstn (length (flagged true keep l)) keep) l in
    sx (lst N l b e) (program (length l) (LRemove keep)) (lst N (flagged true keep l) (b + length g) (e + total g)).
  Proof.
    intros Hl Hk. cbv zeta. unfold program. rewrite (kept_keeps keep l Hk), (flagged_true keep l Hk), flagged_false, <- firstn_combine.
    set (d := combine keep l). set (k := length (keeps d)). destruct (combine_flags keep l Hk) as [Hf He]. fold d in Hf, He.
    assert (Hd : length d = length l) by (unfold d; rewrite combine_length; lia).
    assert (Hle : k <= length d) by apply keeps_le.
    eapply sx_app.
    - pose proof (remove_loop_ok d [] (repeat VDead (N - length l)) b e) as H. cbn [keeps map length app filter] in H.
      change (length (keeps [])) with 0 in H. rewrite Hf in H. unfold remove_state at 1 in H. cbn [keeps gone map filter fst snd length firstn skipn app] in H.
      change (total []) with 0 in H. rewrite !Nat.add_0_r, He in H. exact H.
    - unfold remove_state. fold k. cbn [map app].
      pose proof (destroy_slots (map gap (skipn k d)) (VDead :: slots (keeps d)) (repeat VDead (N - length l)) (b + length (gone (firstn k d)))
        (e + total (gone (firstn k d))) (gaps_arrays _)) as H.
      cbn [length] in H. rewrite !map_length, skipn_length in H. fold k in H. rewrite Hd in H.
      unfold lst. fold k. rewrite <- repeat_app in H. replace (length l - k + (N - length l)) with (N - k) in H by lia. exact H.
  Qed.

  (** ** whole programs *)
  Lemma flagged_in b keep l (x : list V) : In x (flagged b keep l) -> In x l.
  Proof.
    revert l. induction keep as [|k keep IH]; intros [|y l]; cbn; try tauto. destruct (Bool.eqb k b); cbn; [|eauto]. intros [H|H]; eauto.
  Qed.
  Lemma upd_in {A} (l : list A) i x y : In y (upd i x l) -> y = x \/ In y l.
  Proof.
    revert l. induction i as [|i IH]; intros [|z l]; cbn; try tauto.
    - intros [H|H]; auto.
    - intros [H|H]; auto. destruct (IH _ H); auto.
  Qed.
  Lemma flagged_length b keep (l : list (list V)) : length (flagged b keep l) <= length l.
  Proof. revert l. induction keep as [|k keep IH]; intros [|y l]; cbn; try lia. specialize (IH l). destruct (Bool.eqb k b); cbn; lia. Qed.

  Lemma lstep_ok N l o l' g b e : fitting N l -> lstep sz N l o l' g ->
    sx (lst N l b e) (program (length l) o) (lst N l' (b + length g) (e + total g)) /\ fitting N l' /\ length l' = size_after (length l) o.
  Proof.
    intros [HN Ha] H. assert (Hall : forall x, In x l -> allocatable sz (length x)) by (apply Forall_forall; exact Ha).
    assert (Hnth : forall i x, nth_error l i = Some x -> allocatable sz (length x)) by (intros i x Hi; apply Hall; exact (nth_error_In _ _ Hi)).
    assert (H0 : forall n, n + @length (list V) [] = n) by (intros; apply Nat.add_0_r).
    assert (H0' : forall n, n + @total V [] = n) by (intros; apply Nat.add_0_r).
    assert (H1 : forall n (x : list V), n + total [x] = n + length x) by (intros n x; unfold total; cbn; rewrite app_nil_r; reflexivity).
    destruct H as [vs Hn Hv|i x Hn Hx|l1 x ->|i l1 x l2 -> <-|i l1 l2 vs Hn Hv -> <-|i j x y Hij Hx Hy|i x vs Hx Hv|i j x y Hx Hy|keep Hk];
      unfold fitting; rewrite ?H0, ?H0', ?H1.
    - split; [now apply push_ok|]. split; [|rewrite app_length; cbn; lia]. split; [rewrite app_length; cbn; lia|].
      apply Forall_app. split; [exact Ha|]. constructor; [exact Hv|constructor].
    - split; [apply append_ok; [exact Hn|exact Hx|exact (Hnth _ _ Hx)]|]. split; [|rewrite app_length; cbn; lia].
      split; [rewrite app_length; cbn; lia|]. apply Forall_app. split; [exact Ha|]. constructor; [exact (Hnth _ _ Hx)|constructor].
    - split; [now apply pop_ok|]. apply Forall_app in Ha. rewrite app_length in *. cbn [length] in *. split; [split; [lia|tauto]|cbn; lia].
    - split.
      + pose proof (erase_ok N l1 x l2 b e HN) as He. destruct l2; [exact He|]. rewrite H1. exact He.
      + apply Forall_app in Ha. destruct Ha as [Ha1 Ha2]. inversion_clear Ha2. rewrite !app_length in *. cbn [length] in *.
        split; [split; [lia|apply Forall_app; auto]|cbn; lia].
    - split; [now apply insert_ok|]. apply Forall_app in Ha. destruct Ha as [Ha1 Ha2]. rewrite !app_length in *. cbn [length] in *.
      split; [split; [lia|apply Forall_app; auto]|cbn; lia].
    - split; [now apply swap_ok|]. rewrite !upd_length. split; [split; [exact HN|]|reflexivity]. apply Forall_forall. intros z Hz.
      apply upd_in in Hz. destruct Hz as [->|Hz]; [exact (Hnth _ _ Hx)|]. apply upd_in in Hz. destruct Hz as [->|Hz]; [exact (Hnth _ _ Hy)|auto].
    - split; [now apply set_ok|]. rewrite !upd_length. split; [split; [exact HN|]|reflexivity]. apply Forall_forall. intros z Hz.
      apply upd_in in Hz. destruct Hz as [->|Hz]; [exact Hv|auto].
    - split; [apply (copy_ok N l i j x y); [exact Hx|exact Hy|exact (Hnth _ _ Hy)]|]. rewrite !upd_length. split; [split; [exact HN|]|reflexivity]. apply Forall_forall. intros z Hz.
      apply upd_in in Hz. destruct Hz as [->|Hz]; [exact (Hnth _ _ Hy)|auto].
    - split; [now apply remove_ok|]. split; [|cbn; rewrite (kept_keeps keep l Hk), flagged_true; auto].
      split; [pose proof (flagged_length true keep l); lia|]. apply Forall_forall. intros z Hz. apply flagged_in in Hz. auto.
  Qed.
  Lemma total_app (l l' : list (list V)) : total (l ++ l') = total l + total l'.
  Proof. unfold total. rewrite concat_app, app_length. reflexivity. Qed.
  Lemma lsteps_ok N l os l' g : lsteps sz N l os l' g -> forall b e, fitting N l ->
    sx (lst N l b e) (programs (length l) os) (lst N l' (b + length g) (e + total g)) /\ fitting N l' /\ length l' = fold_left size_after os (length l).
  Proof.
    induction 1 as [l|l o l1 g1 os l2 g2 Ho _ IH]; intros b e Hf.
    - rewrite !Nat.add_0_r. split; [apply sx_nil|]. auto.
    - destruct (lstep_ok N l o l1 g1 b e Hf Ho) as [H1 [H2 H3]]. destruct (IH (b + length g1) (e + total g1) H2) as [H4 [H5 H6]].
      cbn [programs fold_left]. rewrite H3 in *. rewrite app_length, total_app, !Nat.add_assoc. split; [|auto]. eapply sx_app; eassumption.
  Qed.
  Lemma vinit_lst N : vinit (S N) = lst N [] 0 0.
  Proof. unfold vinit, lst. cbn. rewrite Nat.sub_0_r. reflexivity. Qed.
  Lemma destroy_list_ok N l b e : length l <= N -> sx (lst N l b e) (destroy_list (length l)) (lst N [] b e).
  Proof.
    intros H. unfold lst, destroy_list.
    pose proof (destroy_slots (slots l) [VDead] (repeat VDead (N - length l)) b e (slots_arrays l)) as Hd. cbn [length app] in Hd. rewrite !map_length in Hd.
    rewrite <- repeat_app in Hd. replace (length l + (N - length l)) with N in Hd by lia. cbn [map app length]. rewrite Nat.sub_0_r. exact Hd.
  Qed.
End Proofs.

Section Lossless.
  Context {V : Type} (sz : Z).
  Lemma firstn_all_true keep : (exists a b, keep = repeat true a ++ repeat false b) <->
    Forall (fun b => b = true) (firstn (kept keep) keep).
  Proof.
    split.
    - intros [a [b ->]]. unfold kept. assert (H : length (filter (fun b => b) (repeat true a ++ repeat false b)) = a).
      { rewrite filter_app, app_length. induction a; cbn; [induction b; cbn; auto|]. f_equal. exact IHa. }
      rewrite H. rewrite firstn_app, repeat_length, Nat.sub_diag. cbn [firstn]. rewrite app_nil_r. rewrite firstn_all2 by (rewrite repeat_length; lia).
      apply Forall_forall. intros x. apply repeat_spec.
    - induction keep as [|[|] keep IH]; cbn; intros H.
      + exists 0, 0. reflexivity.
      + inversion_clear H. destruct (IH H1) as [a [b ->]]. exists (S a), b. reflexivity.
      + unfold kept in *. cbn in H. destruct (length (filter (fun b => b) keep)) eqn:Hk.
        * exists 0, (S (length keep)). cbn. f_equal. clear -Hk. induction keep as [|[|] keep IH]; cbn in *; [reflexivity|discriminate|]. f_equal. auto.
        * cbn in H. inversion_clear H. discriminate.
  Qed.
  Lemma flagged_nil keep (l : list (list V)) : length keep <= length l -> (flagged false keep l = [] <-> Forall (fun b => b = true) keep).
  Proof.
    revert l. induction keep as [|k keep IH]; intros [|x l] Hl; cbn in *; try lia; try (split; [constructor|reflexivity]).
    destruct k; cbn.
    - rewrite (IH l) by lia. split; [intros H; constructor; [reflexivity|exact H]|intros H; now inversion_clear H].
    - split; [discriminate|]. intros H. inversion_clear H. discriminate.
  Qed.
  Lemma lossless_iff N (l : list (list V)) (o : lop V) l' g : lstep sz N l o l' g -> (g = [] <-> lossless (length l) o).
  Proof.
    intros H. destruct H as [vs Hn Hv|i x Hn Hx|l1 x ->|i l1 x l2 -> <-|i l1 l2 vs Hn Hv -> <-|i j x y Hij Hx Hy|i x vs Hx Hv|i j x y Hx Hy|keep Hk];
      cbn [lossless]; try tauto.
    - rewrite app_length. cbn [length]. destruct l2; cbn [length]; split; intros H; try reflexivity; try lia; discriminate.
    - split; [discriminate|tauto].
    - rewrite firstn_all_true, (kept_keeps keep l Hk), <- (flagged_true keep l Hk). apply flagged_nil.
      rewrite firstn_length. lia.
  Qed.
End Lossless.

Section Theorems.
  Context {V : Type} (sz : Z) (dflt : V) (neq : V -> V -> bool) (eq_dec : forall x y : V, {x = y} + {x <> y}).
  Lemma calm_app (p q : list (op V)) : calm (p ++ q) = calm p ++ calm q.
  Proof. apply map_app. Qed.
  Lemma lists_are_values : (0 < sz)%Z -> (forall x y, neq x y = true <-> x <> y) ->
    forall N os l g, lsteps sz N [] os l g ->
    exists s, run sz dflt neq (calm (programs 0 os)) (init (S N)) = Ret (repeat ODone (length (programs 0 os))) s /\ list_holds s l.
  Proof.
    intros Hsz Hneq N os l g H. destruct (lsteps_ok sz dflt eq_dec N [] os l g H 0 0) as [Hx [[Hl _] _]]; [split; [cbn; lia|constructor]|].
    rewrite <- vinit_lst in Hx. destruct (program_values sz dflt neq eq_dec Hsz Hneq (S N) _ _ _ Hx) as [s [Hr [Hc _]]].
    exists s. split; [exact Hr|]. intros i x Hi. apply (Hc (S i) true). cbn. exact (nth_slots l i x _ Hi).
  Qed.
  Lemma lists_lose : (0 < sz)%Z -> (forall x y, neq x y = true <-> x <> y) ->
    forall N os l g, lsteps sz N [] os l g ->
    let p := programs 0 os ++ destroy_list (final_size os) in
    exists s, run sz dflt neq (calm p) (init (S N)) = Ret (repeat ODone (length p)) s /\
      unreleased s = length g /\ made s = ArrayModel.gone s + total g.
  Proof.
    intros Hsz Hneq N os l g H. destruct (lsteps_ok sz dflt eq_dec N [] os l g H 0 0) as [Hx [[Hl _] Hn]]; [split; [cbn; lia|constructor]|].
    cbv zeta. unfold final_size. cbn [length] in Hn, Hx. rewrite <- Hn.
    pose proof (sx_app _ _ _ _ _ _ _ _ Hx (destroy_list_ok sz dflt eq_dec N l _ _ Hl)) as Hy. rewrite <- vinit_lst in Hy.
    apply (program_balance sz dflt neq eq_dec Hsz Hneq (S N) _ _ _ Hy).
    unfold all_destroyed, lst. cbn. constructor; [reflexivity|]. apply Forall_forall. intros x. apply repeat_spec.
  Qed.
  Lemma push_all N (l : list (list V)) : forall l0, length l0 + length l <= N -> Forall (fun x => allocatable sz (length x)) l ->
    lsteps sz N l0 (map LPush l) (l0 ++ l) [].
  Proof.
    induction l as [|x l IH]; intros l0 Hn Ha; [rewrite app_nil_r; constructor|]. inversion_clear Ha. cbn [length map] in *.
    change (@nil (list V)) with (@nil (list V) ++ []). eapply SMore; [constructor; [lia|assumption]|].
    rewrite (snoc_cons l0 x l). apply IH; [rewrite app_length; cbn; lia|assumption].
  Qed.
  Lemma lsteps_app N l os l1 g1 os' l2 g2 : lsteps sz N l os l1 g1 -> lsteps sz N l1 os' l2 g2 -> @lsteps V sz N l (os ++ os') l2 (g1 ++ g2).
  Proof.
    induction 1 as [l|l o l1' g1' os l1 g1 Ho _ IH]; intros H; [exact H|]. cbn [app]. rewrite <- app_assoc. eapply SMore; [exact Ho|auto].
  Qed.
  Lemma erased_lost : (0 < sz)%Z -> (forall x y, neq x y = true <-> x <> y) ->
    forall l1 x y l2, Forall (fun x => allocatable sz (length x)) (l1 ++ x :: y :: l2) ->
    let l := l1 ++ x :: y :: l2 in
    let os := map LPush l ++ [LErase (length l1)] in
    let p := programs 0 os ++ destroy_list (final_size os) in
    exists s, run sz dflt neq (calm p) (init (S (length l))) = Ret (repeat ODone (length p)) s /\
      unreleased s = 1 /\ made s = ArrayModel.gone s + length x.
  Proof.
    intros Hsz Hneq l1 x y l2 Ha. cbv zeta. set (l := l1 ++ x :: y :: l2) in *.
    assert (H : lsteps sz (length l) [] (map LPush l ++ [LErase (length l1)]) (l1 ++ y :: l2) ([] ++ ([x] ++ []))).
    { apply (lsteps_app _ _ _ l).
      - apply (push_all (length l) l []); [cbn; lia|exact Ha].
      - eapply SMore; [exact (SErase sz (length l) l (length l1) l1 x (y :: l2) eq_refl eq_refl)|constructor]. }
    destruct (lists_lose Hsz Hneq _ _ _ _ H) as [s [H1 [H2 H3]]]. exists s. split; [exact H1|]. split; [exact H2|].
    rewrite H3. cbn. rewrite app_nil_r. reflexivity.
  Qed.
  Lemma assigned_lost : (0 < sz)%Z -> (forall x y, neq x y = true <-> x <> y) ->
    forall x vs, allocatable sz (length x) -> allocatable sz (length vs) ->
    let os := [LPush x; LSet 0 vs] in
    let p := programs 0 os ++ destroy_list (final_size os) in
    exists s, run sz dflt neq (calm p) (init 2) = Ret (repeat ODone (length p)) s /\
      unreleased s = 1 /\ made s = ArrayModel.gone s + length x.
  Proof.
    intros Hsz Hneq x vs Hx Hv. cbv zeta.
    assert (H : lsteps sz 1 [] [LPush x; LSet 0 vs] [vs] ([] ++ ([x] ++ []))).
    { eapply SMore; [constructor; [cbn; lia|exact Hx]|]. eapply SMore; [exact (SSet sz 1 ([] ++ [x]) 0 x vs eq_refl Hv)|constructor]. }
    destruct (lists_lose Hsz Hneq _ _ _ _ H) as [s [H1 [H2 H3]]]. exists s. split; [exact H1|]. split; [exact H2|].
    rewrite H3. cbn. rewrite app_nil_r. reflexivity.
  Qed.
End Theorems.
