(** ArrayComplement.v -- complement (array.hpp 249-260): supporting lemmas. *)
From Verif Require Import Base ArrayModel ArraySpec ArrayProofs ArrayStep ArrayThms.
From Coq Require Import Sorted.
Open Scope nat_scope.

Section Compl.
  Notation St := (st nat).

  (** what the loop consumes and produces *)
  Fixpoint left_over (j n : nat) (l : list nat) : list nat :=
    match n with
    | 0 => l
    | S n => match l with
             | x :: l' => if j =? x then left_over (S j) n l' else left_over (S j) n l
             | [] => []
             end
    end.
  Fixpoint absent (j n : nat) (l : list nat) : list nat :=
    match n with
    | 0 => []
    | S n => match l with
             | x :: l' => if j =? x then absent (S j) n l' else j :: absent (S j) n l
             | [] => j :: absent (S j) n []
             end
    end.
  Lemma left_over_nil j n : left_over j n [] = [].
  Proof. destruct n; reflexivity. Qed.
  Lemma absent_length j n l : length (absent j n l) + length l = n + length (left_over j n l).
  Proof.
    revert j l. induction n as [|n IH]; intros j l; cbn [absent left_over]; [reflexivity|].
    destruct l as [|x l].
    - specialize (IH (S j) []). rewrite left_over_nil in IH. cbn [length] in *. lia.
    - destruct (j =? x).
      + specialize (IH (S j) l). cbn [length] in *. lia.
      + specialize (IH (S j) (x :: l)). cbn [length] in *. lia.
  Qed.
  Lemma left_over_empty j n l : left_over j n l = [] <-> StronglySorted lt l /\ Forall (fun x => j <= x < j + n) l.
  Proof.
    revert j l. induction n as [|n IH]; intros j l; cbn [left_over].
    - split.
      + intros ->. repeat constructor.
      + intros [_ H]. destruct l as [|x l]; [reflexivity|]. inversion H; subst. lia.
    - destruct l as [|x l]; [split; [repeat constructor|reflexivity]|].
      destruct (Nat.eqb_spec j x) as [->|Hne].
      + rewrite IH. split.
        * intros [H1 H2]. split; constructor; auto.
          -- eapply Forall_impl; [|exact H2]. cbn. intros; lia.
          -- lia.
          -- eapply Forall_impl; [|exact H2]. cbn. intros; lia.
        * intros [H1 H2]. inversion H1; subst. inversion H2; subst. split; [assumption|].
          rewrite Forall_forall in *. intros y Hy. specialize (H4 y Hy). specialize (H6 y Hy). lia.
      + rewrite IH. split.
        * intros [H1 H2]. split; [exact H1|]. eapply Forall_impl; [|exact H2]. cbn. intros; lia.
        * intros [H1 H2]. split; [exact H1|]. inversion H1; subst. inversion H2; subst. constructor; [lia|].
          rewrite Forall_forall in *. intros y Hy. specialize (H4 y Hy). specialize (H6 y Hy). lia.
  Qed.
  Lemma absent_bounds j n l : Forall (fun x => j <= x) (absent j n l).
  Proof.
    revert j l. induction n as [|n IH]; intros j l; cbn [absent]; [constructor|].
    assert (forall k, Forall (fun x => j <= x) (absent (S j) n k)) as H.
    { intros k. eapply Forall_impl; [|apply IH]. cbn. intros; lia. }
    destruct l as [|x l]; [constructor; auto|]. destruct (j =? x); [apply H|constructor; auto].
  Qed.
  Lemma absent_sorted j n l : StronglySorted lt (absent j n l).
  Proof.
    revert j l. induction n as [|n IH]; intros j l; cbn [absent]; [constructor|].
    assert (forall k, Forall (lt j) (absent (S j) n k)) as H by (intros k; exact (absent_bounds (S j) n k)).
    destruct l as [|x l]; [constructor; auto|]. destruct (j =? x); [apply IH|constructor; auto].
  Qed.
  Lemma absent_in j n l : StronglySorted lt l -> Forall (fun x => j <= x) l -> forall y, In y (absent j n l) <-> j <= y < j + n /\ ~ In y l.
  Proof.
    revert j l. induction n as [|n IH]; intros j l Hs Hb y; cbn [absent].
    - split; [intros []|]. lia.
    - destruct l as [|x l].
      + cbn [In]. rewrite IH by constructor. split.
        * intros [->|[H1 H2]]; split; auto; lia.
        * intros [H1 H2]. destruct (Nat.eq_dec j y); [auto|right]. split; [lia|auto].
      + inversion Hs; subst. inversion Hb; subst. destruct (Nat.eqb_spec j x) as [->|Hne].
        * rewrite IH by assumption. cbn [In]. split.
          -- intros [E1 E2]. split; [lia|]. intros [->|E]; [lia|auto].
          -- intros [E1 E2]. split; [|auto]. assert (x <> y) by auto. lia.
        * cbn [In]. rewrite IH.
          -- cbn [In]. split.
             ++ intros [->|[E1 E2]]; split; auto; [lia| |lia]. intros [->|E]; [contradiction|].
                rewrite Forall_forall in H2. specialize (H2 y E). lia.
             ++ intros [E1 E2]. destruct (Nat.eq_dec j y); [auto|right]. split; [lia|auto].
          -- exact Hs.
          -- constructor; [lia|]. rewrite Forall_forall in H2. apply Forall_forall. intros z Hz. specialize (H2 z Hz). lia.
  Qed.

  Lemma map_upd A B (f : A -> B) i x l : map f (upd i x l) = upd i (f x) (map f l).
  Proof. revert i. induction l as [|h l IH]; intros [|i]; cbn [map upd]; auto. f_equal. apply IH. Qed.
  Lemma set_block (s : St) d i x w b bytes : nth_error (vars s) d = Some (Arr (length w) (Some b)) ->
    nth_error (heap s) b = Some (mkBlk bytes (map Some w) false) -> cd s = None ->
    a_set d i (AVal x) s =
    if i <? length w then Ret tt (mkSt (vars s) (upd b (mkBlk bytes (map Some (upd i x w)) false) (heap s)) (made s) (gone s) None)
    else Ub UbOutOfBounds.
  Proof.
    intros Hv Hb Hn. unfold a_set, bind at 1 2. cbn [bind_arg]. unfold ret at 1. unfold elem_ref, bind at 1. unfold bind at 1.
    rewrite (get_ok _ _ _ _ Hv). cbn [fst snd]. unfold bind at 1, block. rewrite Hb. cbn [b_freed]. unfold bind at 1, cell. cbn [snd b_cells].
    destruct (Nat.ltb_spec i (length w)) as [Hi|Hi].
    - destruct (nth_error w i) as [y|] eqn:Hy; [|apply nth_error_None in Hy; lia].
      rewrite nth_error_map, Hy. cbn [option_map]. unfold ret, bind. cbn [read_ref fst snd]. unfold ret.
      pose proof (put_ok false s b bytes (map Some w) i x (Some y) Hb ltac:(rewrite nth_error_map, Hy; reflexivity) ltac:(discriminate)) as E.
      cbn [put] in E. rewrite E, Hn. rewrite Nat.add_0_r, map_upd. reflexivity.
    - rewrite (proj2 (nth_error_None _ _)) by (rewrite map_length; exact Hi). reflexivity.
  Qed.
  Lemma get_block (s : St) v i x l q : nth_error (vars s) v = Some (Arr (length l) q) -> pointee (heap s) (map Some l) q ->
    nth_error l i = Some x -> a_get v i s = Ret x s.
  Proof.
    intros Hv [[-> E]|(b & bytes & -> & Hb)] Hi; [destruct l; [destruct i|]; discriminate|].
    assert (nth_error (map Some l) i = Some (Some x)) as Hi' by (rewrite nth_error_map, Hi; reflexivity).
    unfold a_get, bind. rewrite (elem_ref_ok s v i _ b _ (Some x) Hv Hb eq_refl Hi'). cbn [fst snd]. eapply load_ok; [exact Hb|reflexivity|exact Hi'].
  Qed.
  Lemma skipn_nth A (l : list A) k : nth_error l k = match skipn k l with x :: _ => Some x | [] => None end.
  Proof. revert k. induction l as [|h l IH]; intros [|k]; cbn [nth_error skipn]; auto. Qed.
  Lemma skipn_S A (l : list A) k x r : skipn k l = x :: r -> skipn (S k) l = r.
  Proof.
    revert k. induction l as [|h l IH]; intros [|k] H; cbn [skipn] in *; try discriminate; [injection H; auto|]. apply IH. exact H.
  Qed.
  Lemma firstn_upd_S A k (x : A) l : k < length l -> firstn (S k) (upd k x l) = firstn k l ++ [x].
  Proof.
    revert k. induction l as [|h l IH]; intros [|k] H; cbn [length] in H; try lia; cbn [upd firstn app]; [reflexivity|].
    f_equal. apply IH. lia.
  Qed.
  Lemma skipn_upd A k m (x : A) l : k < m -> skipn m (upd k x l) = skipn m l.
  Proof.
    revert k m. induction l as [|h l IH]; intros [|k] [|m] H; try lia; cbn [upd skipn]; auto. apply IH. lia.
  Qed.
  Lemma complement_loop_exact d v q l b bytes n : forall j kr kv w (s : St),
    nth_error (vars s) d = Some (Arr (length w) (Some b)) -> nth_error (heap s) b = Some (mkBlk bytes (map Some w) false) -> cd s = None ->
    nth_error (vars s) v = Some (Arr (length l) q) -> pointee (heap s) (map Some l) q -> q <> Some b -> kr <= length w -> kv <= length l ->
    complement_loop d v j n kr kv s =
    if kr + length (absent j n (skipn kv l)) <=? length w
    then Ret tt (mkSt (vars s) (upd b (mkBlk bytes (map Some (firstn kr w ++ absent j n (skipn kv l) ++ skipn (kr + length (absent j n (skipn kv l))) w)) false) (heap s))
                      (made s) (gone s) None)
    else Ub UbOutOfBounds.
  Proof.
    induction n as [|n IH]; intros j kr kv w s Hd Hb Hn Hv Hp Hq Hkr Hkv; cbn [complement_loop].
    - cbn [absent length]. rewrite Nat.add_0_r. rewrite (proj2 (Nat.leb_le _ _) Hkr). cbn [app]. rewrite firstn_skipn.
      rewrite upd_same by exact Hb. rewrite <- Hn. destruct s; reflexivity.
    - unfold bind at 1. unfold a_len, bind at 1. rewrite (get_ok _ _ _ _ Hv). cbn [fst]. unfold ret at 1.
      (* the test *)
      assert ((if kv =? length l then ret false else (x <- a_get v kv ;; ret (j =? x))%M) s =
              Ret (match skipn kv l with x :: _ => j =? x | [] => false end) s) as Ht.
      { pose proof (skipn_nth _ l kv) as E. destruct (Nat.eqb_spec kv (length l)) as [->|Hne].
        - rewrite skipn_all. reflexivity.
        - destruct (skipn kv l) as [|x r]; [apply nth_error_None in E; lia|].
          unfold bind. rewrite (get_block s v kv x l q Hv Hp E). reflexivity. }
      unfold bind at 1. rewrite Ht.
      assert (forall ks, kr < length w ->
        (a_set d kr (AVal j) ;;; complement_loop d v (S j) n (S kr) kv)%M s =
        complement_loop d v (S j) n (S kr) kv (mkSt (vars s) (upd b (mkBlk bytes (map Some (upd kr j w)) false) (heap s)) (made s) (gone s) None)
        /\ (absent (S j) n (skipn kv l) = ks ->
        complement_loop d v (S j) n (S kr) kv (mkSt (vars s) (upd b (mkBlk bytes (map Some (upd kr j w)) false) (heap s)) (made s) (gone s) None) =
        if S kr + length ks <=? length w
        then Ret tt (mkSt (vars s) (upd b (mkBlk bytes (map Some (firstn kr w ++ (j :: ks) ++ skipn (kr + S (length ks)) w)) false) (heap s)) (made s) (gone s) None)
        else Ub UbOutOfBounds)) as Hset.
      { intros ks Hlt. split.
        - unfold bind. rewrite (set_block s d kr j w b bytes Hd Hb Hn). rewrite (proj2 (Nat.ltb_lt _ _) Hlt). reflexivity.
        - intros Hks.
          rewrite (IH (S j) (S kr) kv (upd kr j w)); cbn [vars heap made gone cd].
          + rewrite Hks, upd_length. destruct (Nat.leb_spec (S kr + length ks) (length w)) as [Hle|]; [|reflexivity].
            rewrite upd_upd. do 5 f_equal. rewrite firstn_upd_S, skipn_upd by lia. rewrite <- app_assoc. cbn [app]. do 4 f_equal. lia.
          + rewrite upd_length. exact Hd.
          + apply nth_error_upd_eq. exact (nth_error_lt _ _ _ Hb).
          + reflexivity.
          + exact Hv.
          + destruct Hp as [E|(c & by' & -> & Hc)]; [left; exact E|right]. exists c, by'. split; [reflexivity|].
            rewrite nth_error_upd_neq by congruence. exact Hc.
          + exact Hq.
          + rewrite upd_length. lia.
          + exact Hkv. }
      assert (length w <= kr -> (a_set d kr (AVal j) ;;; complement_loop d v (S j) n (S kr) kv)%M s = Ub UbOutOfBounds) as Hfull.
      { intros Hge. unfold bind. rewrite (set_block s d kr j w b bytes Hd Hb Hn). rewrite (proj2 (Nat.ltb_ge _ _) Hge). reflexivity. }
      cbn [absent]. destruct (skipn kv l) as [|x r] eqn:Es.
      + destruct (Nat.lt_ge_cases kr (length w)) as [Hlt|Hge].
        * destruct (Hset (absent (S j) n []) Hlt) as [E1 E2]. rewrite E1, E2 by reflexivity. cbn [length]. rewrite Nat.add_succ_r. reflexivity.
        * rewrite (Hfull Hge). cbn [length]. rewrite (proj2 (Nat.leb_gt _ _)) by lia. reflexivity.
      + destruct (Nat.eqb_spec j x) as [->|Hne].
        * rewrite (IH (S x) kr (S kv) w s Hd Hb Hn Hv Hp Hq Hkr).
          -- rewrite (skipn_S _ _ _ _ _ Es). reflexivity.
          -- pose proof (skipn_nth _ l kv) as E. rewrite Es in E. exact (nth_error_lt _ _ _ E).
        * destruct (Nat.lt_ge_cases kr (length w)) as [Hlt|Hge].
          -- destruct (Hset (absent (S j) n (x :: r)) Hlt) as [E1 E2]. rewrite E1, E2 by reflexivity. cbn [length]. rewrite Nat.add_succ_r. reflexivity.
          -- rewrite (Hfull Hge). cbn [length]. rewrite (proj2 (Nat.leb_gt _ _)) by lia. reflexivity.
  Qed.

  Lemma complement_exact (s : St) d v l nmax : new_var s d -> holds s v l -> no_failure s -> fits 8 nmax -> fits 8 (length l) ->
    if length (left_over 0 nmax l) =? 0
    then exists s', complement d nmax v s = Ret tt s' /\ holds s' d (absent 0 nmax l) /\ others_kept s s' d
    else exists r, complement d nmax v s = r /\ (r = Ub UbOutOfBounds \/ exists s', r = Exc EBadAlloc s').
  Proof.
    intros Hd Hl Hn Hf Hfl. destruct (holds_inv _ _ _ Hl) as (q & Hv & Hp).
    pose proof (absent_length 0 nmax l) as Hlen.
    assert (complement d nmax v s =
      (a_size 8 0 d (Z.to_nat (wrap64 (Z.of_nat nmax - Z.of_nat (length l)))) ;;; complement_loop d v 0 nmax 0 0)%M s) as ->.
    { unfold complement, bind at 1. unfold a_len, bind at 1. rewrite (get_ok _ _ _ _ Hv). reflexivity. }
    destruct (Nat.le_gt_cases (length l) nmax) as [Hle|Hgt].
    - assert (Z.to_nat (wrap64 (Z.of_nat nmax - Z.of_nat (length l))) = nmax - length l) as ->.
      { rewrite <- Nat2Z.inj_sub by lia. rewrite wrap64_small; [apply Nat2Z.id|]. unfold fits in *. lia. }
      assert (fits 8 (nmax - length l)) as Hf' by (unfold fits in *; lia).
      pose proof (constructs_exact 8 0 Nat.eqb ltac:(lia) s d (OpSize d (nmax - length l)) (repeat 0 (nmax - length l)) Hd (CSize 0 s d _)) as Hb.
      rewrite repeat_length in Hb. specialize (Hb (fits_sane 8 _ Hf')). unfold built in Hb. rewrite repeat_length, Hn, (try_ok 8 _ Hf') in Hb.
      cbn [exec_op] in Hb. unfold done, bind, ret in Hb. unfold bind.
      destruct (a_size 8 0 d (nmax - length l) s) as [u s1| | | |]; try discriminate. injection Hb as ->.
      match goal with |- context [complement_loop _ _ _ _ _ _ ?z] => set (s1 := z) end.
      assert (nth_error (vars s1) d = Some (Arr (length (repeat 0 (nmax - length l))) (Some (length (heap s))))) as Hd1.
      { rewrite repeat_length. apply nth_error_upd_eq. exact (nth_error_lt _ _ _ Hd). }
      assert (d <> v) as Hdv by (intros ->; unfold new_var in Hd; congruence).
      rewrite (complement_loop_exact d v q l (length (heap s)) (Z.of_nat (nmax - length l) * 8)%Z nmax 0 0 0 (repeat 0 (nmax - length l)) s1 Hd1).
      + cbn [skipn Nat.add firstn app]. rewrite repeat_length.
        destruct (Nat.eqb_spec (length (left_over 0 nmax l)) 0) as [E|E].
        * rewrite (proj2 (Nat.leb_le _ _)) by lia. eexists. split; [reflexivity|]. split.
          -- rewrite (skipn_all2 (repeat 0 (nmax - length l))) by (rewrite repeat_length; lia). rewrite app_nil_r.
             eapply holds_intro; [cbn [vars]; exact Hd1|rewrite repeat_length; lia|].
             right. do 2 eexists. split; [reflexivity|]. cbn [heap]. apply nth_error_upd_eq. unfold s1. cbn [heap]. rewrite app_length. cbn [length]. lia.
          -- intros c k Hc Hk. eapply contents_frame; [exact Hk|unfold s1; cbn [vars]; apply nth_error_upd_neq; congruence|].
             intros n b Hb Hlt. cbn [heap]. rewrite nth_error_upd_neq by lia. unfold s1. cbn [heap]. apply nth_error_snoc_old. exact Hlt.
        * rewrite (proj2 (Nat.leb_gt _ _)) by lia. eexists. split; [reflexivity|]. left. reflexivity.
      + unfold s1. cbn [heap]. rewrite nth_error_app_mid. reflexivity.
      + unfold s1. cbn [cd]. rewrite Hn. reflexivity.
      + unfold s1. cbn [vars]. rewrite nth_error_upd_neq by congruence. exact Hv.
      + destruct Hp as [E|(c & bytes & -> & Hc)]; [left; exact E|right]. exists c, bytes. split; [reflexivity|].
        unfold s1. cbn [heap]. rewrite nth_error_snoc_old by exact (nth_error_lt _ _ _ Hc). exact Hc.
      + intros ->. apply pointee_lt in Hp. lia.
      + lia.
      + lia.
    - destruct (Nat.eqb_spec (length (left_over 0 nmax l)) 0) as [E|_]; [lia|].
      eexists. split; [reflexivity|]. right. unfold bind. unfold a_size, bind. rewrite (fresh_ok _ _ Hd). unfold a_build, bind, uninitialized_new, bind, event.
      rewrite Hn. unfold bytes_for.
      assert (wrap64 (Z.of_nat nmax - Z.of_nat (length l)) = 2 ^ 64 - Z.of_nat (length l - nmax))%Z as ->.
      { unfold wrap64, fits in *. rewrite <- (Z.mod_add _ 1) by lia. rewrite Z.mod_small; lia. }
      rewrite Z2Nat.id by (unfold fits in *; lia).
      assert (wrap64 ((2 ^ 64 - Z.of_nat (length l - nmax)) * 8) = 2 ^ 64 - 8 * Z.of_nat (length l - nmax))%Z as ->.
      { unfold wrap64, fits in *. rewrite <- (Z.mod_add _ (-7)) by lia. rewrite Z.mod_small; lia. }
      rewrite (proj2 (Z.leb_le _ _)) by (unfold fits in *; lia). eexists. reflexivity.
  Qed.
  Lemma left_over_ok nmax l : length (left_over 0 nmax l) = 0 <-> increasing_below nmax l.
  Proof.
    unfold increasing_below. rewrite length_zero_iff_nil, left_over_empty. split; intros [H1 H2]; (split; [exact H1|]);
      (eapply Forall_impl; [|exact H2]); cbn; intros; lia.
  Qed.
  Lemma complement_missing (s : St) d v l nmax : new_var s d -> holds s v l -> no_failure s -> fits 8 nmax -> increasing_below nmax l ->
    exists s' r, complement d nmax v s = Ret tt s' /\ holds s' d r /\ StronglySorted lt r /\
      (forall j, In j r <-> j < nmax /\ ~ In j l) /\ others_kept s s' d.
  Proof.
    intros Hd Hl Hn Hf Hi.
    assert (fits 8 (length l)) as Hfl.
    { pose proof (absent_length 0 nmax l). apply left_over_ok in Hi. unfold fits in *. lia. }
    pose proof (complement_exact s d v l nmax Hd Hl Hn Hf Hfl) as H. rewrite (proj2 (left_over_ok _ _) Hi) in H. cbn [Nat.eqb] in H.
    destruct H as (s' & H1 & H2 & H3). exists s', (absent 0 nmax l). split; [exact H1|]. split; [exact H2|]. split; [apply absent_sorted|]. split; [|exact H3].
    intros j. destruct Hi as [Hs Hb]. rewrite absent_in; [|exact Hs|apply Forall_forall; intros; lia]. split; intros [E1 E2]; (split; [lia|exact E2]).
  Qed.
  Lemma complement_otherwise (s : St) d v l nmax : new_var s d -> holds s v l -> no_failure s -> fits 8 nmax -> fits 8 (length l) -> ~ increasing_below nmax l ->
    complement d nmax v s = Ub UbOutOfBounds \/ exists s', complement d nmax v s = Exc EBadAlloc s'.
  Proof.
    intros Hd Hl Hn Hf Hfl Hi. pose proof (complement_exact s d v l nmax Hd Hl Hn Hf Hfl) as H.
    destruct (Nat.eqb_spec (length (left_over 0 nmax l)) 0) as [E|E]; [apply left_over_ok in E; contradiction|].
    destruct H as (r & -> & H). exact H.
  Qed.
End Compl.

(** ** taken twice *)
Lemma sorted_same l : forall r, StronglySorted lt l -> StronglySorted lt r -> (forall j, In j l <-> In j r) -> l = r.
Proof.
  induction l as [|x l IH]; intros r Hl Hr H.
  - destruct r as [|y r]; [reflexivity|]. destruct (proj2 (H y)). left. reflexivity.
  - destruct r as [|y r]; [destruct (proj1 (H x)); left; reflexivity|].
    inversion Hl as [|? ? Sl Fl]; inversion Hr as [|? ? Sr Fr]; subst. rewrite Forall_forall in Fl, Fr.
    assert (x = y).
    { destruct (proj1 (H x) (or_introl eq_refl)) as [E|E]; [auto|]. destruct (proj2 (H y) (or_introl eq_refl)) as [E'|E']; [auto|].
      specialize (Fr x E). specialize (Fl y E'). lia. }
    subst y. f_equal. apply IH; [exact Sl|exact Sr|]. intros j. specialize (H j). cbn in H.
    split; intros J; [specialize (Fl j J)|specialize (Fr j J)]; [destruct (proj1 H (or_intror J))|destruct (proj2 H (or_intror J))]; auto; lia.
Qed.
Lemma complement_twice (s1 s1' s2 : st nat) d1 v1 d2 v2 l r nmax :
  new_var s1 d1 -> holds s1 v1 l -> no_failure s1 -> allocatable 8 nmax -> increasing_below nmax l ->
  complement d1 nmax v1 s1 = Ret tt s1' -> holds s1' d1 r ->
  new_var s2 d2 -> holds s2 v2 r -> no_failure s2 ->
  exists s2', complement d2 nmax v2 s2 = Ret tt s2' /\ holds s2' d2 l.
Proof.
  intros N1 H1 F1 A [I1 I2] C1 R1 N2 H2 F2. destruct (complement_missing s1 d1 v1 l nmax N1 H1 F1 A (conj I1 I2)) as (s1'' & r' & C1' & R1' & S & M & _).
  rewrite C1 in C1'. injection C1' as <-. assert (r' = r).
  { unfold holds in R1, R1'. rewrite R1 in R1'. injection R1' as E. clear -E. revert r' E. induction r as [|x r IH]; intros [|y r'] E; cbn in E; try discriminate; [reflexivity|].
    injection E as -> E. f_equal. now apply IH. }
  subst r'. assert (I : increasing_below nmax r) by (split; [exact S|]; apply Forall_forall; intros j J; now apply M).
  destruct (complement_missing s2 d2 v2 r nmax N2 H2 F2 A I) as (s2' & l' & C2 & R2 & S2 & M2 & _). exists s2'. split; [exact C2|].
  replace l with l'; [exact R2|]. apply sorted_same; [exact S2|exact I1|]. intros j. rewrite M2, M. rewrite Forall_forall in I2. specialize (I2 j). split.
  - intros [J K]. destruct (in_dec Nat.eq_dec j l) as [L|L]; [exact L|]. destruct K. auto.
  - intros L. split; [auto|]. intros [_ K]. contradiction.
Qed.
