(** HandleProofs.v -- lemmas about HandleModel. *)
From Verif Require Import Base HandleModel HandleSpec.
Local Open Scope monad_scope.

Lemma slot_eq_dec (x y : slot) : {x = y} + {x <> y}.
Proof. decide equality. apply Nat.eq_dec. Defined.
Definition occ (a : nat) (l : list slot) : nat := count_occ slot_eq_dec l (Ptr a).
Definition one (a : nat) (sl : slot) : nat := if slot_eq_dec sl (Ptr a) then 1 else 0.

Lemma occ_cons a sl l : occ a (sl :: l) = one a sl + occ a l.
Proof. unfold occ, one. simpl. destruct (slot_eq_dec sl (Ptr a)); reflexivity. Qed.
Lemma occ_app a l1 l2 : occ a (l1 ++ l2) = occ a l1 + occ a l2.
Proof. unfold occ. apply count_occ_app. Qed.
Lemma occ_upd a i sl old l : nth_error l i = Some old -> occ a (upd i sl l) + one a old = occ a l + one a sl.
Proof.
  revert i; induction l as [|x l IH]; intros [|i] Hn; simpl in Hn; try discriminate.
  - injection Hn as <-. simpl. rewrite !occ_cons. lia.
  - simpl. rewrite !occ_cons. specialize (IH _ Hn). lia.
Qed.
Lemma one_eq a : one a (Ptr a) = 1.
Proof. unfold one. destruct (slot_eq_dec _ _); congruence. Qed.
Lemma one_neq a sl : sl <> Ptr a -> one a sl = 0.
Proof. unfold one. destruct (slot_eq_dec _ _); congruence. Qed.
Lemma occ_in a l : In (Ptr a) l <-> 0 < occ a l.
Proof. unfold occ. apply count_occ_In. Qed.
Lemma occ_repeat a n : occ a (repeat Dead n) = 0.
Proof. induction n as [|n IH]; simpl; [reflexivity|]. rewrite occ_cons, IH, one_neq by discriminate. reflexivity. Qed.

Section Proofs.
  Context {V Ty : Type} (clone : V -> V) (dyn : V -> Ty)
          (subobjs : Ty -> Ty -> list nat) (wrapper : Ty -> Ty) (inner : Ty -> nat).
  Notation hst := (hst V).
  Notation cell := (cell V).
  Notation step := (step clone dyn subobjs wrapper inner).
  Notation hstep := (hstep clone dyn subobjs wrapper inner).
  Notation run := (run clone dyn subobjs wrapper inner).
  Notation reachable := (reachable clone dyn subobjs wrapper inner).
  Notation reads := (reads clone dyn subobjs wrapper inner).

  (** use counts count the owners: the variables and the temporaries [tmp] *)
  Definition cell_ok (tmp : list slot) (vs : list slot) (a : nat) (c : cell) : Prop :=
    c_cnt c = occ a tmp + occ a vs /\ c_live c = negb (Nat.eqb (c_cnt c) 0).
  Record inv (tmp : list slot) (s : hst) : Prop := mkInv {
    inv_cells : forall a c, nth_error (heap s) a = Some c -> cell_ok tmp (vars s) a c;
    inv_ptrs : forall a, 0 < occ a tmp + occ a (vars s) -> a < length (heap s) }.

  Definition val (s : hst) (a : nat) : option V := option_map c_val (nth_error (heap s) a).

  Lemma inv_init n sc : inv [] (@hinit V n sc).
  Proof.
    split; simpl.
    - intros [|a] c; discriminate.
    - intros a H. rewrite occ_repeat in H. simpl in H. lia.
  Qed.

  (** an owned object is alive *)
  Lemma owned_live tmp (s : hst) a : inv tmp s -> 0 < occ a tmp + occ a (vars s) ->
    exists c, nth_error (heap s) a = Some c /\ c_live c = true /\ c_cnt c = occ a tmp + occ a (vars s) /\
              live_cell a s = Ret c s.
  Proof.
    intros [Hc Hp] Ho. specialize (Hp a Ho). destruct (nth_error (heap s) a) as [c|] eqn:Hn.
    - destruct (Hc a c Hn) as [H1 H2]. assert (Hl : c_live c = true).
      { rewrite H2. destruct (Nat.eqb_spec (c_cnt c) 0) as [He|]; [lia|reflexivity]. }
      exists c. repeat split; auto. unfold live_cell. rewrite Hn, Hl. reflexivity.
    - apply nth_error_None in Hn. lia.
  Qed.

  Lemma inv_perm tmp tmp' (s : hst) : (forall a, occ a tmp = occ a tmp') -> inv tmp s -> inv tmp' s.
  Proof.
    intros He [Hc Hp]. split.
    - intros a c Hn. destruct (Hc a c Hn) as [H1 H2]. split; [rewrite <- He; exact H1|exact H2].
    - intros a. rewrite <- He. apply Hp.
  Qed.

  Lemma nth_error_upd_some {A} (l : list A) i x y : nth_error l i = Some y -> nth_error (upd i x l) i = Some x.
  Proof. intros Hn. apply nth_error_upd_eq. apply nth_error_Some. congruence. Qed.

  Lemma val_upd (s : hst) vs rf sc a c c' : nth_error (heap s) a = Some c -> c_val c' = c_val c ->
    forall b, val (mkHst vs (upd a c' (heap s)) sc rf) b = val s b.
  Proof.
    intros Hn Hv b. unfold val. simpl. rewrite nth_error_upd.
    destruct (Nat.eqb_spec a b) as [<-|Hne]; [|reflexivity].
    assert (Hlt : a < length (heap s)) by (apply nth_error_Some; congruence).
    destruct (Nat.ltb_spec a (length (heap s))); [|lia]. rewrite Hn. simpl. congruence.
  Qed.

  Lemma inv_skip tmp sl (s : hst) : (forall a, sl <> Ptr a) -> (inv (sl :: tmp) s <-> inv tmp s).
  Proof.
    intros Hs. split; apply inv_perm; intros a; rewrite occ_cons, one_neq by apply Hs; reflexivity.
  Qed.

  (** same variables, schedule, references and values *)
  Definition same (s s' : hst) : Prop :=
    vars s' = vars s /\ sched s' = sched s /\ refs s' = refs s /\
    length (heap s') = length (heap s) /\ forall b, val s' b = val s b.
  Lemma same_refl s : same s s.
  Proof. repeat split; reflexivity. Qed.

  (** changing the count of one object *)
  Lemma inv_recount tmp tmp' (s : hst) a c c' : inv tmp s -> nth_error (heap s) a = Some c ->
    c_val c' = c_val c -> cell_ok tmp' (vars s) a c' -> (forall b, b <> a -> occ b tmp' = occ b tmp) ->
    inv tmp' (mkHst (vars s) (upd a c' (heap s)) (sched s) (refs s)) /\
    same s (mkHst (vars s) (upd a c' (heap s)) (sched s) (refs s)).
  Proof.
    intros [Hc Hp] Hn Hv Hok Hne. assert (Hlt : a < length (heap s)) by (apply nth_error_Some; congruence). split.
    - split; simpl.
      + intros b x Hb. rewrite nth_error_upd in Hb. destruct (Nat.eqb_spec a b) as [<-|Hab].
        * destruct (Nat.ltb_spec a (length (heap s))); [|lia]. injection Hb as <-. exact Hok.
        * destruct (Hc b x Hb) as [H1 H2]. split; [rewrite Hne by congruence; exact H1|exact H2].
      + intros b Hb. rewrite upd_length. destruct (Nat.eq_dec b a) as [->|Hab]; [exact Hlt|].
        apply Hp. rewrite <- (Hne b Hab). exact Hb.
    - unfold same. simpl. rewrite upd_length. repeat split; auto. intros b. eapply val_upd; eassumption.
  Qed.

  Lemma acquire_ok tmp (s : hst) sl : inv tmp s -> (forall a, sl = Ptr a -> 0 < occ a tmp + occ a (vars s)) ->
    exists s', acquire sl s = Ret tt s' /\ inv (sl :: tmp) s' /\ same s s'.
  Proof.
    intros Hi Ho. destruct sl as [| |a].
    1,2: exists s; split; [reflexivity|]; split; [apply inv_skip; [discriminate|exact Hi]|apply same_refl].
    destruct (owned_live _ _ _ Hi (Ho a eq_refl)) as (c & Hn & Hl & Hcnt & Hlc).
    eexists. split.
    - unfold acquire, bind. rewrite Hlc. unfold set_cell. reflexivity.
    - eapply inv_recount; [exact Hi|exact Hn|reflexivity| |].
      + split; simpl.
        * rewrite occ_cons, one_eq. lia.
        * destruct (Nat.eqb_spec (c_cnt c + 1) 0); [lia|reflexivity].
      + intros b Hb. rewrite occ_cons, one_neq by congruence. reflexivity.
  Qed.
  Lemma release_ok tmp (s : hst) sl : inv (sl :: tmp) s ->
    exists s', release sl s = Ret tt s' /\ inv tmp s' /\ same s s'.
  Proof.
    intros Hi. destruct sl as [| |a].
    1,2: exists s; split; [reflexivity|]; split; [apply inv_skip in Hi; [exact Hi|discriminate]|apply same_refl].
    assert (Ho : 0 < occ a (Ptr a :: tmp) + occ a (vars s)) by (rewrite occ_cons, one_eq; lia).
    destruct (owned_live _ _ _ Hi Ho) as (c & Hn & Hl & Hcnt & Hlc).
    rewrite occ_cons, one_eq in Hcnt. unfold release, bind. rewrite Hlc.
    assert (Hne : forall b, b <> a -> occ b tmp = occ b (Ptr a :: tmp)).
    { intros b Hb. rewrite occ_cons, one_neq by congruence. reflexivity. }
    destruct (c_cnt c) as [|[|n]] eqn:Hc; [lia| |].
    - eexists. split; [reflexivity|]. eapply inv_recount; [exact Hi|exact Hn|reflexivity| |exact Hne].
      split; simpl; [lia|reflexivity].
    - eexists. split; [reflexivity|]. eapply inv_recount; [exact Hi|exact Hn|reflexivity| |exact Hne].
      split; simpl; [lia|reflexivity].
  Qed.
  (** storing a temporary in a variable makes its old content a temporary *)
  Lemma put_slot_ok tmp (s : hst) i sl old : inv (sl :: tmp) s -> nth_error (vars s) i = Some old ->
    inv (old :: tmp) (mkHst (upd i sl (vars s)) (heap s) (sched s) (refs s)).
  Proof.
    intros [Hc Hp] Hn.
    assert (He : forall a, occ a (old :: tmp) + occ a (upd i sl (vars s)) = occ a (sl :: tmp) + occ a (vars s)).
    { intros a. rewrite !occ_cons. pose proof (occ_upd a i sl old _ Hn). lia. }
    split; simpl.
    - intros a c Ha. destruct (Hc a c Ha) as [H1 H2]. split; [rewrite He; exact H1|exact H2].
    - intros a. rewrite He. apply Hp.
  Qed.
  Lemma alloc_ok tmp (s : hst) v : inv tmp s -> hd false (sched s) = false ->
    exists s', alloc v s = Ret (length (heap s)) s' /\ inv (Ptr (length (heap s)) :: tmp) s' /\
      vars s' = vars s /\ sched s' = tl (sched s) /\ refs s' = refs s /\
      length (heap s') = S (length (heap s)) /\
      val s' (length (heap s)) = Some v /\ (forall b, b < length (heap s) -> val s' b = val s b) /\
      nth_error (heap s') (length (heap s)) = Some (mkCell v 1 true).
  Proof.
    intros [Hc Hp] Hsc. exists (mkHst (vars s) (heap s ++ [mkCell v 1 true]) (tl (sched s)) (refs s)). split.
    - unfold alloc. destruct (sched s) as [|[] sc]; [reflexivity|discriminate|reflexivity].
    - simpl. split; [|do 3 (split; [reflexivity|]); split; [|split; [|split]]].
      + assert (Hz : occ (length (heap s)) tmp + occ (length (heap s)) (vars s) = 0).
        { destruct (Nat.eq_dec (occ (length (heap s)) tmp + occ (length (heap s)) (vars s)) 0) as [|Hx]; [assumption|].
          specialize (Hp (length (heap s))). lia. }
        split; simpl.
        * intros a c Ha. destruct (Nat.lt_ge_cases a (length (heap s))) as [Hlt|Hge].
          -- rewrite nth_error_app1 in Ha by exact Hlt. destruct (Hc a c Ha) as [H1 H2]. split; [|exact H2].
             rewrite occ_cons, one_neq by (intros [= He]; lia). exact H1.
          -- rewrite nth_error_app2 in Ha by exact Hge. destruct (a - length (heap s)) as [|k] eqn:Hk; [|destruct k; discriminate].
             injection Ha as <-. assert (a = length (heap s)) by lia. subst a. split; [|reflexivity].
             rewrite occ_cons, one_eq. simpl. lia.
        * intros a Ha. rewrite app_length. simpl. destruct (Nat.eq_dec a (length (heap s))) as [->|Hne]; [lia|].
          rewrite occ_cons, one_neq in Ha by congruence. specialize (Hp a Ha). lia.
      + rewrite app_length. simpl. lia.
      + unfold val. simpl. rewrite nth_error_app2 by lia. rewrite Nat.sub_diag. reflexivity.
      + intros b Hb. unfold val. simpl. rewrite nth_error_app1 by exact Hb. reflexivity.
      + rewrite nth_error_app2 by lia. rewrite Nat.sub_diag. reflexivity.
  Qed.
  Lemma alloc_fail (s : hst) v sc : sched s = true :: sc ->
    alloc v s = Exc EBadAlloc (mkHst (vars s) (heap s) sc (refs s)).
  Proof. intros H. unfold alloc. rewrite H. reflexivity. Qed.

  (** ** Abstraction *)
  Definition aslot (s : hst) (sl : slot) : vslot V :=
    match sl with
    | Dead => VDead
    | Null => VNull
    | Ptr a => match val s a with Some v => VVal v | None => VNull end
    end.
  Definition abs (s : hst) : vst V := mkVst (map (aslot s) (vars s)) (sched s).

  Lemma map_upd {A B} (f : A -> B) i x l : map f (upd i x l) = upd i (f x) (map f l).
  Proof. revert i; induction l as [|y l IH]; intros [|i]; simpl; auto. rewrite IH. reflexivity. Qed.
  Lemma upd_same {A} i (x : A) l : nth_error l i = Some x -> upd i x l = l.
  Proof. revert i; induction l as [|y l IH]; intros [|i] Hn; simpl in *; try discriminate; [congruence|]. rewrite IH by exact Hn. reflexivity. Qed.
  Lemma aslot_same (s s' : hst) sl : same s s' -> aslot s' sl = aslot s sl.
  Proof. intros (_ & _ & _ & _ & Hv). destruct sl; simpl; auto. rewrite Hv. reflexivity. Qed.
  Lemma map_aslot_same (s s' : hst) l : same s s' -> map (aslot s') l = map (aslot s) l.
  Proof. intros H. apply map_ext. intros sl. apply aslot_same. exact H. Qed.
  Lemma abs_same (s s' : hst) : same s s' -> abs s' = abs s.
  Proof.
    intros H. unfold abs. rewrite (map_aslot_same s s') by exact H. destruct H as (H1 & H2 & _). rewrite H1, H2. reflexivity.
  Qed.
  Lemma nth_abs (s : hst) i sl : nth_error (vars s) i = Some sl -> nth_error (store (abs s)) i = Some (aslot s sl).
  Proof. intros H. simpl. rewrite nth_error_map, H. reflexivity. Qed.
  Lemma nth_abs_none (s : hst) i : nth_error (vars s) i = None -> nth_error (store (abs s)) i = None.
  Proof. intros H. simpl. rewrite nth_error_map, H. reflexivity. Qed.
  Lemma in_vars_owned tmp (s : hst) i a : nth_error (vars s) i = Some (Ptr a) -> 0 < occ a tmp + occ a (vars s).
  Proof. intros H. apply nth_error_In in H. apply occ_in in H. lia. Qed.
  Lemma inv_val tmp (s : hst) i a : inv tmp s -> nth_error (vars s) i = Some (Ptr a) ->
    exists c, nth_error (heap s) a = Some c /\ live_cell a s = Ret c s /\ c_live c = true /\ val s a = Some (c_val c).
  Proof.
    intros Hi Hn. destruct (owned_live _ _ _ Hi (in_vars_owned tmp s i a Hn)) as (c & H1 & H2 & H3 & H4).
    exists c. repeat split; auto. unfold val. rewrite H1. reflexivity.
  Qed.
  (** values of owned objects are below the heap's end *)
  Lemma map_aslot_old tmp (s s' : hst) : inv tmp s -> (forall b, b < length (heap s) -> val s' b = val s b) ->
    map (aslot s') (vars s) = map (aslot s) (vars s).
  Proof.
    intros [_ Hp] Hv. apply map_ext_in. intros sl Hin. destruct sl as [| |a]; auto. simpl.
    rewrite Hv; [reflexivity|]. apply Hp. apply occ_in in Hin. lia.
  Qed.

  (** ** Handle operations *)
  Lemma bind_ret {S A B} (m : M S A) (k : A -> M S B) s a s' : m s = Ret a s' -> bind m k s = k a s'.
  Proof. intros E. unfold bind. rewrite E. reflexivity. Qed.
  Lemma bind_exc {S A B} (m : M S A) (k : A -> M S B) s e s' : m s = Exc e s' -> bind m k s = Exc e s'.
  Proof. intros E. unfold bind. rewrite E. reflexivity. Qed.
  Lemma bind_ub {S A B} (m : M S A) (k : A -> M S B) s r : m s = Ub r -> bind m k s = Ub r.
  Proof. intros E. unfold bind. rewrite E. reflexivity. Qed.

  Definition up (s : hst) (i : nat) (sl : slot) : hst := mkHst (upd i sl (vars s)) (heap s) (sched s) (refs s).
  Lemma put_slot_eq i sl (s : hst) : put_slot i sl s = Ret tt (up s i sl).
  Proof. reflexivity. Qed.

  (** same schedule, references and values *)
  Definition same_vals (s s' : hst) : Prop :=
    sched s' = sched s /\ refs s' = refs s /\ length (heap s') = length (heap s) /\ forall b, val s' b = val s b.
  Lemma same_same_vals s s' : same s s' -> same_vals s s'.
  Proof. intros (_ & H). exact H. Qed.
  Lemma same_vals_trans s1 s2 s3 : same_vals s1 s2 -> same_vals s2 s3 -> same_vals s1 s3.
  Proof.
    intros (A1 & A2 & A3 & A4) (B1 & B2 & B3 & B4). repeat split; congruence.
  Qed.
  Lemma up_same_vals s i sl : same_vals s (up s i sl).
  Proof. repeat split; reflexivity. Qed.
  Lemma abs_same_vals s s' vs : same_vals s s' -> vars s' = vs -> abs s' = mkVst (map (aslot s) vs) (sched s).
  Proof.
    intros (H1 & H2 & H3 & H4) <-. unfold abs. rewrite H1. f_equal. apply map_ext. intros [| |a]; simpl; auto.
    rewrite H4. reflexivity.
  Qed.

  Lemma fresh_ok d (s : hst) : nth_error (vars s) d = Some Dead -> fresh_slot d s = Ret tt s.
  Proof. intros E. unfold fresh_slot. rewrite E. reflexivity. Qed.
  Lemma get_ok h (s : hst) sl : nth_error (vars s) h = Some sl -> sl <> Dead -> get_slot h s = Ret sl s.
  Proof. intros E Hd. unfold get_slot. rewrite E. destruct sl; congruence. Qed.

  Lemma h_copy_ok d k (s : hst) sl : inv [] s -> nth_error (vars s) d = Some Dead ->
    nth_error (vars s) k = Some sl -> sl <> Dead ->
    exists s', h_copy d k s = Ret tt s' /\ inv [] s' /\ vars s' = upd d sl (vars s) /\ same_vals s s'.
  Proof.
    intros Hi Hd Hk Hsl.
    assert (Ho : forall a, sl = Ptr a -> 0 < occ a [] + occ a (vars s)).
    { intros a ->. eapply in_vars_owned. exact Hk. }
    destruct (acquire_ok _ _ _ Hi Ho) as (s1 & E1 & Hi1 & Hs1).
    exists (up s1 d sl). split; [|split; [|split]].
    - unfold h_copy. rewrite (bind_ret _ _ _ _ _ (fresh_ok _ _ Hd)), (bind_ret _ _ _ _ _ (get_ok _ _ _ Hk Hsl)),
        (bind_ret _ _ _ _ _ E1). reflexivity.
    - assert (Hd1 : nth_error (vars s1) d = Some Dead) by (destruct Hs1 as (-> & _); exact Hd).
      pose proof (put_slot_ok _ _ _ _ _ Hi1 Hd1) as Hi2. apply inv_skip in Hi2; [exact Hi2|discriminate].
    - simpl. destruct Hs1 as (-> & _). reflexivity.
    - eapply same_vals_trans; [apply same_same_vals; exact Hs1|apply up_same_vals].
  Qed.
  Lemma h_move_ok d k (s : hst) sl : inv [] s -> nth_error (vars s) d = Some Dead ->
    nth_error (vars s) k = Some sl -> sl <> Dead ->
    exists s', h_move d k s = Ret tt s' /\ inv [] s' /\ vars s' = upd d sl (upd k Null (vars s)) /\ same_vals s s'.
  Proof.
    intros Hi Hd Hk Hsl. exists (up (up s k Null) d sl). split; [|split; [|split]].
    - unfold h_move. rewrite (bind_ret _ _ _ _ _ (fresh_ok _ _ Hd)), (bind_ret _ _ _ _ _ (get_ok _ _ _ Hk Hsl)).
      reflexivity.
    - assert (Hi0 : inv [Null] s) by (apply inv_skip; [discriminate|exact Hi]).
      pose proof (put_slot_ok _ _ _ _ _ Hi0 Hk) as Hi1.
      assert (Hd1 : nth_error (vars (up s k Null)) d = Some Dead).
      { simpl. rewrite nth_error_upd_neq; [exact Hd|]. intros ->. congruence. }
      pose proof (put_slot_ok _ (up s k Null) _ _ _ Hi1 Hd1) as Hi2. apply inv_skip in Hi2; [exact Hi2|discriminate].
    - reflexivity.
    - eapply same_vals_trans; apply up_same_vals.
  Qed.
  Lemma h_assign_ok d k (s : hst) sl old : inv [] s -> nth_error (vars s) d = Some old -> old <> Dead ->
    nth_error (vars s) k = Some sl -> sl <> Dead ->
    exists s', h_assign d k s = Ret tt s' /\ inv [] s' /\ vars s' = upd d sl (vars s) /\ same_vals s s'.
  Proof.
    intros Hi Hd Hold Hk Hsl.
    assert (Ho : forall a, sl = Ptr a -> 0 < occ a [] + occ a (vars s)).
    { intros a ->. eapply in_vars_owned. exact Hk. }
    destruct (acquire_ok _ _ _ Hi Ho) as (s1 & E1 & Hi1 & Hs1).
    assert (Hd1 : nth_error (vars s1) d = Some old) by (destruct Hs1 as (-> & _); exact Hd).
    pose proof (put_slot_ok _ _ _ _ _ Hi1 Hd1) as Hi2.
    destruct (release_ok _ _ _ Hi2) as (s3 & E3 & Hi3 & Hs3).
    exists s3. split; [|split; [exact Hi3|split]].
    - unfold h_assign. rewrite (bind_ret _ _ _ _ _ (get_ok _ _ _ Hk Hsl)), (bind_ret _ _ _ _ _ E1),
        (bind_ret _ _ _ _ _ (get_ok _ _ _ Hd1 Hold)), (bind_ret _ _ _ _ _ (put_slot_eq _ _ _)). exact E3.
    - destruct Hs3 as (-> & _). simpl. destruct Hs1 as (-> & _). reflexivity.
    - eapply same_vals_trans; [apply same_same_vals; exact Hs1|].
      eapply same_vals_trans; [apply up_same_vals|apply same_same_vals; exact Hs3].
  Qed.
  Lemma h_move_assign_ok d k (s : hst) sl old : inv [] s -> nth_error (vars s) d = Some old -> old <> Dead ->
    nth_error (vars s) k = Some sl -> sl <> Dead ->
    exists s', h_move_assign d k s = Ret tt s' /\ inv [] s' /\ vars s' = upd d sl (upd k Null (vars s)) /\ same_vals s s'.
  Proof.
    intros Hi Hd Hold Hk Hsl.
    assert (Hi0 : inv [Null] s) by (apply inv_skip; [discriminate|exact Hi]).
    pose proof (put_slot_ok _ _ _ _ _ Hi0 Hk) as Hi1.
    assert (Hd1 : exists old1, nth_error (vars (up s k Null)) d = Some old1 /\ old1 <> Dead).
    { simpl. destruct (Nat.eq_dec k d) as [->|Hne].
      - exists Null. split; [|discriminate]. eapply nth_error_upd_some. exact Hd.
      - exists old. split; [|exact Hold]. rewrite nth_error_upd_neq by exact Hne. exact Hd. }
    destruct Hd1 as (old1 & Hd1 & Hold1).
    pose proof (put_slot_ok _ (up s k Null) _ _ _ Hi1 Hd1) as Hi2.
    destruct (release_ok _ _ _ Hi2) as (s3 & E3 & Hi3 & Hs3).
    exists s3. split; [|split; [exact Hi3|split]].
    - unfold h_move_assign. rewrite (bind_ret _ _ _ _ _ (get_ok _ _ _ Hk Hsl)), (bind_ret _ _ _ _ _ (put_slot_eq _ _ _)),
        (bind_ret _ _ _ _ _ (get_ok _ _ _ Hd1 Hold1)), (bind_ret _ _ _ _ _ (put_slot_eq _ _ _)). exact E3.
    - destruct Hs3 as (-> & _). reflexivity.
    - eapply same_vals_trans; [|apply same_same_vals; exact Hs3].
      eapply same_vals_trans; [|apply (up_same_vals (up s k Null) d sl)]. apply up_same_vals.
  Qed.
  Lemma h_destroy_ok d (s : hst) old : inv [] s -> nth_error (vars s) d = Some old -> old <> Dead ->
    exists s', h_destroy d s = Ret tt s' /\ inv [] s' /\ vars s' = upd d Dead (vars s) /\ same_vals s s'.
  Proof.
    intros Hi Hd Hold.
    assert (Hi0 : inv [Dead] s) by (apply inv_skip; [discriminate|exact Hi]).
    pose proof (put_slot_ok _ _ _ _ _ Hi0 Hd) as Hi1.
    destruct (release_ok _ _ _ Hi1) as (s3 & E3 & Hi3 & Hs3).
    exists s3. split; [|split; [exact Hi3|split]].
    - unfold h_destroy. rewrite (bind_ret _ _ _ _ _ (get_ok _ _ _ Hd Hold)), (bind_ret _ _ _ _ _ (put_slot_eq _ _ _)). exact E3.
    - destruct Hs3 as (-> & _). reflexivity.
    - eapply same_vals_trans; [apply up_same_vals|apply same_same_vals; exact Hs3].
  Qed.
  Lemma h_null_ok d (s : hst) : inv [] s -> nth_error (vars s) d = Some Dead ->
    h_null d s = Ret tt (up s d Null) /\ inv [] (up s d Null).
  Proof.
    intros Hi Hd. split.
    - unfold h_null. rewrite (bind_ret _ _ _ _ _ (fresh_ok _ _ Hd)). reflexivity.
    - assert (Hi0 : inv [Null] s) by (apply inv_skip; [discriminate|exact Hi]).
      pose proof (put_slot_ok _ _ _ _ _ Hi0 Hd) as Hi1. apply inv_skip in Hi1; [exact Hi1|discriminate].
  Qed.
  (** a new object in variable [h]: other objects keep their values *)
  Record newobj (s s' : hst) (h : nat) (v : V) : Prop := mkNew {
    new_inv : inv [] s';
    new_vars : vars s' = upd h (Ptr (length (heap s))) (vars s);
    new_sched : sched s' = tl (sched s);
    new_refs : refs s' = refs s;
    new_len : length (heap s') = S (length (heap s));
    new_val : val s' (length (heap s)) = Some v;
    new_old : forall b, b < length (heap s) -> val s' b = val s b }.
  Lemma h_new_ok d v (s : hst) : inv [] s -> nth_error (vars s) d = Some Dead -> hd false (sched s) = false ->
    exists s', h_new d v s = Ret tt s' /\ newobj s s' d v.
  Proof.
    intros Hi Hd Hsc. destruct (alloc_ok _ _ v Hi Hsc) as (s1 & E1 & Hi1 & Hv1 & Hsc1 & Hr1 & Hl1 & Hn1 & Ho1 & _).
    exists (up s1 d (Ptr (length (heap s)))). split.
    - unfold h_new. rewrite (bind_ret _ _ _ _ _ (fresh_ok _ _ Hd)), (bind_ret _ _ _ _ _ E1). reflexivity.
    - split; simpl; auto.
      + assert (Hd1 : nth_error (vars s1) d = Some Dead) by congruence.
        pose proof (put_slot_ok _ _ _ _ _ Hi1 Hd1) as Hi2. apply inv_skip in Hi2; [exact Hi2|discriminate].
      + rewrite Hv1. reflexivity.
  Qed.
  Lemma make_unique_ok h (s : hst) a v : inv [] s -> nth_error (vars s) h = Some (Ptr a) -> val s a = Some v ->
    hd false (sched s) = false ->
    exists s', make_unique clone h s = Ret tt s' /\ newobj s s' h (clone v) /\
      (occ a (vars s) = 1 -> exists c, nth_error (heap s') a = Some c /\ c_live c = false).
  Proof.
    intros Hi Hh Hv Hsc. destruct (inv_val _ _ _ _ Hi Hh) as (c & Hc & Hlc & Hl & Hv').
    assert (v = c_val c) by congruence. subst v.
    destruct (alloc_ok _ _ (clone (c_val c)) Hi Hsc) as (s1 & E1 & Hi1 & Hv1 & Hsc1 & Hr1 & Hl1 & Hn1 & Ho1 & _).
    assert (Hh1 : nth_error (vars s1) h = Some (Ptr a)) by congruence.
    pose proof (put_slot_ok _ _ _ _ _ Hi1 Hh1) as Hi2.
    destruct (release_ok _ _ _ Hi2) as (s3 & E3 & Hi3 & Hs3).
    exists s3. split; [|split].
    - unfold make_unique. rewrite (bind_ret _ _ _ _ _ (get_ok _ _ _ Hh ltac:(discriminate))).
      assert (Hdr : deref (Ptr a) s = Ret (a, c) s) by (unfold deref; rewrite (bind_ret _ _ _ _ _ Hlc); reflexivity).
      rewrite (bind_ret _ _ _ _ _ Hdr), (bind_ret _ _ _ _ _ E1), (bind_ret _ _ _ _ _ (get_ok _ _ _ Hh1 ltac:(discriminate))),
        (bind_ret _ _ _ _ _ (put_slot_eq _ _ _)). exact E3.
    - destruct Hs3 as (A1 & A2 & A3 & A4 & A5). simpl in *.
      split; [exact Hi3|congruence|congruence|congruence|congruence|rewrite A5; exact Hn1|].
      intros b Hb. rewrite A5. apply Ho1. exact Hb.
    - intros Hocc. destruct (nth_error (heap s3) a) as [c3|] eqn:Hc3.
      + exists c3. split; [reflexivity|]. destruct Hi3 as [Hcells _]. destruct (Hcells a c3 Hc3) as [B1 B2].
        rewrite B2, B1. simpl. destruct Hs3 as (A1 & _). rewrite A1. simpl.
        assert (Hlt : a < length (heap s)) by (apply nth_error_Some; congruence).
        pose proof (occ_upd a h (Ptr (length (heap s))) (Ptr a) (vars s1) Hh1) as Hu.
        rewrite one_eq, Hv1, Hocc, (one_neq a (Ptr (length (heap s)))) in Hu by (intros [= ?]; lia).
        rewrite Hv1. destruct (Nat.eqb_spec (occ a (upd h (Ptr (length (heap s))) (vars s))) 0); [reflexivity|lia].
      + exfalso. apply nth_error_None in Hc3. destruct Hs3 as (_ & _ & _ & A4 & _). simpl in A4.
        assert (a < length (heap s)) by (apply nth_error_Some; congruence). lia.
  Qed.
  Lemma make_unique_fail h (s : hst) a sc : inv [] s -> nth_error (vars s) h = Some (Ptr a) -> sched s = true :: sc ->
    make_unique clone h s = Exc EBadAlloc (mkHst (vars s) (heap s) sc (refs s)).
  Proof.
    intros Hi Hh Hsc. destruct (inv_val _ _ _ _ Hi Hh) as (c & Hc & Hlc & Hl & Hv').
    unfold make_unique. rewrite (bind_ret _ _ _ _ _ (get_ok _ _ _ Hh ltac:(discriminate))).
    assert (Hdr : deref (Ptr a) s = Ret (a, c) s) by (unfold deref; rewrite (bind_ret _ _ _ _ _ Hlc); reflexivity).
    rewrite (bind_ret _ _ _ _ _ Hdr). apply bind_exc. apply alloc_fail. exact Hsc.
  Qed.
  Lemma inv_sched s sc : inv [] s -> inv [] (mkHst (vars s) (heap s) sc (refs s)).
  Proof. intros [A B]. split; [exact A|exact B]. Qed.
  Lemma const_access_ok h (s : hst) a : inv [] s -> nth_error (vars s) h = Some (Ptr a) ->
    exists c, const_access h s = Ret (a, c) s /\ nth_error (heap s) a = Some c /\ val s a = Some (c_val c) /\ c_live c = true.
  Proof.
    intros Hi Hh. destruct (inv_val _ _ _ _ Hi Hh) as (c & Hc & Hlc & Hl & Hv'). exists c.
    split; [|auto]. unfold const_access. rewrite (bind_ret _ _ _ _ _ (get_ok _ _ _ Hh ltac:(discriminate))).
    unfold deref. rewrite (bind_ret _ _ _ _ _ Hlc). reflexivity.
  Qed.
  (** writing to a live object *)
  Definition wr (s : hst) (a : nat) (c : cell) (f : V -> V) : hst :=
    mkHst (vars s) (upd a (mkCell (f (c_val c)) (c_cnt c) (c_live c)) (heap s)) (sched s) (refs s).
  Lemma write_ok (s : hst) a f c : inv [] s -> nth_error (heap s) a = Some c -> c_live c = true ->
    write a f s = Ret tt (wr s a c f) /\ inv [] (wr s a c f).
  Proof.
    intros [Hcs Hp] Hc Hl. split.
    - unfold write, live_cell, bind. rewrite Hc, Hl. reflexivity.
    - split; simpl.
      + intros b x Hb. rewrite nth_error_upd in Hb. destruct (Nat.eqb_spec a b) as [<-|Hab].
        * destruct (Nat.ltb_spec a (length (heap s))); [|discriminate]. injection Hb as <-.
          exact (Hcs a c Hc).
        * exact (Hcs b x Hb).
      + intros b Hb. rewrite upd_length. apply Hp. exact Hb.
  Qed.
  Lemma wr_val (s : hst) a c f b : nth_error (heap s) a = Some c ->
    val (wr s a c f) b = if Nat.eqb a b then Some (f (c_val c)) else val s b.
  Proof.
    intros Hc. unfold val, wr. simpl. rewrite nth_error_upd. destruct (Nat.eqb_spec a b) as [<-|Hab]; [|reflexivity].
    assert (Hlt : a < length (heap s)) by (apply nth_error_Some; congruence).
    destruct (Nat.ltb_spec a (length (heap s))); [reflexivity|lia].
  Qed.

  (** ** Simulation *)
  Lemma abs_at (s : hst) i : inv [] s ->
    match nth_error (vars s) i with
    | None => nth_error (map (aslot s) (vars s)) i = None
    | Some Dead => nth_error (map (aslot s) (vars s)) i = Some VDead
    | Some Null => nth_error (map (aslot s) (vars s)) i = Some VNull
    | Some (Ptr a) => exists v, val s a = Some v /\ nth_error (map (aslot s) (vars s)) i = Some (VVal v)
    end.
  Proof.
    intros Hi. rewrite nth_error_map. destruct (nth_error (vars s) i) as [[| |a]|] eqn:Hn; try reflexivity.
    destruct (inv_val _ _ _ _ Hi Hn) as (c & _ & _ & _ & Hv). exists (c_val c). split; [exact Hv|].
    simpl. rewrite Hv. reflexivity.
  Qed.
  Lemma abs_sched (s : hst) sc : abs (mkHst (vars s) (heap s) sc (refs s)) = mkVst (map (aslot s) (vars s)) sc.
  Proof. reflexivity. Qed.
  Lemma abs_new (s s' : hst) h v : inv [] s -> newobj s s' h v ->
    h < length (vars s) ->
    abs s' = mkVst (upd h (VVal v) (map (aslot s) (vars s))) (tl (sched s)).
  Proof.
    intros Hi Hn Hlt. unfold abs. rewrite (new_sched _ _ _ _ Hn), (new_vars _ _ _ _ Hn). f_equal.
    rewrite map_upd. simpl. rewrite (new_val _ _ _ _ Hn).
    rewrite (map_aslot_old [] s s' Hi (new_old _ _ _ _ Hn)). reflexivity.
  Qed.
  Lemma sched_cases (s : hst) : hd false (sched s) = false \/ exists sc, sched s = true :: sc.
  Proof. destruct (sched s) as [|[] sc]; simpl; eauto. Qed.

  Notation provides := (unique_base dyn subobjs).
  Notation provides_w := (unique_base_or_wrapper dyn subobjs wrapper).
  Lemma dynamic_cast_some D T : (exists o, dynamic_cast subobjs D T = Some o) <-> (exists o, subobjs D T = [o]).
  Proof.
    unfold dynamic_cast. destruct (subobjs D T) as [|o [|o' l]]; split; intros [x Hx]; try discriminate; eauto.
  Qed.
  Lemma cast_provides v t : (exists o, dynamic_cast subobjs (dyn v) t = Some o) <-> provides v t.
  Proof. apply dynamic_cast_some. Qed.
  Lemma extract_provides v t : (exists o, extract_from subobjs wrapper inner (dyn v) t = Some o) <-> provides_w v t.
  Proof.
    unfold extract_from, unique_base_or_wrapper. rewrite <- !cast_provides.
    destruct (dynamic_cast subobjs (dyn v) t) as [o|].
    - split; [left; eauto|intros _; eauto].
    - destruct (dynamic_cast subobjs (dyn v) (wrapper t)) as [o|].
      + split; [right; eauto|intros _; eauto].
      + split; [intros [o Ho]; discriminate|intros [[o Ho]|[o Ho]]; discriminate].
  Qed.

  Definition sim (s : hst) (o : hop V Ty) : Prop :=
    match hstep o s with
    | Ret x s' => inv [] s' /\ sstep provides provides_w (abs s) o x (abs s')
    | Exc e s' => inv [] s' /\ sstep provides provides_w (abs s) o (OExc e) (abs s')
    | Ub _ => forall x m, ~ sstep provides provides_w (abs s) o x m
    | Abort | Fuel => False
    end.

  Lemma out_scope (x y : option (vslot V)) : x = None \/ x = Some VDead -> x = y -> in_scope y -> False.
  Proof. intros [-> | ->] <- Hin; exact Hin. Qed.
  Lemma get_bad h (s : hst) : nth_error (vars s) h = None \/ nth_error (vars s) h = Some Dead -> get_slot h s = Ub UbDangling.
  Proof. intros [E|E]; unfold get_slot; rewrite E; reflexivity. Qed.
  Lemma fresh_bad d (s : hst) : nth_error (vars s) d <> Some Dead -> fresh_slot d s = Ub UbUninit.
  Proof. intros E. unfold fresh_slot. destruct (nth_error (vars s) d) as [[| |]|]; congruence. Qed.
  (** what the variable is in the abstraction *)
  Inductive view (s : hst) (i : nat) : Prop :=
  | view_out : (nth_error (vars s) i = None \/ nth_error (vars s) i = Some Dead) ->
      (nth_error (map (aslot s) (vars s)) i = None \/ nth_error (map (aslot s) (vars s)) i = Some VDead) -> view s i
  | view_in sl x : nth_error (vars s) i = Some sl -> sl <> Dead -> nth_error (map (aslot s) (vars s)) i = Some x -> x = aslot s sl ->
      in_scope (Some x) ->
      ((sl = Null /\ x = VNull) \/ exists a v, sl = Ptr a /\ val s a = Some v /\ x = VVal v) -> view s i.
  Lemma view_ok (s : hst) i : inv [] s -> view s i.
  Proof.
    intros Hi. pose proof (abs_at s i Hi) as Ha. destruct (nth_error (vars s) i) as [[| |a]|] eqn:E.
    - apply view_out; auto.
    - eapply (view_in s i Null); eauto; try discriminate; simpl; auto.
    - destruct Ha as (v & Hv & Ha). eapply (view_in s i (Ptr a)); eauto; try discriminate; simpl; rewrite ?Hv; auto.
      right. exists a, v. auto.
    - apply view_out; auto.
  Qed.
  Lemma free_iff (s : hst) d : inv [] s -> nth_error (vars s) d = Some Dead <-> nth_error (map (aslot s) (vars s)) d = Some VDead.
  Proof.
    intros Hi. pose proof (abs_at s d Hi) as Ha. destruct (nth_error (vars s) d) as [[| |a]|] eqn:E.
    - tauto.
    - rewrite Ha. split; discriminate.
    - destruct Ha as (v & _ & Ha). rewrite Ha. split; discriminate.
    - rewrite Ha. split; discriminate.
  Qed.
  Lemma fresh_dec (s : hst) d : inv [] s ->
    (nth_error (vars s) d = Some Dead /\ nth_error (map (aslot s) (vars s)) d = Some VDead /\ d < length (vars s)) \/
    (fresh_slot d s = Ub UbUninit /\ nth_error (map (aslot s) (vars s)) d <> Some VDead).
  Proof.
    intros Hi. destruct (nth_error (vars s) d) as [sl|] eqn:E.
    - destruct (slot_eq_dec sl Dead) as [->|Hne].
      + left. split; [reflexivity|]. split; [apply free_iff; assumption|]. apply nth_error_Some. congruence.
      + right. split; [apply fresh_bad; congruence|]. rewrite <- free_iff by exact Hi. congruence.
    - right. split; [apply fresh_bad; congruence|]. rewrite <- free_iff by exact Hi. congruence.
  Qed.

  Context (clone_ok : forall v, clone v = v).

  Lemma access_ok h (s : hst) a v : inv [] s -> nth_error (vars s) h = Some (Ptr a) -> val s a = Some v ->
    hd false (sched s) = false ->
    exists s' c, access clone h s = Ret (length (heap s), c) s' /\ newobj s s' h v /\ c_val c = v /\
      nth_error (heap s') (length (heap s)) = Some c /\ c_live c = true /\
      (occ a (vars s) = 1 -> exists c, nth_error (heap s') a = Some c /\ c_live c = false).
  Proof.
    intros Hi Hh Hv Hsc. destruct (make_unique_ok h s a v Hi Hh Hv Hsc) as (s1 & E1 & Hn & Hd).
    rewrite clone_ok in Hn.
    assert (Hh1 : nth_error (vars s1) h = Some (Ptr (length (heap s)))).
    { rewrite (new_vars _ _ _ _ Hn). eapply nth_error_upd_some. exact Hh. }
    destruct (const_access_ok h s1 _ (new_inv _ _ _ _ Hn) Hh1) as (c & Ec & Hc & Hvc & Hlc).
    exists s1, c. split; [|split; [exact Hn|split; [|auto]]].
    - unfold access. rewrite (bind_ret _ _ _ _ _ E1). exact Ec.
    - pose proof (new_val _ _ _ _ Hn). congruence.
  Qed.

  Lemma sim_new s d v : inv [] s -> sim s (OpNew d v).
  Proof.
    intros Hi. unfold sim, HandleModel.hstep.
    destruct (fresh_dec s d Hi) as [(Hd & Ha & Hlt)|[Ef Hna]].
    - destruct (sched_cases s) as [Hsc|[sc Hsc]].
      + destruct (h_new_ok d v s Hi Hd Hsc) as (s' & E & Hn). rewrite (bind_ret _ _ _ _ _ E). simpl.
        split; [apply (new_inv _ _ _ _ Hn)|]. rewrite (abs_new s s' d v Hi Hn Hlt). apply SNew; assumption.
      + assert (E : h_new d v s = Exc EBadAlloc (mkHst (vars s) (heap s) sc (refs s))).
        { unfold h_new. rewrite (bind_ret _ _ _ _ _ (fresh_ok _ _ Hd)). apply bind_exc. apply alloc_fail. exact Hsc. }
        rewrite (bind_exc _ _ _ _ _ E). split; [apply inv_sched; exact Hi|]. rewrite abs_sched.
        unfold abs. rewrite Hsc. apply SNewFail. exact Ha.
    - assert (E : h_new d v s = Ub UbUninit) by (apply bind_ub; exact Ef).
      rewrite (bind_ub _ _ _ _ E). intros x m Hs. inversion Hs; subst; auto.
  Qed.
  Lemma sim_null s d : inv [] s -> sim s (OpNull d).
  Proof.
    intros Hi. unfold sim, HandleModel.hstep.
    destruct (fresh_dec s d Hi) as [(Hd & Ha & Hlt)|[Ef Hna]].
    - destruct (h_null_ok d s Hi Hd) as (E & Hi'). rewrite (bind_ret _ _ _ _ _ E). simpl.
      split; [exact Hi'|]. rewrite (abs_same_vals s (up s d Null) (upd d Null (vars s)) (up_same_vals _ _ _) eq_refl), map_upd.
      apply SNull. exact Ha.
    - assert (E : h_null d s = Ub UbUninit) by (apply bind_ub; exact Ef).
      rewrite (bind_ub _ _ _ _ E). intros x m Hs. inversion Hs; subst; auto.
  Qed.
  Lemma sim_copy s d k : inv [] s -> sim s (OpCopy d k).
  Proof.
    intros Hi. unfold sim, HandleModel.hstep.
    destruct (fresh_dec s d Hi) as [(Hd & Ha & Hlt)|[Ef Hna]].
    - destruct (view_ok s k Hi) as [Hk Hak|sl x Hk Hsl Hak Hx Hin Hc].
      + assert (E : h_copy d k s = Ub UbDangling).
        { unfold h_copy. rewrite (bind_ret _ _ _ _ _ (fresh_ok _ _ Hd)). apply bind_ub. apply get_bad. exact Hk. }
        rewrite (bind_ub _ _ _ _ E). intros x m Hs. inversion Hs; subst. eapply out_scope; eassumption.
      + destruct (h_copy_ok d k s sl Hi Hd Hk Hsl) as (s' & E & Hi' & Hv & Hs). rewrite (bind_ret _ _ _ _ _ E). simpl.
        split; [exact Hi'|]. rewrite (abs_same_vals s s' _ Hs Hv), map_upd, <- Hx. apply SCopy with (x := x); assumption.
    - assert (E : h_copy d k s = Ub UbUninit) by (apply bind_ub; exact Ef).
      rewrite (bind_ub _ _ _ _ E). intros x m Hs. inversion Hs; subst; auto.
  Qed.

  Lemma sim_move s d k : inv [] s -> sim s (OpMove d k).
  Proof.
    intros Hi. unfold sim, HandleModel.hstep.
    destruct (fresh_dec s d Hi) as [(Hd & Ha & Hlt)|[Ef Hna]].
    - destruct (view_ok s k Hi) as [Hk Hak|sl x Hk Hsl Hak Hx Hin Hc].
      + assert (E : h_move d k s = Ub UbDangling).
        { unfold h_move. rewrite (bind_ret _ _ _ _ _ (fresh_ok _ _ Hd)). apply bind_ub. apply get_bad. exact Hk. }
        rewrite (bind_ub _ _ _ _ E). intros x m Hs. inversion Hs; subst. eapply out_scope; eassumption.
      + destruct (h_move_ok d k s sl Hi Hd Hk Hsl) as (s' & E & Hi' & Hv & Hs). rewrite (bind_ret _ _ _ _ _ E). simpl.
        split; [exact Hi'|]. rewrite (abs_same_vals s s' _ Hs Hv), !map_upd, <- Hx. apply SMove with (x := x); assumption.
    - assert (E : h_move d k s = Ub UbUninit) by (apply bind_ub; exact Ef).
      rewrite (bind_ub _ _ _ _ E). intros x m Hs. inversion Hs; subst; auto.
  Qed.
  Lemma in_scope_some (x : option (vslot V)) y : x = Some y -> in_scope (Some y) -> in_scope x.
  Proof. intros -> H. exact H. Qed.
  Lemma sim_assign s d k : inv [] s -> sim s (OpAssign d k).
  Proof.
    intros Hi. unfold sim, HandleModel.hstep.
    destruct (view_ok s k Hi) as [Hk Hak|sl x Hk Hsl Hak Hx Hin Hc].
    - assert (E : h_assign d k s = Ub UbDangling).
      { unfold h_assign. apply bind_ub. apply get_bad. exact Hk. }
      rewrite (bind_ub _ _ _ _ E). intros x m Hs. inversion Hs; subst. eapply out_scope; eassumption.
    - destruct (view_ok s d Hi) as [Hd Had|sl' x' Hd Hsl' Had Hx' Hin' Hc'].
      + assert (E : h_assign d k s = Ub UbDangling).
        { assert (Ho : forall a, sl = Ptr a -> 0 < occ a [] + occ a (vars s)).
          { intros a ->. eapply in_vars_owned. exact Hk. }
          destruct (acquire_ok _ _ _ Hi Ho) as (s1 & E1 & Hi1 & Hs1).
          unfold h_assign. rewrite (bind_ret _ _ _ _ _ (get_ok _ _ _ Hk Hsl)), (bind_ret _ _ _ _ _ E1).
          apply bind_ub. apply get_bad. destruct Hs1 as (-> & _). exact Hd. }
        rewrite (bind_ub _ _ _ _ E). intros y m Hs. inversion Hs; subst. eapply out_scope; [exact Had|reflexivity|assumption].
      + destruct (h_assign_ok d k s sl sl' Hi Hd Hsl' Hk Hsl) as (s' & E & Hi' & Hv & Hs). rewrite (bind_ret _ _ _ _ _ E). simpl.
        split; [exact Hi'|]. rewrite (abs_same_vals s s' _ Hs Hv), map_upd, <- Hx. apply SAssign with (x := x); try assumption.
        eapply in_scope_some; eassumption.
  Qed.
  Lemma sim_move_assign s d k : inv [] s -> sim s (OpMoveAssign d k).
  Proof.
    intros Hi. unfold sim, HandleModel.hstep.
    destruct (view_ok s k Hi) as [Hk Hak|sl x Hk Hsl Hak Hx Hin Hc].
    - assert (E : h_move_assign d k s = Ub UbDangling).
      { unfold h_move_assign. apply bind_ub. apply get_bad. exact Hk. }
      rewrite (bind_ub _ _ _ _ E). intros x m Hs. inversion Hs; subst. eapply out_scope; eassumption.
    - destruct (view_ok s d Hi) as [Hd Had|sl' x' Hd Hsl' Had Hx' Hin' Hc'].
      + assert (E : h_move_assign d k s = Ub UbDangling).
        { unfold h_move_assign. rewrite (bind_ret _ _ _ _ _ (get_ok _ _ _ Hk Hsl)), (bind_ret _ _ _ _ _ (put_slot_eq _ _ _)).
          apply bind_ub. apply get_bad. simpl. destruct (Nat.eq_dec k d) as [->|Hne].
          - destruct Hd; congruence.
          - rewrite nth_error_upd_neq by exact Hne. exact Hd. }
        rewrite (bind_ub _ _ _ _ E). intros y m Hs. inversion Hs; subst. eapply out_scope; [exact Had|reflexivity|assumption].
      + destruct (h_move_assign_ok d k s sl sl' Hi Hd Hsl' Hk Hsl) as (s' & E & Hi' & Hv & Hs). rewrite (bind_ret _ _ _ _ _ E). simpl.
        split; [exact Hi'|]. rewrite (abs_same_vals s s' _ Hs Hv), !map_upd, <- Hx. apply SMoveAssign with (x := x); try assumption.
        eapply in_scope_some; eassumption.
  Qed.
  Lemma sim_destroy s d : inv [] s -> sim s (OpDestroy d).
  Proof.
    intros Hi. unfold sim, HandleModel.hstep.
    destruct (view_ok s d Hi) as [Hk Hak|sl x Hk Hsl Hak Hx Hin Hc].
    - assert (E : h_destroy d s = Ub UbDangling) by (apply bind_ub; apply get_bad; exact Hk).
      rewrite (bind_ub _ _ _ _ E). intros x m Hs. inversion Hs; subst. eapply out_scope; [exact Hak|reflexivity|assumption].
    - destruct (h_destroy_ok d s sl Hi Hk Hsl) as (s' & E & Hi' & Hv & Hs). rewrite (bind_ret _ _ _ _ _ E). simpl.
      split; [exact Hi'|]. rewrite (abs_same_vals s s' _ Hs Hv), map_upd. apply SDestroy. eapply in_scope_some; eassumption.
  Qed.
  Lemma vval_scope (x : option (vslot V)) v : x = None \/ x = Some VDead -> x = Some (VVal v) -> False.
  Proof. intros [-> | ->] E; discriminate. Qed.
  Lemma const_access_null h (s : hst) : nth_error (vars s) h = Some Null -> const_access h s = Ub UbNull.
  Proof. intros E. unfold const_access. rewrite (bind_ret _ _ _ _ _ (get_ok _ _ _ E ltac:(discriminate))). reflexivity. Qed.
  Lemma sim_read s h : inv [] s -> sim s (OpRead h).
  Proof.
    intros Hi. unfold sim, HandleModel.hstep.
    destruct (view_ok s h Hi) as [Hk Hak|sl x Hk Hsl Hak Hx Hin Hc].
    - assert (E : const_access h s = Ub UbDangling) by (apply bind_ub; apply get_bad; exact Hk).
      rewrite (bind_ub _ _ _ _ E). intros x m Hs. inversion Hs; subst. eapply vval_scope; eassumption.
    - destruct Hc as [[-> ->]|(a & v & -> & Hv & ->)].
      + rewrite (bind_ub _ _ _ _ (const_access_null h s Hk)). intros y m Hs. inversion Hs; subst. congruence.
      + destruct (const_access_ok h s a Hi Hk) as (c & E & _ & Hvc & _). rewrite (bind_ret _ _ _ _ _ E). simpl.
        split; [exact Hi|]. replace (c_val c) with v by congruence. apply SRead. exact Hak.
  Qed.
  Lemma make_unique_null h (s : hst) : nth_error (vars s) h = Some Null -> make_unique clone h s = Ub UbNull.
  Proof. intros E. unfold make_unique. rewrite (bind_ret _ _ _ _ _ (get_ok _ _ _ E ltac:(discriminate))). reflexivity. Qed.
  Lemma make_unique_out h (s : hst) : nth_error (vars s) h = None \/ nth_error (vars s) h = Some Dead ->
    make_unique clone h s = Ub UbDangling.
  Proof. intros E. apply bind_ub. apply get_bad. exact E. Qed.
  (** a write to an object only variable [h] owns *)
  Lemma abs_wr (s : hst) h a c f : inv [] s -> nth_error (vars s) h = Some (Ptr a) -> occ a (vars s) = 1 ->
    nth_error (heap s) a = Some c ->
    map (aslot (wr s a c f)) (vars s) = upd h (VVal (f (c_val c))) (map (aslot s) (vars s)).
  Proof.
    intros Hi Hh Hocc Hc. apply nth_error_ext. intros i. rewrite nth_error_map, nth_error_upd, map_length.
    assert (Hlt : h < length (vars s)) by (apply nth_error_Some; congruence).
    destruct (Nat.eqb_spec h i) as [<-|Hne].
    - destruct (Nat.ltb_spec h (length (vars s))); [|lia]. rewrite Hh. simpl. rewrite wr_val by exact Hc.
      rewrite Nat.eqb_refl. reflexivity.
    - rewrite nth_error_map. destruct (nth_error (vars s) i) as [[| |b]|] eqn:Ei; try reflexivity. simpl.
      rewrite wr_val by exact Hc. destruct (Nat.eqb_spec a b) as [<-|Hab]; [exfalso|reflexivity].
      pose proof (occ_upd a h Null (Ptr a) (vars s) Hh) as Hu. rewrite one_eq, Hocc, one_neq in Hu by discriminate.
      assert (Hin : In (Ptr a) (upd h Null (vars s))).
      { apply nth_error_In with (n := i). rewrite nth_error_upd_neq by exact Hne. exact Ei. }
      apply occ_in in Hin. lia.
  Qed.
  Lemma newobj_occ (s s' : hst) h v old : inv [] s -> nth_error (vars s) h = Some old -> newobj s s' h v ->
    nth_error (vars s') h = Some (Ptr (length (heap s))) /\ occ (length (heap s)) (vars s') = 1.
  Proof.
    intros Hi Hh Hn. rewrite (new_vars _ _ _ _ Hn). split; [eapply nth_error_upd_some; exact Hh|].
    pose proof (occ_upd (length (heap s)) h (Ptr (length (heap s))) old (vars s) Hh) as Hu.
    destruct Hi as [_ Hp]. assert (Hz : occ (length (heap s)) (vars s) = 0).
    { destruct (Nat.eq_dec (occ (length (heap s)) (vars s)) 0) as [|Hx]; [assumption|].
      specialize (Hp (length (heap s))). simpl in Hp. lia. }
    assert (Ho : one (length (heap s)) old = 0).
    { apply one_neq. intros ->. apply nth_error_In in Hh. apply occ_in in Hh. lia. }
    rewrite one_eq in Hu. lia.
  Qed.
  Lemma sim_write s h f : inv [] s -> sim s (OpWrite h f).
  Proof.
    intros Hi. unfold sim, HandleModel.hstep.
    destruct (view_ok s h Hi) as [Hk Hak|sl x Hk Hsl Hak Hx Hin Hc].
    - assert (E : access clone h s = Ub UbDangling) by (apply bind_ub; apply make_unique_out; exact Hk).
      rewrite (bind_ub _ _ _ _ E). intros x m Hs. inversion Hs; subst; eapply vval_scope; eassumption.
    - destruct Hc as [[-> ->]|(a & v & -> & Hv & ->)].
      + assert (E : access clone h s = Ub UbNull) by (apply bind_ub; apply make_unique_null; exact Hk).
        rewrite (bind_ub _ _ _ _ E). intros y m Hs. inversion Hs; subst; congruence.
      + destruct (sched_cases s) as [Hsc|[sc Hsc]].
        * destruct (access_ok h s a v Hi Hk Hv Hsc) as (s1 & c & E & Hn & Hcv & Hcn & Hcl & _).
          rewrite (bind_ret _ _ _ _ _ E). simpl fst.
          destruct (write_ok s1 _ f c (new_inv _ _ _ _ Hn) Hcn Hcl) as [Ew Hiw].
          rewrite (bind_ret _ _ _ _ _ Ew). simpl. split; [exact Hiw|].
          destruct (newobj_occ _ _ _ _ _ Hi Hk Hn) as [Hh1 Ho1].
          unfold abs at 2. simpl. rewrite (abs_wr s1 h _ c f (new_inv _ _ _ _ Hn) Hh1 Ho1 Hcn).
          assert (Hlt : h < length (vars s)) by (apply nth_error_Some; congruence).
          pose proof (abs_new s s1 h v Hi Hn Hlt) as Ha. unfold abs in Ha. injection Ha as Ha1 Ha2.
          rewrite Ha1, Ha2, Hcv.
          replace (upd h (VVal (f v)) (upd h (VVal v) (map (aslot s) (vars s)))) with (upd h (VVal (f v)) (map (aslot s) (vars s))).
          -- apply SWrite with (v := v); assumption.
          -- apply nth_error_ext. intros i. rewrite !nth_error_upd, !upd_length. destruct (Nat.eqb_spec h i); reflexivity.
        * assert (E : access clone h s = Exc EBadAlloc (mkHst (vars s) (heap s) sc (refs s)))
            by (apply bind_exc; eapply make_unique_fail; eassumption).
          rewrite (bind_exc _ _ _ _ _ E). split; [apply inv_sched; exact Hi|]. rewrite abs_sched.
          unfold abs. rewrite Hsc. eapply SWriteFail. exact Hak.
  Qed.
  Lemma sim_managed s d k : inv [] s -> sim s (OpManaged d k).
  Proof.
    intros Hi. unfold sim, HandleModel.hstep.
    destruct (fresh_dec s d Hi) as [(Hd & Ha & Hlt)|[Ef Hna]].
    - destruct (view_ok s k Hi) as [Hk Hak|sl x Hk Hsl Hak Hx Hin Hc].
      + assert (E : h_managed clone d k s = Ub UbDangling).
        { unfold h_managed. rewrite (bind_ret _ _ _ _ _ (fresh_ok _ _ Hd)). apply bind_ub. apply make_unique_out. exact Hk. }
        rewrite (bind_ub _ _ _ _ E). intros x m Hs. inversion Hs; subst; eapply vval_scope; eassumption.
      + destruct Hc as [[-> ->]|(a & v & -> & Hv & ->)].
        * assert (E : h_managed clone d k s = Ub UbNull).
          { unfold h_managed. rewrite (bind_ret _ _ _ _ _ (fresh_ok _ _ Hd)). apply bind_ub. apply make_unique_null. exact Hk. }
          rewrite (bind_ub _ _ _ _ E). intros y m Hs. inversion Hs; subst; congruence.
        * destruct (sched_cases s) as [Hsc|[sc Hsc]].
          -- destruct (make_unique_ok k s a v Hi Hk Hv Hsc) as (s1 & E1 & Hn & _). rewrite clone_ok in Hn.
             assert (Hne : k <> d) by (intros ->; congruence).
             assert (Hd1 : nth_error (vars s1) d = Some Dead).
             { rewrite (new_vars _ _ _ _ Hn), nth_error_upd_neq by exact Hne. exact Hd. }
             destruct (newobj_occ _ _ _ _ _ Hi Hk Hn) as [Hk1 _].
             destruct (h_copy_ok d k s1 _ (new_inv _ _ _ _ Hn) Hd1 Hk1 ltac:(discriminate)) as (s2 & E2 & Hi2 & Hv2 & Hs2).
             assert (E : h_managed clone d k s = Ret tt s2).
             { unfold h_managed. rewrite (bind_ret _ _ _ _ _ (fresh_ok _ _ Hd)), (bind_ret _ _ _ _ _ E1). exact E2. }
             rewrite (bind_ret _ _ _ _ _ E). simpl. split; [exact Hi2|].
             rewrite (abs_same_vals s1 s2 _ Hs2 Hv2), map_upd. simpl. rewrite (new_val _ _ _ _ Hn).
             assert (Hltk : k < length (vars s)) by (apply nth_error_Some; congruence).
             pose proof (abs_new s s1 k v Hi Hn Hltk) as Ha1. unfold abs in Ha1. injection Ha1 as Ha1 Ha2.
             rewrite Ha1, Ha2. rewrite (upd_same k (VVal v)) by exact Hak. eapply SManaged; eassumption.
          -- assert (E : h_managed clone d k s = Exc EBadAlloc (mkHst (vars s) (heap s) sc (refs s))).
             { unfold h_managed. rewrite (bind_ret _ _ _ _ _ (fresh_ok _ _ Hd)). apply bind_exc. eapply make_unique_fail; eassumption. }
             rewrite (bind_exc _ _ _ _ _ E). split; [apply inv_sched; exact Hi|]. rewrite abs_sched.
             unfold abs. rewrite Hsc. eapply SManagedFail; eassumption.
    - assert (E : h_managed clone d k s = Ub UbUninit) by (apply bind_ub; exact Ef).
      rewrite (bind_ub _ _ _ _ E). intros x m Hs. inversion Hs; subst; auto.
  Qed.
  Lemma sim_cast s d k t : inv [] s -> sim s (OpCast d k t).
  Proof.
    intros Hi. unfold sim, HandleModel.hstep.
    destruct (fresh_dec s d Hi) as [(Hd & Ha & Hlt)|[Ef Hna]].
    - destruct (view_ok s k Hi) as [Hk Hak|sl x Hk Hsl Hak Hx Hin Hc].
      + assert (E : handle_cast dyn subobjs d k t s = Ub UbDangling).
        { unfold handle_cast. rewrite (bind_ret _ _ _ _ _ (fresh_ok _ _ Hd)). apply bind_ub. apply get_bad. exact Hk. }
        rewrite (bind_ub _ _ _ _ E). intros x m Hs. inversion Hs; subst; eapply vval_scope; eassumption.
      + destruct Hc as [[-> ->]|(a & v & -> & Hv & ->)].
        * assert (E : handle_cast dyn subobjs d k t s = Ub UbNull).
          { unfold handle_cast. rewrite (bind_ret _ _ _ _ _ (fresh_ok _ _ Hd)), (bind_ret _ _ _ _ _ (get_ok _ _ _ Hk Hsl)). reflexivity. }
          rewrite (bind_ub _ _ _ _ E). intros y m Hs. inversion Hs; subst; congruence.
        * destruct (inv_val _ _ _ _ Hi Hk) as (c & Hcn & Hlc & Hl & Hv'). assert (v = c_val c) by congruence. subst v.
          assert (E : handle_cast dyn subobjs d k t s = match dynamic_cast subobjs (dyn (c_val c)) t with
                      | Some _ => h_copy d k | None => throw EBadCast end s).
          { unfold handle_cast. rewrite (bind_ret _ _ _ _ _ (fresh_ok _ _ Hd)), (bind_ret _ _ _ _ _ (get_ok _ _ _ Hk Hsl)), (bind_ret _ _ _ _ _ Hlc). reflexivity. }
          pose proof (cast_provides (c_val c) t) as Hp. destruct (dynamic_cast subobjs (dyn (c_val c)) t) as [o|].
          -- destruct (h_copy_ok d k s _ Hi Hd Hk Hsl) as (s' & E' & Hi' & Hvs & Hs). rewrite E' in E.
             rewrite (bind_ret _ _ _ _ _ E). simpl. split; [exact Hi'|].
             rewrite (abs_same_vals s s' _ Hs Hvs), map_upd. simpl. rewrite Hv. eapply SCast; try eassumption. apply Hp. eauto.
          -- rewrite (bind_exc _ _ _ _ _ E). split; [exact Hi|]. eapply SCastFail; try eassumption.
             rewrite <- Hp. intros [o Ho]; discriminate.
    - assert (E : handle_cast dyn subobjs d k t s = Ub UbUninit) by (apply bind_ub; exact Ef).
      rewrite (bind_ub _ _ _ _ E). intros x m Hs. inversion Hs; subst; auto.
  Qed.
  Lemma sim_ptr_extract s d k t : inv [] s -> sim s (OpPtrExtract d k t).
  Proof.
    intros Hi. unfold sim, HandleModel.hstep.
    destruct (fresh_dec s d Hi) as [(Hd & Ha & Hlt)|[Ef Hna]].
    - destruct (h_null_ok d s Hi Hd) as (_ & Hin).
      destruct (view_ok s k Hi) as [Hk Hak|sl x Hk Hsl Hak Hx Hsc Hc].
      + assert (E : pointer_extract dyn subobjs wrapper inner d k t s = Ub UbDangling).
        { unfold pointer_extract. rewrite (bind_ret _ _ _ _ _ (fresh_ok _ _ Hd)). apply bind_ub. apply get_bad. exact Hk. }
        rewrite (bind_ub _ _ _ _ E). intros x m Hs. inversion Hs; subst; try (eapply vval_scope; eassumption).
        eapply out_scope; [exact Hak|eassumption|exact I].
      + destruct Hc as [[-> ->]|(a & v & -> & Hv & ->)].
        * assert (E : pointer_extract dyn subobjs wrapper inner d k t s = Ret tt (up s d Null)).
          { unfold pointer_extract. rewrite (bind_ret _ _ _ _ _ (fresh_ok _ _ Hd)), (bind_ret _ _ _ _ _ (get_ok _ _ _ Hk Hsl)). reflexivity. }
          rewrite (bind_ret _ _ _ _ _ E). simpl. split; [exact Hin|].
          rewrite (abs_same_vals s (up s d Null) (upd d Null (vars s)) (up_same_vals _ _ _) eq_refl), map_upd.
          eapply SPtrNull; eassumption.
        * destruct (inv_val _ _ _ _ Hi Hk) as (c & Hcn & Hlc & Hl & Hv'). assert (v = c_val c) by congruence. subst v.
          assert (E : pointer_extract dyn subobjs wrapper inner d k t s = match extract_from subobjs wrapper inner (dyn (c_val c)) t with
                      | Some _ => h_copy d k | None => put_slot d Null end s).
          { unfold pointer_extract. rewrite (bind_ret _ _ _ _ _ (fresh_ok _ _ Hd)), (bind_ret _ _ _ _ _ (get_ok _ _ _ Hk Hsl)), (bind_ret _ _ _ _ _ Hlc). reflexivity. }
          pose proof (extract_provides (c_val c) t) as Hp. destruct (extract_from subobjs wrapper inner (dyn (c_val c)) t) as [o|].
          -- destruct (h_copy_ok d k s _ Hi Hd Hk Hsl) as (s' & E' & Hi' & Hvs & Hs). rewrite E' in E.
             rewrite (bind_ret _ _ _ _ _ E). simpl. split; [exact Hi'|].
             rewrite (abs_same_vals s s' _ Hs Hvs), map_upd. simpl. rewrite Hv. eapply SPtr; try eassumption. apply Hp. eauto.
          -- rewrite put_slot_eq in E. rewrite (bind_ret _ _ _ _ _ E). simpl. split; [exact Hin|].
             rewrite (abs_same_vals s (up s d Null) (upd d Null (vars s)) (up_same_vals _ _ _) eq_refl), map_upd.
             eapply SPtrNone; try eassumption. rewrite <- Hp. intros [o Ho]; discriminate.
    - assert (E : pointer_extract dyn subobjs wrapper inner d k t s = Ub UbUninit) by (apply bind_ub; exact Ef).
      rewrite (bind_ub _ _ _ _ E). intros x m Hs. inversion Hs; subst; auto.
  Qed.

  Lemma hstep_sim s o : inv [] s -> sim s o.
  Proof.
    intros Hi. destruct o; [apply sim_new|apply sim_null|apply sim_copy|apply sim_move|apply sim_assign|
      apply sim_move_assign|apply sim_destroy|apply sim_read|apply sim_write|apply sim_managed|apply sim_cast|
      apply sim_ptr_extract]; exact Hi.
  Qed.

  Lemma run_sim (p : list (hop V Ty)) (s : hst) : inv [] s ->
    match run (map H p) s with
    | (l, inl s') => inv [] s' /\ sexec provides provides_w (abs s) p l (abs s')
    | (l, inr _) => ill_formed provides provides_w (abs s) p l
    end.
  Proof.
    revert s; induction p as [|o p IH]; intros s Hi; simpl.
    - split; [exact Hi|constructor].
    - pose proof (hstep_sim s o Hi) as Hs. unfold sim in Hs. destruct (hstep o s) as [x s'|e s'|r| |]; try contradiction.
      + destruct Hs as [Hi' Hs]. specialize (IH s' Hi'). destruct (run (map H p) s') as [l [s2|r]].
        * destruct IH as [Hi2 He]. split; [exact Hi2|]. econstructor; eassumption.
        * destruct IH as (p1 & o1 & p2 & m1 & -> & He & Hn). exists (o :: p1), o1, p2, m1. split; [reflexivity|].
          split; [|exact Hn]. econstructor; eassumption.
      + destruct Hs as [Hi' Hs]. specialize (IH s' Hi'). destruct (run (map H p) s') as [l [s2|r]].
        * destruct IH as [Hi2 He]. split; [exact Hi2|]. econstructor; eassumption.
        * destruct IH as (p1 & o1 & p2 & m1 & -> & He & Hn). exists (o :: p1), o1, p2, m1. split; [reflexivity|].
          split; [|exact Hn]. econstructor; eassumption.
      + exists [], o, p, (abs s). split; [reflexivity|]. split; [constructor|exact Hs].
  Qed.

  Lemma inv_no_leak s : inv [] s -> no_leak s.
  Proof.
    intros [Hc _] a c Ha Hl. destruct (Hc a c Ha) as [H1 H2]. simpl in H1. rewrite Hl in H2.
    destruct (Nat.eqb_spec (c_cnt c) 0) as [|Hne]; [discriminate|].
    assert (Hin : In (Ptr a) (vars s)) by (apply occ_in; lia). apply In_nth_error in Hin. exact Hin.
  Qed.
  Lemma abs_init n sc : abs (@hinit V n sc) = vinit n sc.
  Proof. unfold abs, hinit, vinit. simpl. f_equal. 
    generalize (mkHst (V := V) (repeat Dead n) [] sc (fun _ => None)). intros s.
    induction n as [|n IH]; simpl; congruence. Qed.
  Lemma run_values n sc (p : list (hop V Ty)) :
    match run (map H p) (hinit n sc) with
    | (l, inl s') => exists m, sexec provides provides_w (vinit n sc) p l m /\ no_leak s'
    | (l, inr _) => ill_formed provides provides_w (vinit n sc) p l
    end.
  Proof.
    pose proof (run_sim p (hinit n sc) (inv_init n sc)) as Hr. rewrite abs_init in Hr.
    destruct (run (map H p) (hinit n sc)) as [l [s'|r]]; [|exact Hr].
    destruct Hr as [Hi He]. exists (abs s'). split; [exact He|apply inv_no_leak; exact Hi].
  Qed.

  (** ** References *)
  Lemma access_inv h (s : hst) : inv [] s ->
    match access clone h s with
    | Ret (b, c) s' => exists a v, nth_error (vars s) h = Some (Ptr a) /\ val s a = Some v /\ b = length (heap s) /\
        newobj s s' h v /\ c_val c = v /\ nth_error (heap s') b = Some c /\ c_live c = true /\
        (occ a (vars s) = 1 -> exists c, nth_error (heap s') a = Some c /\ c_live c = false)
    | Exc e s' => e = EBadAlloc /\ vars s' = vars s /\ heap s' = heap s /\ refs s' = refs s
    | Ub _ => True
    | _ => False
    end.
  Proof.
    intros Hi. destruct (view_ok s h Hi) as [Hk Hak|sl x Hk Hsl Hak Hx Hin Hc].
    - assert (E : access clone h s = Ub UbDangling) by (apply bind_ub; apply make_unique_out; exact Hk).
      rewrite E. exact I.
    - destruct Hc as [[-> ->]|(a & v & -> & Hv & ->)].
      + assert (E : access clone h s = Ub UbNull) by (apply bind_ub; apply make_unique_null; exact Hk).
        rewrite E. exact I.
      + destruct (sched_cases s) as [Hsc|[sc Hsc]].
        * destruct (access_ok h s a v Hi Hk Hv Hsc) as (s1 & c & E & Hn & Hcv & Hcn & Hcl & Hd).
          rewrite E. exists a, v. auto 10.
        * assert (E : access clone h s = Exc EBadAlloc (mkHst (vars s) (heap s) sc (refs s)))
            by (apply bind_exc; eapply make_unique_fail; eassumption).
          rewrite E. auto.
  Qed.
  Lemma const_access_inv h (s : hst) : inv [] s ->
    match const_access h s with
    | Ret (b, c) s' => s' = s /\ nth_error (vars s) h = Some (Ptr b) /\ nth_error (heap s) b = Some c /\ c_live c = true
    | Ub _ => True
    | _ => False
    end.
  Proof.
    intros Hi. destruct (view_ok s h Hi) as [Hk Hak|sl x Hk Hsl Hak Hx Hin Hc].
    - assert (E : const_access h s = Ub UbDangling) by (apply bind_ub; apply get_bad; exact Hk).
      rewrite E. exact I.
    - destruct Hc as [[-> ->]|(a & v & -> & Hv & ->)].
      + rewrite const_access_null by exact Hk. exact I.
      + destruct (const_access_ok h s a Hi Hk) as (c & E & Hcn & Hvc & Hl). rewrite E. auto.
  Qed.
  Lemma inv_ref s rf : inv [] s -> inv [] (mkHst (vars s) (heap s) (sched s) rf).
  Proof. intros [A B]. split; [exact A|exact B]. Qed.

  Lemma step_inv (o : op V Ty) (s : hst) : inv [] s ->
    match step o s with Ret _ s' | Exc _ s' => inv [] s' | Ub _ => True | _ => False end.
  Proof.
    intros Hi. destruct o as [o|o]; simpl.
    - pose proof (hstep_sim s o Hi) as Hs. unfold sim in Hs. destruct (hstep o s); tauto.
    - destruct o as [r h|r h|r h t|r|r f]; simpl; unfold bind.
      + pose proof (access_inv h s Hi) as Ha. destruct (access clone h s) as [[b c] s'|e s'|u| |]; try contradiction; simpl; auto.
        * destruct Ha as (a & v & _ & _ & _ & Hn & _). apply inv_ref. apply (new_inv _ _ _ _ Hn).
        * destruct Ha as (_ & H1 & H2 & H3). destruct Hi as [A B]. split; rewrite ?H1, ?H2; assumption.
      + pose proof (const_access_inv h s Hi) as Ha. destruct (const_access h s) as [[b c] s'|e s'|u| |]; try contradiction; simpl; auto.
        destruct Ha as (-> & _). apply inv_ref. exact Hi.
      + unfold handle_extract, bind. pose proof (const_access_inv h s Hi) as Ha.
        destruct (const_access h s) as [[b c] s'|e s'|u| |]; try contradiction; simpl; auto.
        destruct Ha as (-> & _). destruct (extract_from subobjs wrapper inner (dyn (c_val c)) t); simpl; [apply inv_ref|]; exact Hi.
      + unfold get_ref. destruct (refs s r) as [a|]; [|exact I]. unfold live_cell.
        destruct (nth_error (heap s) a) as [c|]; [|exact I]. destruct (c_live c); simpl; auto.
      + unfold get_ref. destruct (refs s r) as [a|]; [|exact I].
        destruct (nth_error (heap s) a) as [c|] eqn:Ha.
        * destruct (c_live c) eqn:Hl.
          -- destruct (write_ok s a f c Hi Ha Hl) as [E Hi']. rewrite E. exact Hi'.
          -- unfold write, live_cell, bind. rewrite Ha, Hl. exact I.
        * unfold write, live_cell, bind. rewrite Ha. exact I.
  Qed.
  Lemma run_inv (p : list (op V Ty)) (s : hst) l s' : inv [] s -> run p s = (l, inl s') -> inv [] s'.
  Proof.
    revert s l; induction p as [|o p IH]; intros s l Hi E; simpl in E.
    - congruence.
    - pose proof (step_inv o s Hi) as Hs. destruct (step o s) as [x s1|e s1|r| |]; try contradiction; try discriminate.
      + destruct (run p s1) as [l1 f1] eqn:E1. injection E as <- ->. eapply IH; eassumption.
      + destruct (run p s1) as [l1 f1] eqn:E1. injection E as <- ->. eapply IH; eassumption.
  Qed.

  Lemma reachable_inv s : reachable s -> inv [] s.
  Proof. intros (n & sc & p & l & E). eapply run_inv; [apply inv_init|exact E]. Qed.
  Lemma live_iff_owned s a c : reachable s -> nth_error (heap s) a = Some c ->
    (c_live c = true <-> exists h, nth_error (vars s) h = Some (Ptr a)).
  Proof.
    intros Hr Hc. apply reachable_inv in Hr. split.
    - intros Hl. exact (inv_no_leak s Hr a c Hc Hl).
    - intros (h & Hh). destruct (owned_live [] s a Hr (in_vars_owned [] s h a Hh)) as (c' & E & Hl & _). congruence.
  Qed.

  (** what statements leave alone: a Hoare logic for one predicate *)
  Section Keep.
    Context (h r a : nat) (alone : bool).
    Definition P (s : hst) : Prop :=
      nth_error (vars s) h = Some (Ptr a) /\ refs s r = Some a /\ a < length (heap s) /\
      (alone = true -> forall i, i <> h -> nth_error (vars s) i <> Some (Ptr a)).
    Definition kp {A} (m : M hst A) (Q : A -> Prop) : Prop :=
      forall s, P s -> match m s with Ret x s' => P s' /\ Q x | Exc _ s' => P s' | _ => True end.
    Lemma kp_bind {A B} (m : M hst A) (k : A -> M hst B) Q R' :
      kp m Q -> (forall x, Q x -> kp (k x) R') -> kp (bind m k) R'.
    Proof.
      intros Hm Hk s Hp. unfold bind. specialize (Hm s Hp). destruct (m s) as [x s1|e s1|u| |]; auto.
      destruct Hm as [Hp1 HQ]. exact (Hk x HQ s1 Hp1).
    Qed.
    Lemma kp_ret {A} (x : A) (Q : A -> Prop) : Q x -> kp (ret x) Q.
    Proof. intros HQ s Hp. simpl. auto. Qed.
    Lemma kp_throw {A} e (Q : A -> Prop) : kp (throw e) Q.
    Proof. intros s Hp. exact Hp. Qed.
    Lemma kp_ub {A} u (Q : A -> Prop) : kp (undefined u) Q.
    Proof. intros s Hp. exact I. Qed.
    Lemma kp_alloc v : kp (alloc v) (fun b => b <> a).
    Proof.
      intros s (H1 & H2 & H3 & H4). unfold alloc. destruct (sched s) as [|[] sc]; simpl.
      - split; [|lia]. unfold P; simpl. rewrite app_length. simpl. split; [exact H1|]. split; [exact H2|]. split; [lia|exact H4].
      - unfold P; simpl. auto.
      - split; [|lia]. unfold P; simpl. rewrite app_length. simpl. split; [exact H1|]. split; [exact H2|]. split; [lia|exact H4].
    Qed.
    Lemma kp_set_cell b c : kp (set_cell b c) (fun _ => True).
    Proof. intros s (H1 & H2 & H3 & H4). simpl. split; [|exact I]. unfold P; simpl. rewrite upd_length. auto. Qed.
    Lemma kp_live_cell b : kp (live_cell b) (fun _ => True).
    Proof. intros s Hp. unfold live_cell. destruct (nth_error (heap s) b) as [c|]; [|exact I]. destruct (c_live c); auto. Qed.
    Lemma kp_acquire sl : kp (acquire sl) (fun _ => True).
    Proof.
      destruct sl; simpl; try (apply kp_ret; exact I). eapply kp_bind; [apply kp_live_cell|]. intros c _. apply kp_set_cell.
    Qed.
    Lemma kp_release sl : kp (release sl) (fun _ => True).
    Proof.
      destruct sl; simpl; try (apply kp_ret; exact I). eapply kp_bind; [apply kp_live_cell|]. intros c _.
      destruct (c_cnt c) as [|[|n]]; [apply kp_ub|apply kp_set_cell|apply kp_set_cell].
    Qed.
    Lemma kp_get_slot k : kp (get_slot k) (fun sl => alone = true -> k <> h -> sl <> Ptr a).
    Proof.
      intros s Hp. unfold get_slot. destruct (nth_error (vars s) k) as [sl|] eqn:E; [|exact I].
      assert (Hx : alone = true -> k <> h -> sl <> Ptr a).
      { intros Ha Hk ->. destruct Hp as (_ & _ & _ & H4). exact (H4 Ha k Hk E). }
      destruct sl; [exact I| |]; auto.
    Qed.
    Lemma kp_put_slot i sl : i <> h -> (alone = true -> sl <> Ptr a) -> kp (put_slot i sl) (fun _ => True).
    Proof.
      intros Hi Hsl s (H1 & H2 & H3 & H4). simpl. split; [|exact I]. unfold P; simpl.
      split; [rewrite nth_error_upd_neq by exact Hi; exact H1|]. split; [exact H2|]. split; [exact H3|].
      intros Ha j Hj. rewrite nth_error_upd. destruct (Nat.eqb_spec i j) as [<-|Hne]; [|exact (H4 Ha j Hj)].
      destruct (Nat.ltb i (length (vars s))); [|discriminate]. intros [= ->]. exact (Hsl Ha eq_refl).
    Qed.
    Lemma kp_fresh d : kp (fresh_slot d) (fun _ => True).
    Proof. intros s Hp. unfold fresh_slot. destruct (nth_error (vars s) d) as [[| |]|]; auto. Qed.
    Lemma kp_deref sl : kp (deref sl) (fun _ => True).
    Proof. destruct sl; simpl; try apply kp_ub. eapply kp_bind; [apply kp_live_cell|]. intros c _. apply kp_ret. exact I. Qed.
    Lemma kp_const_access k : kp (const_access k) (fun _ => True).
    Proof. eapply kp_bind; [apply kp_get_slot|]. intros sl _. apply kp_deref. Qed.
    Lemma kp_make_unique k : k <> h -> kp (make_unique clone k) (fun _ => True).
    Proof.
      intros Hk. eapply kp_bind; [apply kp_get_slot|]. intros sl _. eapply kp_bind; [apply kp_deref|]. intros ac _.
      eapply kp_bind; [apply kp_alloc|]. intros b Hb. eapply kp_bind; [apply kp_get_slot|]. intros old _.
      eapply kp_bind; [apply kp_put_slot; [exact Hk|intros _ [= ->]; contradiction]|]. intros _ _. apply kp_release.
    Qed.
    Lemma kp_access k : k <> h -> kp (access clone k) (fun _ => True).
    Proof. intros Hk. eapply kp_bind; [apply kp_make_unique; exact Hk|]. intros _ _. apply kp_const_access. Qed.
    Lemma kp_copy d k : d <> h -> (alone = true -> k <> h) -> kp (h_copy d k) (fun _ => True).
    Proof.
      intros Hd Hk. eapply kp_bind; [apply kp_fresh|]. intros _ _. eapply kp_bind; [apply kp_get_slot|]. intros sl Hsl.
      eapply kp_bind; [apply kp_acquire|]. intros _ _. apply kp_put_slot; auto.
    Qed.
    Lemma kp_write b f : kp (write b f) (fun _ => True).
    Proof. eapply kp_bind; [apply kp_live_cell|]. intros c _. apply kp_set_cell. Qed.
    Lemma kp_set_ref q b : q <> r -> kp (set_ref q b) (fun _ => True).
    Proof.
      intros Hq s (H1 & H2 & H3 & H4). simpl. split; [|exact I]. unfold P; simpl.
      rewrite set_var_neq by congruence. auto.
    Qed.

    Lemma kp_step (o : op V Ty) : keeps h r o -> (alone = true -> keeps_alone h r o) -> kp (step o) (fun _ => True).
    Proof.
      assert (Hdone : forall (m : M hst unit) (x : out V), kp m (fun _ => True) -> kp (m ;;; ret x) (fun _ => True)).
      { intros m x Hm. eapply kp_bind; [exact Hm|]. intros _ _. apply kp_ret. exact I. }
      intros Hk Ha. destruct o as [o|o]; [destruct o as [d v|d|d k|d k|d k|d k|d|k|k f|d k|d k t|d k t]|destruct o as [q k|q k|q k t|q|q f]];
        simpl in Hk; unfold keeps_alone in Ha; simpl in Ha; cbn [HandleModel.step HandleModel.hstep HandleModel.rstep].
      - apply Hdone. eapply kp_bind; [apply kp_fresh|]. intros _ _. eapply kp_bind; [apply kp_alloc|]. intros b Hb.
        apply kp_put_slot; [exact Hk|]. intros _ [= ->]. contradiction.
      - apply Hdone. eapply kp_bind; [apply kp_fresh|]. intros _ _. apply kp_put_slot; [exact Hk|discriminate].
      - apply Hdone. apply kp_copy; [exact Hk|]. intros Hx. apply Ha. exact Hx.
      - destruct Hk as [Hd Hk]. apply Hdone. eapply kp_bind; [apply kp_fresh|]. intros _ _.
        eapply kp_bind; [apply kp_get_slot|]. intros sl Hsl. eapply kp_bind; [apply kp_put_slot; [exact Hk|discriminate]|]. intros _ _.
        apply kp_put_slot; auto.
      - apply Hdone. eapply kp_bind; [apply kp_get_slot|]. intros sl Hsl. eapply kp_bind; [apply kp_acquire|]. intros _ _.
        eapply kp_bind; [apply kp_get_slot|]. intros old _. eapply kp_bind; [apply kp_put_slot; [exact Hk|]|].
        + intros Hx. apply Hsl; [exact Hx|]. apply Ha. exact Hx.
        + intros _ _. apply kp_release.
      - destruct Hk as [Hd Hk]. apply Hdone. eapply kp_bind; [apply kp_get_slot|]. intros sl Hsl.
        eapply kp_bind; [apply kp_put_slot; [exact Hk|discriminate]|]. intros _ _.
        eapply kp_bind; [apply kp_get_slot|]. intros old _. eapply kp_bind; [apply kp_put_slot; auto|]. intros _ _. apply kp_release.
      - apply Hdone. eapply kp_bind; [apply kp_get_slot|]. intros sl Hsl.
        eapply kp_bind; [apply kp_put_slot; [exact Hk|discriminate]|]. intros _ _. apply kp_release.
      - eapply kp_bind; [apply kp_const_access|]. intros ac _. apply kp_ret. exact I.
      - eapply kp_bind; [apply kp_access; exact Hk|]. intros ac _. apply Hdone. apply kp_write.
      - destruct Hk as [Hd Hk]. apply Hdone. eapply kp_bind; [apply kp_fresh|]. intros _ _.
        eapply kp_bind; [apply kp_make_unique; exact Hk|]. intros _ _. apply kp_copy; auto.
      - apply Hdone. eapply kp_bind; [apply kp_fresh|]. intros _ _. eapply kp_bind; [apply kp_get_slot|]. intros sl Hsl.
        destruct sl as [| |b]; try apply kp_ub. eapply kp_bind; [apply kp_live_cell|]. intros c _.
        destruct (dynamic_cast subobjs (dyn (c_val c)) t); [|apply kp_throw]. apply kp_copy; [exact Hk|]. intros Hx. apply Ha. exact Hx.
      - apply Hdone. eapply kp_bind; [apply kp_fresh|]. intros _ _. eapply kp_bind; [apply kp_get_slot|]. intros sl Hsl.
        destruct sl as [| |b]; try (apply kp_put_slot; [exact Hk|discriminate]). eapply kp_bind; [apply kp_live_cell|]. intros c _.
        destruct (extract_from subobjs wrapper inner (dyn (c_val c)) t); [|apply kp_put_slot; [exact Hk|discriminate]].
        apply kp_copy; [exact Hk|]. intros Hx. apply Ha. exact Hx.
      - destruct Hk as [Hq Hk]. eapply kp_bind; [apply kp_access; exact Hk|]. intros ac _. apply Hdone. apply kp_set_ref. exact Hq.
      - eapply kp_bind; [apply kp_const_access|]. intros ac _. apply Hdone. apply kp_set_ref. exact Hk.
      - eapply (kp_bind _ _ (fun _ => True)).
        + eapply kp_bind; [apply kp_const_access|]. intros ac _.
          destruct (extract_from subobjs wrapper inner (dyn (c_val (snd ac))) t); [apply kp_ret; exact I|apply kp_throw].
        + intros ao _. apply Hdone. apply kp_set_ref. exact Hk.
      - eapply (kp_bind _ _ (fun _ => True)).
        + intros s Hp. unfold get_ref. destruct (refs s q); auto.
        + intros b _. eapply kp_bind; [apply kp_live_cell|]. intros c _. apply kp_ret. exact I.
      - eapply (kp_bind _ _ (fun _ => True)).
        + intros s Hp. unfold get_ref. destruct (refs s q); auto.
        + intros b _. apply Hdone. apply kp_write.
    Qed.
    Lemma kp_run (p : list (op V Ty)) (s : hst) l s' :
      Forall (fun o => keeps h r o /\ (alone = true -> keeps_alone h r o)) p -> P s -> run p s = (l, inl s') -> P s'.
    Proof.
      revert s l; induction p as [|o p IH]; intros s l Hf Hp E; simpl in E.
      - congruence.
      - inversion Hf as [|? ? [Hk Ha] Hf']; subst. pose proof (kp_step o Hk Ha s Hp) as Hs.
        destruct (step o s) as [x s1|e s1|u| |]; try discriminate;
          destruct (run p s1) as [l1 f1] eqn:E1; injection E as <- ->; (eapply IH; [exact Hf'| |exact E1]; tauto).
    Qed.
  End Keep.

  Lemma reads_ptr (s : hst) k a v : inv [] s -> nth_error (vars s) k = Some (Ptr a) -> val s a = Some v ->
    step (H (OpRead k)) s = Ret (OVal v) s /\ reads s k = Some (OVal v).
  Proof.
    intros Hi Hk Hv. destruct (const_access_ok k s a Hi Hk) as (c & E & _ & Hvc & _).
    assert (Es : step (H (OpRead k)) s = Ret (OVal v) s).
    { simpl. rewrite (bind_ret _ _ _ _ _ E). simpl. replace (c_val c) with v by congruence. reflexivity. }
    split; [exact Es|]. unfold HandleSpec.reads. rewrite Es. reflexivity.
  Qed.
  Lemma reads_none (s : hst) k : inv [] s -> (forall a, nth_error (vars s) k <> Some (Ptr a)) -> reads s k = None.
  Proof.
    intros Hi Hk. unfold HandleSpec.reads. simpl. unfold bind, const_access, bind, get_slot.
    destruct (nth_error (vars s) k) as [[| |a]|] eqn:E; try reflexivity. exfalso. exact (Hk a eq_refl).
  Qed.
  Lemma reads_inv (s : hst) k v : inv [] s -> reads s k = Some (OVal v) ->
    exists a c, nth_error (vars s) k = Some (Ptr a) /\ nth_error (heap s) a = Some c /\ c_live c = true /\ c_val c = v /\ val s a = Some v.
  Proof.
    intros Hi Hr. unfold HandleSpec.reads in Hr. simpl in Hr. unfold bind in Hr. pose proof (const_access_inv k s Hi) as Ha.
    destruct (const_access k s) as [[b c] s'|e s'|u| |]; try discriminate. simpl in Hr. injection Hr as <-.
    destruct Ha as (-> & H1 & H2 & H3). exists b, c. repeat split; auto. unfold val. rewrite H2. reflexivity.
  Qed.

  (** the reference just obtained refers to the handle's own object *)
  Lemma refget_P r h (s s1 : hst) x : inv [] s -> step (R (RefGet r h)) s = Ret x s1 ->
    inv [] s1 /\ P h r (length (heap s)) true s1.
  Proof.
    intros Hi E. pose proof (step_inv (R (RefGet r h)) s Hi) as Hs. rewrite E in Hs. split; [exact Hs|].
    simpl in E. unfold bind in E. pose proof (access_inv h s Hi) as Ha.
    destruct (access clone h s) as [[b c] s'|e s'|u| |]; try contradiction; try discriminate. simpl in E. injection E as _ <-.
    destruct Ha as (a & v & Hh & Hv & -> & Hn & Hcv & Hcn & Hl & _).
    destruct (newobj_occ _ _ _ _ _ Hi Hh Hn) as [Hh' Ho]. unfold P. simpl. rewrite set_var_eq.
    split; [exact Hh'|]. split; [reflexivity|]. split; [rewrite (new_len _ _ _ _ Hn); lia|].
    intros _ i Hne Ei. pose proof (occ_upd (length (heap s)) h Null _ _ Hh') as Hu. rewrite one_eq, Ho, one_neq in Hu by discriminate.
    assert (Hin : In (Ptr (length (heap s))) (upd h Null (vars s'))).
    { apply nth_error_In with (n := i). rewrite nth_error_upd_neq by congruence. exact Ei. }
    apply occ_in in Hin. lia.
  Qed.
  Lemma P_weaken h r a (s : hst) : P h r a true s -> P h r a false s.
  Proof. intros (H1 & H2 & H3 & _). unfold P. repeat split; auto. discriminate. Qed.

  Lemma held_reference (s s1 s2 : hst) r h x p l : reachable s ->
    step (R (RefGet r h)) s = Ret x s1 -> Forall (keeps h r) p -> run p s1 = (l, inl s2) ->
    exists v, step (R (RefRead r)) s2 = Ret (OVal v) s2 /\ step (H (OpRead h)) s2 = Ret (OVal v) s2.
  Proof.
    intros Hr E Hf Er. apply reachable_inv in Hr. destruct (refget_P _ _ _ _ _ Hr E) as [Hi1 HP].
    apply P_weaken in HP. assert (Hi2 : inv [] s2) by (eapply run_inv; eassumption).
    assert (HP2 : P h r (length (heap s)) false s2).
    { eapply kp_run; [|exact HP|exact Er]. eapply Forall_impl; [|exact Hf]. intros o Ho. split; [exact Ho|discriminate]. }
    destruct HP2 as (H1 & H2 & H3 & _). destruct (inv_val _ _ _ _ Hi2 H1) as (c & Hcn & Hlc & Hl & Hv).
    exists (c_val c). split; [|eapply reads_ptr; eassumption].
    simpl. unfold bind, get_ref. rewrite H2, Hlc. reflexivity.
  Qed.
  Lemma second_access_dangles (s s1 s2 : hst) r1 r2 h x1 x2 : reachable s -> r1 <> r2 ->
    step (R (RefGet r1 h)) s = Ret x1 s1 -> step (R (RefGet r2 h)) s1 = Ret x2 s2 ->
    step (R (RefRead r1)) s2 = Ub UbDangling.
  Proof.
    intros Hr Hne E1 E2. apply reachable_inv in Hr. destruct (refget_P _ _ _ _ _ Hr E1) as [Hi1 HP].
    destruct HP as (H1 & H2 & H3 & H4).
    assert (Ho : occ (length (heap s)) (vars s1) = 1).
    { pose proof (occ_upd (length (heap s)) h Null _ _ H1) as Hu. rewrite one_eq, one_neq in Hu by discriminate.
      destruct (Nat.eq_dec (occ (length (heap s)) (upd h Null (vars s1))) 0) as [|Hx]; [lia|exfalso].
      assert (Hin : In (Ptr (length (heap s))) (upd h Null (vars s1))) by (apply occ_in; lia).
      apply In_nth_error in Hin as [i Hi]. rewrite nth_error_upd in Hi. destruct (Nat.eqb_spec h i) as [He|Hni].
      - destruct (Nat.ltb h (length (vars s1))); discriminate Hi.
      - exact (H4 eq_refl i (not_eq_sym Hni) Hi). }
    simpl in E2. unfold bind in E2. pose proof (access_inv h s1 Hi1) as Ha.
    destruct (access clone h s1) as [[b c] s'|e s'|u| |]; try contradiction; try discriminate. simpl in E2. injection E2 as _ <-.
    destruct Ha as (a & v & Hh & Hv & -> & Hn & Hcv & Hcn & Hl & Hd).
    rewrite H1 in Hh. injection Hh as <-. destruct (Hd Ho) as (c' & Hc' & Hl').
    simpl. unfold bind, get_ref. simpl. rewrite set_var_neq by congruence. rewrite (new_refs _ _ _ _ Hn), H2.
    unfold live_cell. simpl. rewrite Hc', Hl'. reflexivity.
  Qed.
  (** the effect of a write through a reference *)
  Lemma refwrite_ok (s : hst) r a c f : inv [] s -> refs s r = Some a -> nth_error (heap s) a = Some c -> c_live c = true ->
    step (R (RefWrite r f)) s = Ret ODone (wr s a c f) /\ inv [] (wr s a c f).
  Proof.
    intros Hi Hr Hc Hl. destruct (write_ok s a f c Hi Hc Hl) as [E Hi']. split; [|exact Hi'].
    simpl. unfold bind, get_ref. rewrite Hr, E. reflexivity.
  Qed.
  Lemma reads_wr (s : hst) a c f k : inv [] s -> nth_error (heap s) a = Some c -> c_live c = true ->
    reads (wr s a c f) k = if slot_eq_dec (nth k (vars s) Dead) (Ptr a) then Some (OVal (f (c_val c))) else reads s k.
  Proof.
    intros Hi Hc Hl. destruct (write_ok s a f c Hi Hc Hl) as [_ Hi'].
    destruct (nth_error (vars s) k) as [sl|] eqn:Hk.
    - rewrite (nth_error_nth _ _ Dead Hk). destruct (slot_eq_dec sl (Ptr a)) as [->|Hne].
      + eapply reads_ptr; [exact Hi'|exact Hk|]. rewrite wr_val by exact Hc. rewrite Nat.eqb_refl. reflexivity.
      + destruct sl as [| |b].
        * rewrite !reads_none; auto; simpl; rewrite Hk; discriminate.
        * rewrite !reads_none; auto; simpl; rewrite Hk; discriminate.
        * destruct (inv_val _ _ _ _ Hi Hk) as (cb & _ & _ & _ & Hv).
          rewrite (proj2 (reads_ptr s k b _ Hi Hk Hv)). eapply reads_ptr; [exact Hi'|exact Hk|].
          rewrite wr_val by exact Hc. destruct (Nat.eqb_spec a b) as [->|]; [congruence|exact Hv].
    - rewrite nth_overflow by (apply nth_error_None; exact Hk).
      destruct (slot_eq_dec Dead (Ptr a)) as [|_]; [discriminate|].
      rewrite !reads_none; auto; simpl; rewrite Hk; discriminate.
  Qed.
  Lemma held_write (s s1 s2 : hst) r h x p l f : reachable s ->
    step (R (RefGet r h)) s = Ret x s1 -> Forall (keeps_alone h r) p -> run p s1 = (l, inl s2) ->
    exists v s3, reads s2 h = Some (OVal v) /\ step (R (RefWrite r f)) s2 = Ret ODone s3 /\
      reads s3 h = Some (OVal (f v)) /\ forall k, k <> h -> reads s3 k = reads s2 k.
  Proof.
    intros Hr E Hf Er. apply reachable_inv in Hr. destruct (refget_P _ _ _ _ _ Hr E) as [Hi1 HP].
    assert (Hi2 : inv [] s2) by (eapply run_inv; eassumption).
    assert (HP2 : P h r (length (heap s)) true s2).
    { eapply kp_run; [|exact HP|exact Er]. eapply Forall_impl; [|exact Hf]. intros o Ho. split; [apply Ho|auto]. }
    destruct HP2 as (H1 & H2 & H3 & H4). destruct (inv_val _ _ _ _ Hi2 H1) as (c & Hcn & Hlc & Hl & Hv).
    destruct (refwrite_ok s2 r _ c f Hi2 H2 Hcn Hl) as [Ew Hiw].
    exists (c_val c), (wr s2 (length (heap s)) c f). split; [eapply reads_ptr; eassumption|]. split; [exact Ew|]. split.
    - rewrite reads_wr by assumption. rewrite (nth_error_nth _ _ Dead H1). destruct (slot_eq_dec _ _); [reflexivity|congruence].
    - intros k Hk. rewrite reads_wr by assumption. destruct (slot_eq_dec _ _) as [Hx|]; [exfalso|reflexivity].
      destruct (nth_error (vars s2) k) as [sl|] eqn:Ek.
      + rewrite (nth_error_nth _ _ Dead Ek) in Hx. subst sl. exact (H4 eq_refl k Hk Ek).
      + rewrite nth_overflow in Hx by (apply nth_error_None; exact Ek). discriminate.
  Qed.
  (** copies made from [h] share its object *)
  Lemma copy_shares (s s' : hst) k h a x : inv [] s -> nth_error (vars s) h = Some (Ptr a) ->
    step (H (OpCopy k h)) s = Ret x s' ->
    inv [] s' /\ nth_error (vars s') k = Some (Ptr a) /\ nth_error (vars s') h = Some (Ptr a) /\ same_vals s s'.
  Proof.
    intros Hi Hh E. simpl in E. destruct (fresh_dec s k Hi) as [(Hd & Ha & Hlt)|[Ef Hna]].
    - destruct (h_copy_ok k h s _ Hi Hd Hh ltac:(discriminate)) as (s2 & E2 & Hi2 & Hv2 & Hs2).
      rewrite (bind_ret _ _ _ _ _ E2) in E. injection E as _ <-. split; [exact Hi2|]. rewrite Hv2. split; [|split; [|exact Hs2]].
      + eapply nth_error_upd_some. exact Hd.
      + rewrite nth_error_upd_neq; [exact Hh|]. intros ->. congruence.
    - assert (E' : h_copy k h s = Ub UbUninit) by (apply bind_ub; exact Ef). rewrite (bind_ub _ _ _ _ E') in E. discriminate.
  Qed.
  Lemma held_write_seen_by_copy (s s1 s2 s3 : hst) r h k f x1 x2 x3 : reachable s ->
    step (R (RefGet r h)) s = Ret x1 s1 -> step (H (OpCopy k h)) s1 = Ret x2 s2 ->
    step (R (RefWrite r f)) s2 = Ret x3 s3 ->
    exists v, reads s2 h = Some (OVal v) /\ reads s2 k = Some (OVal v) /\ reads s3 k = Some (OVal (f v)).
  Proof.
    intros Hr E1 E2 E3. apply reachable_inv in Hr. destruct (refget_P _ _ _ _ _ Hr E1) as [Hi1 (H1 & H2 & H3 & H4)].
    destruct (copy_shares s1 s2 k h _ _ Hi1 H1 E2) as (Hi2 & Hk & Hh & (_ & Hrf & _ & Hvals)).
    destruct (inv_val _ _ _ _ Hi2 Hh) as (c & Hcn & Hlc & Hl & Hv).
    destruct (refwrite_ok s2 r _ c f Hi2 ltac:(rewrite Hrf; exact H2) Hcn Hl) as [Ew Hiw].
    rewrite Ew in E3. injection E3 as _ <-. exists (c_val c). split; [eapply reads_ptr; eassumption|].
    split; [eapply reads_ptr; eassumption|]. rewrite reads_wr by assumption. rewrite (nth_error_nth _ _ Dead Hk).
    destruct (slot_eq_dec _ _); [reflexivity|congruence].
  Qed.
  Lemma extract_ok (s : hst) r h t v : inv [] s -> reads s h = Some (OVal v) ->
    exists a c, nth_error (vars s) h = Some (Ptr a) /\ nth_error (heap s) a = Some c /\ c_live c = true /\ c_val c = v /\
    step (R (RefExtract r h t)) s =
      match extract_from subobjs wrapper inner (dyn v) t with
      | Some o => Ret (OSub o) (mkHst (vars s) (heap s) (sched s) (set_var (refs s) r (Some a)))
      | None => Exc EBadCast s
      end.
  Proof.
    intros Hi Hr. destruct (reads_inv _ _ _ Hi Hr) as (a & c & Hh & Hc & Hl & Hcv & Hv).
    destruct (const_access_ok h s a Hi Hh) as (c' & E & Hc' & _ & _). assert (c' = c) by congruence. subst c'.
    exists a, c. repeat (split; [assumption|]). simpl. unfold handle_extract, bind. rewrite E. simpl. rewrite Hcv.
    destruct (extract_from subobjs wrapper inner (dyn v) t); reflexivity.
  Qed.
  Lemma extracted_write_seen_by_copy (s s1 s2 s3 : hst) r h k t f x1 x2 x3 v : reachable s ->
    reads s h = Some (OVal v) -> step (H (OpCopy k h)) s = Ret x1 s1 ->
    step (R (RefExtract r h t)) s1 = Ret x2 s2 -> step (R (RefWrite r f)) s2 = Ret x3 s3 ->
    reads s2 k = Some (OVal v) /\ reads s3 k = Some (OVal (f v)).
  Proof.
    intros Hr Hrd E1 E2 E3. apply reachable_inv in Hr.
    destruct (reads_inv _ _ _ Hr Hrd) as (a & c & Hh & Hc & Hl & Hcv & Hv).
    destruct (copy_shares s s1 k h _ _ Hr Hh E1) as (Hi1 & Hk1 & Hh1 & (_ & Hrf & _ & Hvals)).
    assert (Hv1 : val s1 a = Some v) by (rewrite Hvals; exact Hv).
    destruct (reads_ptr s1 h a v Hi1 Hh1 Hv1) as [_ Hr1].
    destruct (extract_ok s1 r h t v Hi1 Hr1) as (a' & c1 & Hh1' & Hc1 & Hl1 & Hcv1 & Ex).
    rewrite E2 in Ex. assert (a' = a) by congruence. subst a'.
    destruct (extract_from subobjs wrapper inner (dyn v) t) as [o|]; [|discriminate]. injection Ex as _ ->.
    assert (Hi2 : inv [] (mkHst (vars s1) (heap s1) (sched s1) (set_var (refs s1) r (Some a)))) by (apply inv_ref; exact Hi1).
    destruct (refwrite_ok _ r a c1 f Hi2 ltac:(simpl; apply set_var_eq) Hc1 Hl1) as [Ew Hiw].
    rewrite Ew in E3. injection E3 as _ <-. split; [eapply reads_ptr; eassumption|].
    rewrite reads_wr by assumption. simpl. rewrite (nth_error_nth _ _ Dead Hk1).
    destruct (slot_eq_dec _ _); [rewrite Hcv1; reflexivity|congruence].
  Qed.
  Lemma reads_ref (s : hst) rf k : reads (mkHst (vars s) (heap s) (sched s) rf) k = reads s k.
  Proof.
    unfold HandleSpec.reads. simpl. unfold const_access, bind, get_slot. simpl.
    destruct (nth_error (vars s) k) as [[| |b]|]; try reflexivity. simpl. unfold bind, live_cell. simpl.
    destruct (nth_error (heap s) b) as [c|]; [|reflexivity]. destruct (c_live c); reflexivity.
  Qed.
  Lemma extract_spec (s : hst) r h t v :
    (forall D T o, In o (subobjs D (wrapper T)) -> In (o + inner T) (subobjs D T)) ->
    reachable s -> reads s h = Some (OVal v) ->
    (provides_w v t ->
       exists o s', step (R (RefExtract r h t)) s = Ret (OSub o) s' /\ In o (subobjs (dyn v) t) /\
         (forall k, reads s' k = reads s k) /\
         forall f, exists s'', step (R (RefWrite r f)) s' = Ret ODone s'' /\ reads s'' h = Some (OVal (f v))) /\
    (~ provides_w v t -> step (R (RefExtract r h t)) s = Exc EBadCast s).
  Proof.
    intros Hw Hr Hrd. apply reachable_inv in Hr.
    destruct (extract_ok s r h t v Hr Hrd) as (a & c & Hh & Hc & Hl & Hcv & Ex). split.
    - intros Hp. apply extract_provides in Hp as [o Ho]. rewrite Ho in Ex. eexists o, _. split; [exact Ex|]. split; [|split].
      + unfold extract_from in Ho. destruct (dynamic_cast subobjs (dyn v) t) as [o'|] eqn:E1.
        * injection Ho as ->. unfold dynamic_cast in E1. destruct (subobjs (dyn v) t) as [|y [|]]; try discriminate.
          injection E1 as ->. left. reflexivity.
        * destruct (dynamic_cast subobjs (dyn v) (wrapper t)) as [o'|] eqn:E2; [|discriminate]. injection Ho as <-.
          apply Hw. unfold dynamic_cast in E2. destruct (subobjs (dyn v) (wrapper t)) as [|y [|]]; try discriminate.
          injection E2 as ->. left. reflexivity.
      + intros k. apply reads_ref.
      + intros f.
        assert (Hi2 : inv [] (mkHst (vars s) (heap s) (sched s) (set_var (refs s) r (Some a)))) by (apply inv_ref; exact Hr).
        destruct (refwrite_ok _ r a c f Hi2 ltac:(simpl; apply set_var_eq) Hc Hl) as [Ew Hiw].
        eexists. split; [exact Ew|]. rewrite reads_wr by assumption. simpl. rewrite (nth_error_nth _ _ Dead Hh).
        destruct (slot_eq_dec _ _); [rewrite Hcv; reflexivity|congruence].
    - intros Hp. rewrite <- extract_provides in Hp. destruct (extract_from subobjs wrapper inner (dyn v) t) as [o|]; [|exact Ex].
      exfalso. apply Hp. eauto.
  Qed.
  Lemma cast_spec (s : hst) d h t v : reachable s -> nth_error (vars s) d = Some Dead -> reads s h = Some (OVal v) ->
    (provides v t -> exists s', step (H (OpCast d h t)) s = Ret ODone s' /\
        nth_error (vars s') d = nth_error (vars s) h /\ reads s' d = Some (OVal v) /\ forall k, k <> d -> reads s' k = reads s k) /\
    (~ provides v t -> step (H (OpCast d h t)) s = Exc EBadCast s).
  Proof.
    intros Hr Hd Hrd. apply reachable_inv in Hr. destruct (reads_inv _ _ _ Hr Hrd) as (a & c & Hh & Hc & Hl & Hcv & Hv).
    destruct (inv_val _ _ _ _ Hr Hh) as (c' & Hc' & Hlc & _). assert (c' = c) by congruence. subst c'.
    assert (E : handle_cast dyn subobjs d h t s = match dynamic_cast subobjs (dyn v) t with
                      | Some _ => h_copy d h | None => throw EBadCast end s).
    { unfold handle_cast. rewrite (bind_ret _ _ _ _ _ (fresh_ok _ _ Hd)), (bind_ret _ _ _ _ _ (get_ok _ _ _ Hh ltac:(discriminate))),
        (bind_ret _ _ _ _ _ Hlc). rewrite Hcv. reflexivity. }
    split; intros Hp; rewrite <- cast_provides in Hp; destruct (dynamic_cast subobjs (dyn v) t) as [o|].
    - destruct (h_copy_ok d h s _ Hr Hd Hh ltac:(discriminate)) as (s' & E' & Hi' & Hvs & Hs). rewrite E' in E.
      exists s'. simpl. rewrite (bind_ret _ _ _ _ _ E). split; [reflexivity|].
      assert (Hd' : nth_error (vars s') d = Some (Ptr a)) by (rewrite Hvs; eapply nth_error_upd_some; exact Hd).
      destruct Hs as (_ & _ & _ & Hvals). split; [congruence|]. split.
      + eapply reads_ptr; [exact Hi'|exact Hd'|]. rewrite Hvals. exact Hv.
      + intros k Hk. assert (Hk' : nth_error (vars s') k = nth_error (vars s) k) by (rewrite Hvs, nth_error_upd_neq by congruence; reflexivity).
        destruct (nth_error (vars s) k) as [[| |b]|] eqn:Ek; try (rewrite !reads_none; auto; intros b; congruence).
        destruct (inv_val _ _ _ _ Hr Ek) as (cb & _ & _ & _ & Hvb). rewrite (proj2 (reads_ptr s k b _ Hr Ek Hvb)).
        eapply reads_ptr; [exact Hi'|exact Hk'|]. rewrite Hvals. exact Hvb.
    - destruct Hp as [o Ho]; discriminate.
    - exfalso. apply Hp. eauto.
    - simpl. rewrite (bind_exc _ _ _ _ _ E). reflexivity.
  Qed.
End Proofs.
