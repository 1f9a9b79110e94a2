(** ListProofs.v -- lemmas about ListModel. *)
From Verif Require Import Base ListModel ListSpec.

Section ListProofs.
  Context {T : Type} (limit : Z).
  Notation vstore := (nat -> list T).

  Lemma append_loop_ok fuel : forall (st : vstore) d s pre post,
    d <> s -> st s = pre ++ post -> (Z.of_nat (length (st s)) < 2 ^ 32)%Z ->
    (Z.of_nat (length (st d) + length post) <= limit)%Z -> length post < fuel ->
    exists st', append_loop limit fuel (Z.of_nat (length pre)) d s st = Ret tt st' /\
      st' d = st d ++ post /\ (forall v, v <> d -> st' v = st v).
  Proof.
    induction fuel as [|fuel IH]; intros st d s pre post Hds Hs H32 Hlim Hfuel; [lia|].
    cbn [append_loop]. rewrite Hs, app_length.
    destruct post as [|x post].
    - destruct (Z.eqb_spec (Z.of_nat (length pre)) (Z.of_nat (length pre + length (@nil T)))) as [_|Hne].
      + exists st. rewrite app_nil_r. auto.
      + exfalso. apply Hne. simpl. lia.
    - destruct (Z.eqb_spec (Z.of_nat (length pre)) (Z.of_nat (length pre + length (x :: post)))) as [He|_].
      { exfalso. simpl in He. lia. }
      rewrite Nat2Z.id, nth_error_app_mid. unfold bind, append_elem, vpush.
      destruct (Z.ltb_spec (Z.of_nat (length (st d))) limit) as [_|Hge]; [|simpl in Hlim; lia].
      rewrite Hs, app_length in H32. simpl in H32, Hfuel, Hlim.
      rewrite wrap32_small by lia.
      replace (Z.of_nat (length pre) + 1)%Z with (Z.of_nat (length (pre ++ [x])))
        by (rewrite app_length; simpl; lia).
      destruct (IH (set_var st d (st d ++ [x])) d s (pre ++ [x]) post) as (st' & Hrun & Hd & Hoth); auto.
      + rewrite set_var_neq by auto. rewrite <- app_assoc. exact Hs.
      + rewrite set_var_neq by auto. rewrite Hs, app_length. simpl. lia.
      + rewrite set_var_eq, app_length. simpl. lia.
      + lia.
      + exists st'. rewrite Hrun, Hd, set_var_eq, <- app_assoc. split; [reflexivity|]. split; [reflexivity|].
        intros v Hv. rewrite Hoth by assumption. apply set_var_neq; assumption.
  Qed.

  Lemma append_ok (st : vstore) d s fuel : d <> s ->
    (Z.of_nat (length (st s)) < 2 ^ 32)%Z ->
    (Z.of_nat (length (st d) + length (st s)) <= limit)%Z -> length (st s) < fuel ->
    exists st', append limit fuel d s st = Ret tt st' /\ concatenate limit fuel d s st = Ret tt st' /\
      st' d = st d ++ st s /\ (forall v, v <> d -> st' v = st v).
  Proof.
    intros Hds H32 Hlim Hfuel.
    destruct (append_loop_ok fuel st d s [] (st s) Hds eq_refl H32 Hlim Hfuel) as (st' & Hr & Hd & Ho).
    exists st'. auto.
  Qed.

  (** a loop that can never see i == size() never returns normally *)
  Definition no_return {S A} (r : res S A) : Prop := forall a s, r <> Ret a s.

  Lemma append_loop_big fuel : forall (st : vstore) i d s,
    d <> s -> (0 <= i < 2 ^ 32)%Z -> (2 ^ 32 <= Z.of_nat (length (st s)))%Z ->
    append_loop limit fuel i d s st = Fuel \/
    exists st', append_loop limit fuel i d s st = Exc ELength st'.
  Proof.
    induction fuel as [|fuel IH]; intros st i d s Hds Hi Hbig; [left; reflexivity|].
    cbn [append_loop]. destruct (Z.eqb_spec i (Z.of_nat (length (st s)))) as [He|_]; [lia|].
    destruct (nth_error (st s) (Z.to_nat i)) as [x|] eqn:Hx.
    2:{ apply nth_error_None in Hx. lia. }
    unfold bind, append_elem. destruct (vpush limit (st d) x) as [l|]; [|right; eexists; reflexivity].
    apply IH; auto.
    - apply wrap32_range.
    - rewrite set_var_neq by auto. exact Hbig.
  Qed.

  Lemma append_loop_self fuel : forall (st : vstore) i d,
    (0 <= i < Z.of_nat (length (st d)))%Z ->
    append_loop limit fuel i d d st = Fuel \/
    exists st', append_loop limit fuel i d d st = Exc ELength st'.
  Proof.
    induction fuel as [|fuel IH]; intros st i d Hi; [left; reflexivity|].
    cbn [append_loop]. destruct (Z.eqb_spec i (Z.of_nat (length (st d)))) as [He|_]; [lia|].
    destruct (nth_error (st d) (Z.to_nat i)) as [x|] eqn:Hx.
    2:{ apply nth_error_None in Hx. lia. }
    unfold bind, append_elem, vpush. destruct (Z.ltb_spec (Z.of_nat (length (st d))) limit);
      [|right; eexists; reflexivity].
    apply IH. rewrite set_var_eq, app_length. simpl.
    assert (0 <= wrap32 (i + 1) <= i + 1)%Z.
    { unfold wrap32. split; [apply Z.mod_pos_bound; reflexivity|]. apply Z.mod_le; [lia|reflexivity]. }
    lia.
  Qed.

  (** with enough fuel the self-append does end: in an exception, after filling the memory *)
  Lemma append_loop_self_ends fuel : forall (st : vstore) i d,
    (0 <= i < Z.of_nat (length (st d)))%Z -> (Z.of_nat (length (st d)) <= limit)%Z ->
    (limit - Z.of_nat (length (st d)) < Z.of_nat fuel)%Z ->
    exists st' ext, append_loop limit fuel i d d st = Exc ELength st' /\
      st' d = st d ++ ext /\ Z.of_nat (length (st' d)) = limit /\ (forall v, v <> d -> st' v = st v).
  Proof.
    induction fuel as [|fuel IH]; intros st i d Hi Hle Hfuel; [lia|].
    cbn [append_loop]. destruct (Z.eqb_spec i (Z.of_nat (length (st d)))) as [He|_]; [lia|].
    destruct (nth_error (st d) (Z.to_nat i)) as [x|] eqn:Hx.
    2:{ apply nth_error_None in Hx. lia. }
    unfold bind, append_elem, vpush. destruct (Z.ltb_spec (Z.of_nat (length (st d))) limit).
    - assert (0 <= wrap32 (i + 1) <= i + 1)%Z.
      { unfold wrap32. split; [apply Z.mod_pos_bound; reflexivity|]. apply Z.mod_le; [lia|reflexivity]. }
      destruct (IH (set_var st d (st d ++ [x])) (wrap32 (i + 1)) d) as (st' & ext & Hr & Hd & Hl & Ho).
      + rewrite set_var_eq, app_length. simpl. lia.
      + rewrite set_var_eq, app_length. simpl. lia.
      + rewrite set_var_eq, app_length. simpl. lia.
      + exists st', ([x] ++ ext). split; [exact Hr|]. split; [rewrite Hd, set_var_eq, <- app_assoc; reflexivity|].
        split; [exact Hl|]. intros v Hv. rewrite Ho by assumption. apply set_var_neq; assumption.
    - exists st, []. rewrite app_nil_r. repeat split; auto. lia.
  Qed.

  Lemma append_big (st : vstore) d s fuel : d <> s ->
    (2 ^ 32 <= Z.of_nat (length (st s)))%Z -> no_return (append limit fuel d s st).
  Proof.
    intros Hds Hbig a st'. unfold append.
    destruct (append_loop_big fuel st 0 d s Hds) as [->|(st1 & ->)]; try lia; discriminate.
  Qed.

  Lemma append_self (st : vstore) d : st d <> [] ->
    Forall (fun member : nat -> nat -> nat -> M vstore unit =>
      (forall fuel, no_return (member fuel d d st)) /\
      (forall fuel, (Z.of_nat (length (st d)) <= limit)%Z ->
         (limit - Z.of_nat (length (st d)) < Z.of_nat fuel)%Z ->
         exists st' ext, member fuel d d st = Exc ELength st' /\
           st' d = st d ++ ext /\ Z.of_nat (length (st' d)) = limit /\ (forall v, v <> d -> st' v = st v)))
      [append limit; concatenate limit].
  Proof.
    intros Hne. assert (Hlen : (0 < Z.of_nat (length (st d)))%Z).
    { destruct (st d); [contradiction|simpl; lia]. }
    assert (H : (forall fuel, no_return (append_loop limit fuel 0 d d st)) /\
      (forall fuel, (Z.of_nat (length (st d)) <= limit)%Z ->
         (limit - Z.of_nat (length (st d)) < Z.of_nat fuel)%Z ->
         exists st' ext, append_loop limit fuel 0 d d st = Exc ELength st' /\
           st' d = st d ++ ext /\ Z.of_nat (length (st' d)) = limit /\ (forall v, v <> d -> st' v = st v))).
    { split.
      - intros fuel a st'.
        destruct (append_loop_self fuel st 0 d) as [->|(st1 & ->)]; try lia; discriminate.
      - intros fuel Hle Hf. apply append_loop_self_ends; lia. }
    repeat constructor; apply H.
  Qed.

  Lemma append_self_empty (st : vstore) d fuel : st d = [] ->
    append limit (S fuel) d d st = Ret tt st /\ concatenate limit (S fuel) d d st = Ret tt st.
  Proof. intros He. unfold append, concatenate. cbn [append_loop]. rewrite He. split; reflexivity. Qed.

  Lemma catenate_loop_ok (rest : list T) : forall r,
    (Z.of_nat (length r + length rest) <= limit)%Z -> catenate_loop limit r rest = Ret (r ++ rest) (tt : unit).
  Proof.
    induction rest as [|x rest IH]; intros r Hl; cbn [catenate_loop].
    - rewrite app_nil_r. reflexivity.
    - unfold vpush. simpl in Hl. destruct (Z.ltb_spec (Z.of_nat (length r)) limit); [|lia].
      rewrite IH; [rewrite <- app_assoc; reflexivity|]. rewrite app_length. simpl. lia.
  Qed.
  Lemma catenate_ok (l1 l2 : list T) :
    (Z.of_nat (length l1 + length l2) <= limit)%Z -> catenate limit l1 l2 = Ret (l1 ++ l2) tt.
  Proof. apply catenate_loop_ok. Qed.
  Lemma catenate_elem_ok (l1 : list T) t :
    (Z.of_nat (length l1) < limit)%Z -> catenate_elem limit l1 t = Ret (l1 ++ [t]) tt.
  Proof. intros Hl. unfold catenate_elem, vpush. destruct (Z.ltb_spec (Z.of_nat (length l1)) limit); [reflexivity|lia]. Qed.
  Lemma append_elem_ok (st : vstore) d t :
    (Z.of_nat (length (st d)) < limit)%Z ->
    exists st', append_elem limit d t st = Ret tt st' /\ st' d = st d ++ [t] /\ (forall v, v <> d -> st' v = st v).
  Proof.
    intros Hl. unfold append_elem, vpush. destruct (Z.ltb_spec (Z.of_nat (length (st d))) limit); [|lia].
    eexists; split; [reflexivity|]. rewrite set_var_eq. split; [reflexivity|].
    intros v Hv. apply set_var_neq; exact Hv.
  Qed.

  (** everything about append in one statement *)
  Lemma append_builds (st : vstore) d s t fuel :
    d <> s -> (Z.of_nat (length (st s)) < 2 ^ 32)%Z ->
    (Z.of_nat (length (st d) + length (st s)) < limit)%Z -> length (st s) < fuel ->
    (exists st', append limit fuel d s st = Ret tt st' /\ concatenate limit fuel d s st = Ret tt st' /\
                 st' d = st d ++ st s /\ (forall v, v <> d -> st' v = st v)) /\
    (exists st', append_elem limit d t st = Ret tt st' /\
                 st' d = st d ++ [t] /\ (forall v, v <> d -> st' v = st v)) /\
    catenate limit (st d) (st s) = Ret (st d ++ st s) tt /\
    catenate_elem limit (st d) t = Ret (st d ++ [t]) tt.
  Proof.
    intros Hds H32 Hlim Hfuel.
    split; [apply append_ok; auto; lia|]. split; [apply append_elem_ok; lia|].
    split; [apply catenate_ok; lia|]. apply catenate_elem_ok; lia.
  Qed.
End ListProofs.

Section ApplyProofs.
  Context {S T R : Type}.

  Lemma calls_app (f : T -> M S R) l1 : forall s rs1 s1 l2 rs2 s2,
    calls f l1 s rs1 s1 -> calls f l2 s1 rs2 s2 -> calls f (l1 ++ l2) s (rs1 ++ rs2) s2.
  Proof.
    induction l1 as [|x l1 IH]; intros s rs1 s1 l2 rs2 s2 H1 H2; inversion H1; subst; simpl; [exact H2|].
    econstructor; [eassumption|]. eapply IH; eassumption.
  Qed.

  (** the loop body [k] passes over the rest of the list, given what has been called so far *)
  Lemma apply_pass (f : T -> M S R) rest : forall pre s0 acc s,
    calls f pre s0 acc s -> pass f (pre ++ rest) s0 (apply_loop f rest acc s).
  Proof.
    induction rest as [|x rest IH]; intros pre s0 acc s Hc; cbn [apply_loop].
    - rewrite app_nil_r. apply pass_all. exact Hc.
    - unfold bind. destruct (f x s) as [r s1|e s1|r| |] eqn:Hf.
      + replace (pre ++ x :: rest) with ((pre ++ [x]) ++ rest) by (rewrite <- app_assoc; reflexivity).
        apply IH. eapply calls_app; [exact Hc|]. econstructor; [exact Hf|constructor].
      + eapply pass_exc; [reflexivity|exact Hc|exact Hf].
      + eapply pass_ub; [reflexivity|exact Hc|exact Hf].
      + eapply pass_abort; [reflexivity|exact Hc|exact Hf].
      + eapply pass_fuel; [reflexivity|exact Hc|exact Hf].
  Qed.
  Lemma apply_once (f : T -> M S R) l s : pass f l s (apply f l s).
  Proof. apply (apply_pass f l [] s [] s). constructor. Qed.

  Lemma elementwise_apply (f : T -> M S R) fuel : forall pre rest acc s,
    (Z.of_nat (length (pre ++ rest)) < 2 ^ 64)%Z -> length rest < fuel ->
    elementwise_loop fuel (Z.of_nat (length pre)) f (pre ++ rest) acc s = apply_loop f rest acc s.
  Proof.
    induction fuel as [|fuel IH]; intros pre rest acc s H64 Hfuel; [lia|].
    cbn [elementwise_loop]. rewrite app_length.
    destruct rest as [|x rest].
    - destruct (Z.eqb_spec (Z.of_nat (length pre)) (Z.of_nat (length pre + length (@nil T)))) as [_|Hne];
        [reflexivity|]. exfalso. apply Hne. simpl. lia.
    - destruct (Z.eqb_spec (Z.of_nat (length pre)) (Z.of_nat (length pre + length (x :: rest)))) as [He|_];
        [exfalso; simpl in He; lia|].
      rewrite Nat2Z.id, nth_error_app_mid. cbn [apply_loop]. unfold bind.
      destruct (f x s) as [r s1|e s1|r| |]; try reflexivity.
      rewrite app_length in H64. simpl in H64, Hfuel.
      rewrite wrap64_small by lia.
      replace (Z.of_nat (length pre) + 1)%Z with (Z.of_nat (length (pre ++ [x])))
        by (rewrite app_length; simpl; lia).
      replace (pre ++ x :: rest) with ((pre ++ [x]) ++ rest) by (rewrite <- app_assoc; reflexivity).
      apply IH; [|lia]. rewrite !app_length. simpl. lia.
  Qed.
  Lemma elementwise_once (f : T -> M S R) l s fuel :
    (Z.of_nat (length l) < 2 ^ 64)%Z -> length l < fuel -> pass f l s (elementwise fuel f l s).
  Proof.
    intros H64 Hf. unfold elementwise.
    pose proof (elementwise_apply f fuel [] l [] s H64 Hf) as He. simpl in He. rewrite He. apply apply_once.
  Qed.

End ApplyProofs.

Section Apply2Proofs.
  Context {S T1 T2 R : Type}.

  Lemma elementwise2_apply (f : T1 -> T2 -> M S R) fuel : forall pre1 rest1 pre2 rest2 acc s,
    length pre1 = length pre2 -> length rest1 = length rest2 ->
    (Z.of_nat (length (pre1 ++ rest1)) < 2 ^ 64)%Z -> length rest1 < fuel ->
    elementwise2_loop fuel (Z.of_nat (length pre1)) f (pre1 ++ rest1) (pre2 ++ rest2) acc s =
    apply_loop (fun p => f (fst p) (snd p)) (combine rest1 rest2) acc s.
  Proof.
    induction fuel as [|fuel IH]; intros pre1 rest1 pre2 rest2 acc s Hpre Hrest H64 Hfuel; [lia|].
    cbn [elementwise2_loop]. rewrite (app_length pre1).
    destruct rest1 as [|x rest1], rest2 as [|y rest2]; try discriminate.
    - destruct (Z.eqb_spec (Z.of_nat (length pre1)) (Z.of_nat (length pre1 + length (@nil T1)))) as [_|Hne];
        [reflexivity|]. exfalso. apply Hne. simpl. lia.
    - destruct (Z.eqb_spec (Z.of_nat (length pre1)) (Z.of_nat (length pre1 + length (x :: rest1)))) as [He|_];
        [exfalso; simpl in He; lia|].
      rewrite Nat2Z.id, nth_error_app_mid, Hpre, nth_error_app_mid.
      cbn [combine apply_loop fst snd]. unfold bind.
      destruct (f x y s) as [r s1|e s1|r| |]; try reflexivity.
      rewrite app_length in H64. simpl in H64, Hfuel, Hrest.
      rewrite wrap64_small by lia.
      replace (Z.of_nat (length pre2) + 1)%Z with (Z.of_nat (length (pre1 ++ [x])))
        by (rewrite app_length; simpl; lia).
      replace (pre1 ++ x :: rest1) with ((pre1 ++ [x]) ++ rest1) by (rewrite <- app_assoc; reflexivity).
      replace (pre2 ++ y :: rest2) with ((pre2 ++ [y]) ++ rest2) by (rewrite <- app_assoc; reflexivity).
      apply IH; [rewrite !app_length; simpl; lia|lia|rewrite !app_length; simpl; lia|lia].
  Qed.
  Lemma elementwise2_once (f : T1 -> T2 -> M S R) l1 l2 s fuel :
    (Z.of_nat (length l1) < 2 ^ 64)%Z -> length l1 < fuel ->
    (length l1 = length l2 -> forall ndebug,
       pass (fun p => f (fst p) (snd p)) (combine l1 l2) s (elementwise2 ndebug fuel f l1 l2 s)) /\
    (length l1 <> length l2 -> elementwise2 false fuel f l1 l2 s = Abort).
  Proof.
    intros H64 Hf. split.
    - intros Hl ndebug.
      assert (Hp : pass (fun p => f (fst p) (snd p)) (combine l1 l2) s (elementwise2_loop fuel 0 f l1 l2 [] s)).
      { pose proof (elementwise2_apply f fuel [] l1 [] l2 [] s eq_refl Hl H64 Hf) as He. simpl in He.
        rewrite He. apply apply_once. }
      unfold elementwise2. destruct ndebug; [exact Hp|]. rewrite (proj2 (Nat.eqb_eq _ _) Hl). exact Hp.
    - intros Hl. unfold elementwise2. rewrite (proj2 (Nat.eqb_neq _ _) Hl). reflexivity.
  Qed.

  (** without the assert, a shorter second list is read out of bounds after its last element *)
  Lemma elementwise2_ndebug_short (f : T1 -> T2 -> M S R) l1 l2 s fuel :
    (Z.of_nat (length l1) < 2 ^ 64)%Z -> length l2 < length l1 -> length l1 < fuel ->
    (forall x y s1, exists r s2, f x y s1 = Ret r s2) ->
    elementwise2 true fuel f l1 l2 s = Ub UbOutOfBounds.
  Proof.
    intros H64 Hlt Hf Htot. unfold elementwise2.
    assert (Hgen : forall fuel i acc s, i <= length l2 -> length l2 - i < fuel ->
              elementwise2_loop fuel (Z.of_nat i) f l1 l2 acc s = Ub UbOutOfBounds).
    { induction fuel0 as [|fuel0 IH]; intros i acc s0 Hi Hfu; [lia|]. cbn [elementwise2_loop].
      destruct (Z.eqb_spec (Z.of_nat i) (Z.of_nat (length l1))) as [He|_]; [lia|].
      rewrite Nat2Z.id.
      destruct (nth_error l1 i) as [x|] eqn:Hx; [|reflexivity].
      destruct (nth_error l2 i) as [y|] eqn:Hy; [|reflexivity].
      unfold bind. destruct (Htot x y s0) as (r & s2 & ->).
      rewrite wrap64_small by lia.
      assert (i < length l2) by (apply nth_error_Some; congruence).
      replace (Z.of_nat i + 1)%Z with (Z.of_nat (Datatypes.S i)) by lia. apply IH; lia. }
    apply (Hgen fuel 0 [] s); lia.
  Qed.
End Apply2Proofs.
