(** MapProofs.v -- lemmas about MapModel. *)
From Verif Require Import Base StdOrd SetModel SetSpec SetProofs MapModel MapSpec.

Section MapProofs.
  Context {K V : Type} (ltb : K -> K -> bool) (HO : SWO ltb) (dflt : V).
  Notation eqv := (eqvb ltb).
  Notation pltb := (@pltb K V ltb).
  Notation msorted := (increasing pltb).

  Lemma pltb_swo : SWO pltb.
  Proof.
    destruct HO as [H1 H2 H3]. constructor; unfold MapModel.pltb.
    - intros x. apply H1.
    - intros x y z. apply H2.
    - intros x y z. apply H3.
  Qed.

  Lemma peqv a b : eqvb pltb a b = eqv (fst a) (fst b).
  Proof. reflexivity. Qed.

  Lemma mfind_as_set k (m : list (K * V)) v : mfind ltb k m = find_elem (fun x => x) pltb (k, v) m.
  Proof.
    unfold mfind. induction m as [|h t IH]; simpl; [reflexivity|]. rewrite peqv. simpl.
    destruct (eqv (fst h) k); [reflexivity|exact IH].
  Qed.
  Lemma mfind_insert (m : list (K * V)) e x : msorted m ->
    mfind ltb x (minsert ltb m e) =
    if eqv (fst e) x then (match mfind ltb x m with Some y => Some y | None => Some e end) else mfind ltb x m.
  Proof.
    intros Hs. rewrite !(mfind_as_set _ _ (snd e)). unfold minsert, sinsert.
    destruct (eqv (fst e) x) eqn:Hq.
    - apply (insert_elem_find_same (fun x => x) pltb pltb_swo); [exact Hs|exact Hq].
    - apply (insert_elem_find_other (fun x => x) pltb). exact Hq.
  Qed.
  Lemma mfind_cons x h (t : list (K * V)) : mfind ltb x (h :: t) = if eqv (fst h) x then Some h else mfind ltb x t.
  Proof. reflexivity. Qed.
  Lemma minsert_sorted (m : list (K * V)) e : msorted m -> msorted (minsert ltb m e).
  Proof. apply sinsert_sorted. exact pltb_swo. Qed.
  Lemma mfind_eqv (m : list (K * V)) k k' : eqv k k' = true -> mfind ltb k m = mfind ltb k' m.
  Proof.
    intros Hq. unfold mfind. induction m as [|h t IH]; simpl; [reflexivity|].
    rewrite (eqvb_cong_r ltb HO k k' (fst h) Hq). destruct (eqv (fst h) k'); [reflexivity|exact IH].
  Qed.
  Lemma merase_sorted (m : list (K * V)) k : msorted m -> msorted (merase ltb m k).
  Proof.
    intros Hs. unfold merase. rewrite erase_key_filter. apply (filter_sorted (fun x => x) pltb). exact Hs.
  Qed.
  Lemma mfind_erase (m : list (K * V)) k x :
    mfind ltb x (merase ltb m k) = if eqv k x then None else mfind ltb x m.
  Proof. apply (erase_key_find fst ltb HO). Qed.
  Lemma remove_keys_spec s : forall m : list (K * V), msorted m ->
    msorted (remove_keys ltb s m) /\
    forall x, mfind ltb x (remove_keys ltb s m) = if in_list ltb s x then None else mfind ltb x m.
  Proof.
    unfold remove_keys. induction s as [|h t IH]; intros m Hs; simpl; [auto|].
    destruct (IH (merase ltb m h) (merase_sorted m h Hs)) as [H1 H2]. split; [exact H1|].
    intros x. rewrite H2, mfind_erase. destruct (eqv h x), (in_list ltb t x); reflexivity.
  Qed.

  Lemma mwrite_sorted k v (m : list (K * V)) : msorted m -> msorted (mwrite ltb k v m).
  Proof.
    unfold mwrite, increasing. intros Hs. induction Hs as [|h t Hs IH Hh]; simpl; constructor; [exact IH|].
    rewrite Forall_forall in *. intros y Hy. apply in_map_iff in Hy as (z & <- & Hz). specialize (Hh z Hz).
    unfold MapModel.pltb in *. destruct (eqv (fst h) k), (eqv (fst z) k); exact Hh.
  Qed.
  Lemma mfind_write k v (m : list (K * V)) x : 
    mfind ltb x (mwrite ltb k v m) =
    match mfind ltb x m with
    | Some e => Some (if eqv k x then (fst e, v) else e)
    | None => None
    end.
  Proof.
    unfold mwrite, mfind. induction m as [|h t IH]; simpl; [reflexivity|].
    assert (Hf : fst (if eqv (fst h) k then (fst h, v) else h) = fst h) by (destruct (eqv (fst h) k); reflexivity).
    rewrite Hf. destruct (eqv (fst h) x) eqn:Hq; [|exact IH]. f_equal.
    rewrite (eqvb_sym ltb k x). rewrite (eqvb_cong_l ltb HO (fst h) x k Hq). reflexivity.
  Qed.

  Lemma fold_minsert rest : forall acc : list (K * V), msorted acc -> msorted (fold_left (minsert ltb) rest acc) /\
    forall x, mfind ltb x (fold_left (minsert ltb) rest acc) =
              match mfind ltb x acc with Some e => Some e | None => mfind ltb x rest end.
  Proof.
    induction rest as [|h t IH]; intros acc Hs; cbn [fold_left].
    - split; [exact Hs|]. intros x. destruct (mfind ltb x acc); reflexivity.
    - destruct (IH (minsert ltb acc h) (minsert_sorted acc h Hs)) as [H1 H2]. split; [exact H1|].
      intros x. rewrite H2, mfind_insert by exact Hs. rewrite mfind_cons.
      destruct (eqv (fst h) x); [|reflexivity]. destruct (mfind ltb x acc); reflexivity.
  Qed.

  Lemma madjoin_other s (m : list (K * V)) : msorted m -> msorted s ->
    exists r, madjoin ltb (other_arg s) m = Some r /\ msorted r /\
      forall x, mfind ltb x r = match mfind ltb x m with Some e => Some e | None => mfind ltb x s end.
  Proof.
    intros Hm Hs. destruct (fold_minsert s m Hm) as [H1 H2]. eexists. split; [|split; [exact H1|exact H2]].
    unfold madjoin, adjoin. apply (adjoin_other_gen pltb pltb_swo s [] s); auto.
  Qed.
  Lemma madjoin_arg st d s : (forall v, msorted (st v)) ->
    exists r, madjoin ltb (marg st d s) (st d) = Some r /\ msorted r /\
      forall x, mfind ltb x r = match mfind ltb x (st d) with Some e => Some e | None => mfind ltb x (st s) end.
  Proof.
    intros Hs. unfold marg. destruct (Nat.eqb_spec d s) as [<-|].
    - exists (st d). split; [|split; [apply Hs|intros x; destruct (mfind ltb x (st d)); reflexivity]].
      unfold madjoin, adjoin, self_arg at 1 2. apply (adjoin_self_gen pltb pltb_swo (st d) [] (st d)); auto.
    - apply madjoin_other; apply Hs.
  Qed.

  Lemma restrict_loop s rest : forall acc : list (K * V), msorted acc ->
    let r := fold_left (fun r e => if contains ltb s (fst e) then minsert ltb r e else r) rest acc in
    msorted r /\
    forall x, mfind ltb x r = match mfind ltb x acc with
                              | Some e => Some e
                              | None => if in_list ltb s x then mfind ltb x rest else None
                              end.
  Proof.
    induction rest as [|h t IH]; intros acc Hs; cbn [fold_left].
    - split; [exact Hs|]. intros x. destruct (mfind ltb x acc); [reflexivity|]. destruct (in_list ltb s x); reflexivity.
    - destruct (contains ltb s (fst h)) eqn:Hc.
      + destruct (IH _ (minsert_sorted acc h Hs)) as [H1 H2]. split; [exact H1|]. intros x.
        rewrite H2, mfind_insert by exact Hs. rewrite mfind_cons.
        destruct (eqv (fst h) x) eqn:Hq; [|reflexivity].
        rewrite contains_in_list, <- contains_in_list, (contains_eqv ltb HO s _ _ Hq), contains_in_list in Hc.
        rewrite Hc. destruct (mfind ltb x acc); reflexivity.
      + destruct (IH acc Hs) as [H1 H2]. split; [exact H1|]. intros x. rewrite H2.
        rewrite mfind_cons. destruct (eqv (fst h) x) eqn:Hq; [|reflexivity].
        rewrite (contains_eqv ltb HO s _ _ Hq), contains_in_list in Hc. rewrite Hc. reflexivity.
  Qed.

  (** ** programs *)
  Definition MRel (st : nat -> list (K * V)) (p : nat -> fmap) : Prop :=
    (forall v, msorted (st v)) /\ (forall v x, mfind ltb x (st v) = p v x).

  Lemma MRel_set st p d l q : MRel st p -> msorted l -> (forall x, mfind ltb x l = q x) ->
    MRel (set_var st d l) (set_var p d q).
  Proof.
    intros [H1 H2] Hl Hq. split.
    - intros v. unfold set_var. destruct (Nat.eqb v d); [exact Hl|apply H1].
    - intros v x. unfold set_var. destruct (Nat.eqb v d); [apply Hq|apply H2].
  Qed.
  Lemma MRel_same st p d : MRel st p -> MRel (set_var st d (st d)) p.
  Proof.
    intros [H1 H2]. split.
    - intros v. unfold set_var. destruct (Nat.eqb_spec v d) as [->|]; apply H1.
    - intros v x. unfold set_var. destruct (Nat.eqb_spec v d) as [->|]; apply H2.
  Qed.

  Lemma fadd_rel (m : list (K * V)) f k v : msorted m -> (forall x, mfind ltb x m = f x) ->
    forall x, mfind ltb x (minsert ltb m (k, v)) = fadd ltb k v f x.
  Proof.
    intros Hs Hf x. rewrite mfind_insert by exact Hs. simpl. unfold fadd, fset. rewrite <- (Hf k).
    destruct (eqv k x) eqn:Hq.
    - rewrite <- (mfind_eqv m k x Hq). destruct (mfind ltb k m) eqn:Hk; [|rewrite Hq; reflexivity].
      rewrite <- Hf, <- (mfind_eqv m k x Hq), Hk. reflexivity.
    - destruct (mfind ltb k m); [apply Hf|]. rewrite Hq. apply Hf.
  Qed.
  Lemma fassign_rel (m : list (K * V)) f k v v0 : msorted m -> (forall x, mfind ltb x m = f x) ->
    forall x, mfind ltb x (mwrite ltb k v (minsert ltb m (k, v0))) = fassign ltb k v f x.
  Proof.
    intros Hs Hf x. rewrite mfind_write, mfind_insert by exact Hs. simpl. unfold fassign, fset.
    destruct (eqv k x) eqn:Hq.
    - rewrite <- (mfind_eqv m k x Hq), (Hf k). destruct (f k); reflexivity.
    - rewrite Hf. destruct (f x); reflexivity.
  Qed.
  Lemma fassign_rel' (m : list (K * V)) f k v e : (forall x, mfind ltb x m = f x) -> f k = Some e ->
    forall x, mfind ltb x (mwrite ltb k v m) = fassign ltb k v f x.
  Proof.
    intros Hf Hk x. rewrite mfind_write. unfold fassign, fset. rewrite Hk.
    destruct (eqv k x) eqn:Hq.
    - rewrite <- (mfind_eqv m k x Hq), (Hf k), Hk. reflexivity.
    - rewrite Hf. destruct (f x); reflexivity.
  Qed.

  Lemma mlookup_rel st p d k : MRel st p ->
    exists st', mlookup ltb k d st = Ret (lookup_out k (p d)) st' /\ MRel st' p.
  Proof.
    intros HR. pose proof HR as [Hs Hp]. unfold mlookup, mget, lookup_out. rewrite (Hp d k).
    destruct (p d k); eexists; (split; [reflexivity|apply MRel_same; exact HR]).
  Qed.
  Lemma mread_rel st p d k v : MRel st p ->
    let st1 := set_var st d (minsert ltb (st d) (k, v)) in
    mread ltb k d st1 = Ret (OutVal (fdef v k (p d))) st1 /\ MRel st1 (set_var p d (fadd ltb k v (p d))).
  Proof.
    intros HR. pose proof HR as [Hs Hp]. cbv zeta. split.
    - unfold mread. rewrite set_var_eq. rewrite mfind_insert by apply Hs. simpl.
      rewrite eqvb_refl by exact HO. rewrite Hp. unfold fdef. destruct (p d k); reflexivity.
    - apply MRel_set; [exact HR|apply minsert_sorted, Hs|]. apply fadd_rel; [apply Hs|apply Hp].
  Qed.

  Lemma mstep_refines o st p : MRel st p ->
    exists st', mstep ltb dflt o st = Ret (snd (spec_mstep ltb dflt o p)) st' /\
      MRel st' (fst (spec_mstep ltb dflt o p)).
  Proof.
    intros HR. pose proof HR as [Hs Hp].
    destruct o as [d|d s|d k|d k v|d k|d k|d k|d k v|d k|d k v|d k v|d k v w|d s|d s|d s1 s2|d s ks];
      cbn [mstep spec_mstep fst snd].
    - eexists; split; [reflexivity|]. apply MRel_set; [exact HR|constructor|reflexivity].
    - eexists; split; [reflexivity|]. apply MRel_set; [exact HR|apply Hs|apply Hp].
    - destruct (mread_rel st p d k dflt HR) as [H1 H2]. eexists; split; [exact H1|exact H2].
    - eexists; split; [reflexivity|]. apply MRel_set; [exact HR|apply mwrite_sorted, minsert_sorted, Hs|].
      apply fassign_rel; [apply Hs|apply Hp].
    - apply mlookup_rel. exact HR.
    - apply mlookup_rel. exact HR.
    - apply mlookup_rel. exact HR.
    - unfold mget. rewrite (Hp d k). destruct (p d k) as [e|] eqn:Hk; cbn [fst snd].
      + eexists; split; [reflexivity|]. apply MRel_set; [exact HR|apply mwrite_sorted, Hs|].
        apply (fassign_rel' _ _ k v e); [apply Hp|exact Hk].
      + eexists; split; [reflexivity|]. apply MRel_same. exact HR.
    - eexists; split; [|exact HR]. unfold has_key. rewrite Hp. reflexivity.
    - eexists; split; [reflexivity|]. apply MRel_set; [exact HR|apply minsert_sorted, Hs|].
      apply fadd_rel; [apply Hs|apply Hp].
    - destruct (mread_rel st p d k v HR) as [H1 H2]. eexists; split; [exact H1|exact H2].
    - eexists; split; [reflexivity|]. apply MRel_set; [exact HR|apply mwrite_sorted, minsert_sorted, Hs|].
      apply fassign_rel; [apply Hs|apply Hp].
    - destruct (madjoin_arg st d s Hs) as (r & -> & Hrs & Hrf). eexists; split; [reflexivity|].
      apply MRel_set; [exact HR|exact Hrs|]. intros x. rewrite Hrf, !Hp. reflexivity.
    - destruct (remove_keys_spec s (st d) (Hs d)) as [H1 H2]. eexists; split; [reflexivity|].
      apply MRel_set; [exact HR|exact H1|]. intros x. rewrite H2, Hp. reflexivity.
    - unfold mjoin. destruct (madjoin_other (st s2) (st s1) (Hs s1) (Hs s2)) as (r & -> & Hrs & Hrf).
      eexists; split; [reflexivity|]. apply MRel_set; [exact HR|exact Hrs|]. intros x. rewrite Hrf, !Hp. reflexivity.
    - destruct (restrict_loop ks (st s) [] (@sorted_nil _ pltb)) as [H1 H2]. eexists; split; [reflexivity|].
      apply MRel_set; [exact HR|exact H1|]. intros x. unfold restrict_keys. rewrite H2. simpl. rewrite Hp. reflexivity.
  Qed.

  Lemma mrun_refines ops : forall st p, MRel st p ->
    exists st', mrun ltb dflt ops st = Ret (snd (spec_mrun ltb dflt ops p)) st' /\
      MRel st' (fst (spec_mrun ltb dflt ops p)).
  Proof.
    induction ops as [|o t IH]; intros st p HR; cbn [mrun spec_mrun].
    - exists st. auto.
    - destruct (mstep_refines o st p HR) as (st1 & H1 & HR1).
      destruct (spec_mstep ltb dflt o p) as [p1 a] eqn:Hsp. simpl in H1, HR1.
      destruct (IH st1 p1 HR1) as (st2 & H2 & HR2).
      destruct (spec_mrun ltb dflt t p1) as [p2 r] eqn:Hsr. simpl in *.
      exists st2. unfold bind. rewrite H1, H2. split; [reflexivity|exact HR2].
  Qed.

  (** ** keys and values *)
  Lemma keys_map (m : list (K * V)) : msorted m -> keys ltb m = map fst m /\ increasing ltb (map fst m).
  Proof.
    intros Hs. assert (Hk : increasing ltb (map fst m)).
    { unfold increasing in *. induction Hs as [|h t Hs IH Hh]; simpl; constructor; [exact IH|].
      rewrite Forall_forall in *. intros y Hy. apply in_map_iff in Hy as (z & <- & Hz). apply (Hh z Hz). }
    split; [|exact Hk]. unfold keys. rewrite <- (set_of_sorted ltb (map fst m) Hk).
    unfold set_of_list. generalize (@nil K). clear. induction m as [|h t IH]; intros acc; simpl; [reflexivity|].
    apply IH.
  Qed.
  Lemma values_map (m : list (K * V)) : values m = map snd m.
  Proof.
    unfold values. enough (H : forall acc, fold_left (fun r e => r ++ [snd e]) m acc = acc ++ map snd m)
      by apply (H []).
    induction m as [|h t IH]; intros acc; simpl; [rewrite app_nil_r; reflexivity|].
    rewrite IH, <- app_assoc. reflexivity.
  Qed.
  Lemma combine_fst_snd {A B} (l : list (A * B)) : combine (map fst l) (map snd l) = l.
  Proof. induction l as [|[a b] t IH]; simpl; congruence. Qed.

  Lemma tabulate_spec (m : list (K * V)) f : msorted m -> (forall x, mfind ltb x m = f x) ->
    tabulates ltb f (keys ltb m) (values m).
  Proof.
    intros Hs Hf. destruct (keys_map m Hs) as [-> Hk]. rewrite values_map. split; [|split; [exact Hk|split]].
    - rewrite !map_length. reflexivity.
    - intros k v Hin. rewrite combine_fst_snd in Hin. rewrite <- Hf.
      rewrite (mfind_as_set _ _ v).
      apply (find_elem_sorted (fun x => x) pltb pltb_swo); [exact Hs|exact Hin|].
      apply eqvb_refl. exact pltb_swo.
    - intros x e He. rewrite combine_fst_snd. rewrite <- Hf in He. apply find_elem_In in He as [Hin _]. exact Hin.
  Qed.

  Lemma map_histories ops :
    exists st', mrun ltb dflt ops (fun _ => []) = Ret (snd (spec_mrun ltb dflt ops (fun _ => fempty))) st' /\
      forall v,
        (forall k, mget ltb k (st' v) = match fst (spec_mrun ltb dflt ops (fun _ => fempty)) v k with
                                        | Some e => Ret (snd e) (st' v)
                                        | None => Exc ERuntime (st' v)
                                        end) /\
        tabulates ltb (fst (spec_mrun ltb dflt ops (fun _ => fempty)) v) (keys ltb (st' v)) (values (st' v)).
  Proof.
    destruct (mrun_refines ops (fun _ => []) (fun _ => fempty)) as (st' & Hr & Hs & Hp).
    - split; [intros v; constructor|reflexivity].
    - exists st'. split; [exact Hr|]. intros v. split.
      + intros k. unfold mget. rewrite Hp. reflexivity.
      + apply tabulate_spec; [apply Hs|apply Hp].
  Qed.

  (** ** the individual claims, in terms of get and has_key *)
  Definition agree (st : nat -> list (K * V)) (v : nat) (k : K) (r : option V) : Prop :=
    mget ltb k (st v) = match r with Some x => Ret x (st v) | None => Exc ERuntime (st v) end.

  Lemma never_overwrite (st : nat -> list (K * V)) d s s2 k v : (forall v, increasing pltb (st v)) ->
    (forall o, In o [MInsert d k v; MFreeInsert d k v; MAdjoin d s; MJoin s2 d s] ->
      exists out st', mstep ltb dflt o st = Ret out st' /\
        let t := match o with MJoin _ _ _ => s2 | _ => d end in
        (forall x y, mget ltb x (st d) = Ret y (st d) -> mget ltb x (st' t) = Ret y (st' t)) /\
        (forall x, mget ltb x (st d) = Exc ERuntime (st d) ->
           match o with
           | MInsert _ _ _ | MFreeInsert _ _ _ =>
               mget ltb x (st' t) = if eqv k x then Ret v (st' t) else Exc ERuntime (st' t)
           | _ => mget ltb x (st' t) = match mget ltb x (st s) with
                                       | Ret y _ => Ret y (st' t)
                                       | _ => Exc ERuntime (st' t)
                                       end
           end)).
  Proof.
    intros Hs o Ho.
    destruct (mstep_refines o st (fun v x => mfind ltb x (st v))) as (st' & Hr & Hs' & Hp).
    { split; [exact Hs|reflexivity]. }
    eexists. exists st'. split; [exact Hr|]. cbv zeta.
    assert (Hget : forall x y, mget ltb x (st d) = Ret y (st d) -> exists e, mfind ltb x (st d) = Some e /\ snd e = y).
    { intros x y. unfold mget. destruct (mfind ltb x (st d)) as [e|]; [|discriminate]. injection 1 as <-. eauto. }
    assert (Hno : forall x, mget ltb x (st d) = Exc ERuntime (st d) -> mfind ltb x (st d) = None).
    { intros x. unfold mget. destruct (mfind ltb x (st d)); [discriminate|reflexivity]. }
    assert (Hfadd : forall x, fadd ltb k v (fun x => mfind ltb x (st d)) x =
      match mfind ltb x (st d) with Some e => Some e | None => if eqv k x then Some (k, v) else None end).
    { intros x. rewrite <- (fadd_rel (st d) _ k v (Hs d) (fun _ => eq_refl)). rewrite mfind_insert by apply Hs.
      simpl. destruct (eqv k x), (mfind ltb x (st d)); reflexivity. }
    destruct Ho as [<-|[<-|[<-|[<-|[]]]]]; cbn [spec_mstep fst] in Hp.
    1,2: split; [intros x y Hx; apply Hget in Hx as (e & Hx & <-)|intros x Hx; apply Hno in Hx];
      unfold mget; rewrite Hp, set_var_eq, Hfadd, Hx; [reflexivity|]; destruct (eqv k x); reflexivity.
    all: split; [intros x y Hx; apply Hget in Hx as (e & Hx & <-)|intros x Hx; apply Hno in Hx];
      unfold mget; rewrite Hp, set_var_eq; unfold funion; rewrite Hx; [reflexivity|]; destruct (mfind ltb x (st s)); reflexivity.
  Qed.

  Lemma lookups (st : nat -> list (K * V)) d k : (forall v, increasing pltb (st v)) ->
    (forall o, In o [MConstIndex d k; MGet d k; MValue d k] ->
      exists out st', mstep ltb dflt o st = Ret out st' /\
        (forall v, st' v = st v) /\
        (forall e, In e (st d) -> eqv (fst e) k = true -> out = OutVal (snd e)) /\
        ((forall e, In e (st d) -> eqv (fst e) k = false) -> out = OutThrow)) /\
    (exists out st', mstep ltb dflt (MIndexRead d k) st = Ret out st' /\
       (forall v, v <> d -> st' v = st v) /\
       (forall e, In e (st d) -> eqv (fst e) k = true -> out = OutVal (snd e) /\ st' d = st d) /\
       ((forall e, In e (st d) -> eqv (fst e) k = false) ->
          out = OutVal dflt /\ increasing pltb (st' d) /\
          forall e, In e (st' d) <-> e = (k, dflt) \/ In e (st d))).
  Proof.
    intros Hs.
    assert (Hin : forall e, In e (st d) -> eqv (fst e) k = true -> mfind ltb k (st d) = Some e).
    { intros e He Hq. rewrite (mfind_as_set _ _ dflt).
      apply (find_elem_sorted (fun x => x) pltb pltb_swo); [apply Hs|exact He|exact Hq]. }
    assert (Hno : (forall e, In e (st d) -> eqv (fst e) k = false) -> mfind ltb k (st d) = None).
    { intros He. apply (find_elem_None fst ltb). exact He. }
    split.
    - intros o Ho. exists (lookup_out k (fun x => mfind ltb x (st d))), (set_var st d (st d)). split; [|split; [|split]].
      + unfold lookup_out. destruct Ho as [<-|[<-|[<-|[]]]]; cbn [mstep]; unfold mlookup, mget;
          destruct (mfind ltb k (st d)); reflexivity.
      + intros v. unfold set_var. destruct (Nat.eqb_spec v d) as [->|]; reflexivity.
      + intros e He Hq. unfold lookup_out. rewrite (Hin e He Hq). reflexivity.
      + intros He. unfold lookup_out. rewrite (Hno He). reflexivity.
    - destruct (mread_rel st (fun v x => mfind ltb x (st v)) d k dflt) as [H1 [H2 _]].
      { split; [exact Hs|reflexivity]. }
      eexists. eexists. split; [exact H1|]. split; [|split].
      + intros v Hv. apply set_var_neq. exact Hv.
      + intros e He Hq. unfold fdef. rewrite (Hin e He Hq). split; [reflexivity|].
        rewrite set_var_eq. apply (insert_present pltb pltb_swo); [apply Hs|].
        apply contains_true. exists e. split; [exact He|exact Hq].
      + intros He. unfold fdef. rewrite (Hno He). split; [reflexivity|]. split; [apply H2|].
        intros e. rewrite set_var_eq. unfold minsert, sinsert.
        assert (Hn : find_elem (fun x : K * V => x) pltb (k, dflt) (st d) = None).
        { rewrite <- (mfind_as_set k (st d) dflt). apply Hno. exact He. }
        clear H1 H2. split; intros H3.
        * apply insert_elem_In in H3. destruct H3 as [->|H3]; auto.
        * destruct H3 as [->|H3].
          -- specialize (mfind_insert (st d) (k, dflt) k (Hs d)). simpl. rewrite eqvb_refl by exact HO.
             rewrite (Hno He). intros Hf. apply find_elem_In in Hf as [Hf _]. exact Hf.
          -- apply insert_elem_keeps. exact H3.
  Qed.

  Lemma restrict_keys_std_set (m : list (K * V)) s : restrict_keys_by ltb StdSet m s = Ub UbBadDowncast.
  Proof. reflexivity. Qed.
  Lemma restrict_keys_set (m : list (K * V)) s : increasing pltb m ->
    exists r, restrict_keys_by ltb HelperSet m s = Ret r tt /\
      (forall x, mfind ltb x r = if in_list ltb s x then mfind ltb x m else None) /\
      tabulates ltb (fun x => if in_list ltb s x then mfind ltb x m else None) (keys ltb r) (values r).
  Proof.
    intros Hs. destruct (restrict_loop s m [] (@sorted_nil _ pltb)) as [H1 H2].
    exists (restrict_keys ltb m s). split; [reflexivity|]. split; [exact H2|].
    apply tabulate_spec; [exact H1|exact H2].
  Qed.

  Lemma key_functions (m : list (K * V)) s : increasing pltb m ->
    (forall x, mfind ltb x (remove_keys ltb s m) = if in_list ltb s x then None else mfind ltb x m) /\
    (forall x, contains ltb (keys ltb m) x = has_key ltb m x) /\
    tabulates ltb (fun x => mfind ltb x m) (keys ltb m) (values m).
  Proof.
    intros Hs. split; [apply remove_keys_spec; exact Hs|]. split.
    - intros x. destruct (keys_map m Hs) as [-> Hk]. rewrite contains_in_list. unfold has_key, mfind, in_list.
      clear. induction m as [|h t IH]; simpl; [reflexivity|]. destruct (eqv (fst h) x); [reflexivity|exact IH].
    - apply tabulate_spec; [exact Hs|reflexivity].
  Qed.
End MapProofs.
