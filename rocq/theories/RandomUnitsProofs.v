(** RandomUnitsProofs.v -- lemmas about RandomUnitsModel. *)
From Verif Require Import Base RandomModel RandomSpec RandomProofs RandomUnitsModel RandomUnitsSpec.
Local Open Scope monad_scope.

Section Units.
  Context {T G Ds : Type} (next : G -> Z * G) (dmake : T -> T -> Ds) (ddraw : Ds -> draw (T * Ds)).
  Context (home : nat -> nat) (seeds : nat -> G).
  Notation urun := (urun next dmake ddraw home seeds).
  Notation ust := (ust G Ds).
  Definition begin_ (s : ust) (u : nat) : G := match generators s u with Some g => g | None => seeds u end.
  Definition ready_from (s : ust) (p : list (uop T)) : Prop := forall i k, nth_error p i = Some (UCall (RGet k)) ->
    (generators s (home k) <> None \/ In (UInit (home k)) (firstn i p)) /\
    (uvars s k <> None \/ exists a b, In (UCall (RNew k a b)) (firstn i p)).
  Lemma ready_tail s o p s' : ready_from s (o :: p) ->
    (forall u, generators s u <> None \/ o = UInit u -> generators s' u <> None) ->
    (forall k, uvars s k <> None \/ (exists a b, o = UCall (RNew k a b)) -> uvars s' k <> None) -> ready_from s' p.
  Proof.
    intros H Hg Hv i k Hi. destruct (H (S i) k Hi) as [H1 H2]. cbn [firstn In] in H1, H2. split.
    - destruct H1 as [H1|[H1|H1]]; [left; apply Hg; left; exact H1|left; apply Hg; right; exact H1|right; exact H1].
    - destruct H2 as [H2|(a & b & [H2|H2])]; [left; apply Hv; left; exact H2|left; apply Hv; right; eauto|right; eauto].
  Qed.
  Lemma units_run p : forall s, ready_from s p -> NoDup (initialised p) -> (forall u, In u (initialised p) -> generators s u = None) ->
    exists l s' cs, urun p s = Ret l s' /\ draws dmake ddraw (uvars s) (calls p) cs l (uvars s') /\
      forall u, exists n, used_from u (draw_homes home (calls p)) cs = outputs next n (begin_ s u) /\ begin_ s' u = advance next n (begin_ s u).
  Proof.
    induction p as [|o p IH]; intros s Hr Hnd Hno.
    - exists [], s, []. split; [reflexivity|]. split; [constructor|]. intros u. exists 0. split; reflexivity.
    - destruct o as [u|[k a b|k]].
      + simpl in Hnd. inversion Hnd as [|? ? Hnin Hnd']; subst.
        destruct (IH (mkUst (uvars s) (set_var (generators s) u (Some (seeds u))))) as (l & s' & cs & E & Hd & Ho).
        * apply (ready_tail s (UInit u) p); [exact Hr| |]; cbn [generators uvars].
          -- intros v [Hv|Hv]; [unfold set_var; destruct (Nat.eqb v u); congruence|]. injection Hv as ->. rewrite set_var_eq. discriminate.
          -- intros k [Hk|(a & b & Hk)]; [exact Hk|discriminate].
        * exact Hnd'.
        * intros v Hv. cbn [generators]. rewrite set_var_neq; [apply Hno; right; exact Hv|congruence].
        * exists l, s', cs. split; [|split].
          -- cbn [RandomUnitsModel.urun ustep]. unfold bind, init_unit, ret. rewrite E. reflexivity.
          -- exact Hd.
          -- intros v. destruct (Ho v) as (n & H1 & H2). exists n.
             assert (begin_ (mkUst (uvars s) (set_var (generators s) u (Some (seeds u)))) v = begin_ s v) as Eb.
             { unfold begin_. cbn [generators]. destruct (Nat.eq_dec v u) as [->|Hn]; [|rewrite set_var_neq by congruence; reflexivity].
               rewrite set_var_eq, (Hno u (or_introl eq_refl)). reflexivity. }
             rewrite Eb in *. auto.
      + destruct (IH (mkUst (set_var (uvars s) k (Some (dmake a b))) (generators s))) as (l & s' & cs & E & Hd & Ho).
        * apply (ready_tail s (UCall (RNew k a b)) p); [exact Hr| |]; cbn [generators uvars].
          -- intros v [Hv|Hv]; [exact Hv|discriminate].
          -- intros k' [Hk|(a' & b' & Hk)]; [unfold set_var; destruct (Nat.eqb k' k); congruence|]. injection Hk as -> -> ->. rewrite set_var_eq. discriminate.
        * exact Hnd.
        * exact Hno.
        * exists (None :: l), s', cs. split; [|split].
          -- cbn [RandomUnitsModel.urun ustep]. unfold bind, unew, ret. rewrite E. reflexivity.
          -- constructor. exact Hd.
          -- exact Ho.
      + destruct (Hr 0 k eq_refl) as [[Hg|[]] [Hv|(a & b & [])]].
        destruct (uvars s k) as [d|] eqn:Ek; [|congruence]. destruct (generators s (home k)) as [g|] eqn:Eg; [|congruence].
        destruct (feed_ok next (ddraw d) g) as (n & Ha & Hg'). destruct (feed next (ddraw d) g) as [[v d'] g'] eqn:Ef. cbn [fst snd] in Ha, Hg'.
        set (s1 := mkUst (set_var (uvars s) k (Some d')) (set_var (generators s) (home k) (Some g'))).
        destruct (IH s1) as (l & s' & cs & E & Hd & Ho).
        * apply (ready_tail s (UCall (RGet k)) p); [exact Hr| |]; unfold s1; cbn [generators uvars].
          -- intros u [Hu|Hu]; [unfold set_var; destruct (Nat.eqb u (home k)); congruence|discriminate].
          -- intros k' [Hk|(a' & b' & Hk)]; [unfold set_var; destruct (Nat.eqb k' k); congruence|discriminate].
        * exact Hnd.
        * intros u Hu. unfold s1. cbn [generators]. rewrite set_var_neq; [apply Hno; exact Hu|]. intros Heq. assert (u = home k) by congruence. subst u. rewrite (Hno _ Hu) in Eg. discriminate.
        * exists (Some v :: l), s', (outputs next n g :: cs). split; [|split].
          -- cbn [RandomUnitsModel.urun ustep]. unfold bind, uget, ret. rewrite Ek, Eg, Ef. fold s1. rewrite E. reflexivity.
          -- cbn [calls flat_map app]. econstructor; eassumption.
          -- intros u. destruct (Ho u) as (m & H1 & H2). cbn [calls flat_map app draw_homes]. unfold used_from in *. cbn [combine filter].
             destruct (Nat.eqb_spec (home k) u) as [<-|Hn]; cbn [fst].
             ++ exists (n + m). assert (begin_ s1 (home k) = g') as E1 by (unfold begin_, s1; cbn [generators]; rewrite set_var_eq; reflexivity).
                assert (begin_ s (home k) = g) as E0 by (unfold begin_; rewrite Eg; reflexivity).
                rewrite E1 in *. rewrite E0. rewrite (proj2 (Nat.eqb_eq _ _) eq_refl). cbn [map snd concat]. split.
                ** rewrite outputs_app. f_equal. rewrite <- Hg'. exact H1.
                ** rewrite advance_app, <- Hg'. exact H2.
             ++ exists m. assert (begin_ s1 u = begin_ s u) as E1 by (unfold begin_, s1; cbn [generators]; rewrite set_var_neq by congruence; reflexivity).
                rewrite E1 in *. rewrite (proj2 (Nat.eqb_neq _ _) Hn). auto.
  Qed.
  Lemma units_good p : ready home p -> NoDup (initialised p) ->
    exists l s' cs, urun p ustart = Ret l s' /\ draws dmake ddraw (fun _ => None) (calls p) cs l (uvars s') /\
      forall u, exists n, used_from u (draw_homes home (calls p)) cs = outputs next n (seeds u).
  Proof.
    intros Hr Hnd. destruct (units_run p ustart) as (l & s' & cs & E & Hd & Ho); [|exact Hnd|reflexivity|].
    - intros i k Hi. destruct (Hr i k Hi) as [H1 H2]. auto.
    - exists l, s', cs. split; [exact E|]. split; [exact Hd|]. intros u. destruct (Ho u) as (n & H & _). eauto.
  Qed.

  (** ** one home: the program of C62 *)
  Lemma one_home_gen h p : (forall k, home k = h) -> forall s g, generators s h = Some g -> ~ In h (initialised p) ->
    match rrun next dmake ddraw (calls p) (mkRst (uvars s) g) with
    | Ret l s1 => exists s', urun p s = Ret l s' /\ uvars s' = randomisers s1
    | Ub r => urun p s = Ub r
    | _ => False
    end.
  Proof.
    intros Hh. induction p as [|o p IH]; intros s g Hg Hn; [simpl; eauto|]. destruct o as [u|[k a b|k]]; cbn [RandomUnitsModel.urun ustep calls flat_map app].
    - unfold bind, init_unit, ret. cbn [initialised flat_map app In] in Hn.
      specialize (IH (mkUst (uvars s) (set_var (generators s) u (Some (seeds u)))) g). cbn [generators uvars] in IH. rewrite set_var_neq in IH by (intros ->; apply Hn; left; reflexivity).
      specialize (IH Hg (fun H => Hn (or_intror H))). change (flat_map _ p) with (calls p).
      destruct (rrun next dmake ddraw (calls p) (mkRst (uvars s) g)) as [l s1|? ?|?| |]; auto.
      + destruct IH as (s' & -> & E). eauto.
      + rewrite IH. reflexivity.
    - change (flat_map _ p) with (calls p). cbn [rrun rstep]. unfold bind, unew, construct, ret. cbn [randomisers generator].
      specialize (IH (mkUst (set_var (uvars s) k (Some (dmake a b))) (generators s)) g Hg Hn). cbn [uvars] in IH.
      destruct (rrun next dmake ddraw (calls p) (mkRst (set_var (uvars s) k (Some (dmake a b))) g)) as [l s1|? ?|?| |]; auto.
      + destruct IH as (s' & -> & E). eauto.
      + rewrite IH. reflexivity.
    - change (flat_map _ p) with (calls p). cbn [rrun rstep]. unfold bind, uget, get, ret. rewrite Hh, Hg. cbn [randomisers generator].
      destruct (uvars s k) as [d|]; [|reflexivity]. destruct (feed next (ddraw d) g) as [[v d'] g'].
      specialize (IH (mkUst (set_var (uvars s) k (Some d')) (set_var (generators s) h (Some g'))) g'). cbn [generators uvars] in IH. rewrite set_var_eq in IH.
      specialize (IH eq_refl Hn).
      destruct (rrun next dmake ddraw (calls p) (mkRst (set_var (uvars s) k (Some d')) g')) as [l s1|? ?|?| |]; auto.
      + destruct IH as (s' & -> & E). eauto.
      + rewrite IH. reflexivity.
  Qed.

  (** ** linked programs *)
  Lemma calls_app (p q : list (uop T)) : calls (p ++ q) = calls p ++ calls q.
  Proof. unfold calls. apply flat_map_app. Qed.
  Lemma calls_map (l : list (rop T)) : calls (map UCall l) = l.
  Proof. induction l as [|o l IH]; simpl; [reflexivity|]. f_equal. exact IH. Qed.
  Lemma initialised_map (l : list (rop T)) : initialised (map UCall l) = [].
  Proof. induction l as [|o l IH]; [reflexivity|exact IH]. Qed.
  Lemma calls_linked order inits (main : list (rop T)) : calls (linked order inits main) = flat_map inits order ++ main.
  Proof.
    unfold linked. rewrite calls_app, calls_map. f_equal. induction order as [|u order IH]; [reflexivity|].
    cbn [flat_map]. rewrite calls_app, IH. cbn [calls flat_map app]. change (flat_map _ (map UCall (inits u))) with (calls (map UCall (inits u))). rewrite calls_map. reflexivity.
  Qed.
  Lemma initialised_linked order inits (main : list (rop T)) : initialised (linked order inits main) = order.
  Proof.
    unfold linked, initialised. rewrite flat_map_app. change (flat_map _ (map UCall main)) with (initialised (map UCall main)). rewrite initialised_map, app_nil_r.
    induction order as [|u order IH]; [reflexivity|]. cbn [flat_map app]. f_equal. rewrite flat_map_app, IH.
    change (flat_map _ (map UCall (inits u))) with (initialised (map UCall (inits u))). rewrite initialised_map. reflexivity.
  Qed.
  Lemma in_linked_init order inits u : In u order -> In (UInit u) (flat_map (fun u => UInit u :: map UCall (inits u)) order : list (uop T)).
  Proof. intros H. apply in_flat_map. exists u. split; [exact H|left; reflexivity]. Qed.
  Lemma in_linked_call order inits (o : rop T) : In (UCall o) (flat_map (fun u => UInit u :: map UCall (inits u)) order) <-> In o (flat_map inits order).
  Proof.
    rewrite !in_flat_map. split; intros (u & Hu & H); exists u; (split; [exact Hu|]).
    - destruct H as [H|H]; [discriminate|]. apply in_map_iff in H. destruct H as (o' & E & H). injection E as ->. exact H.
    - right. apply in_map. exact H.
  Qed.
  Lemma main_good order inits (main : list (rop T)) : NoDup order -> (forall u, In u order -> no_draws (inits u)) ->
    (forall i k, nth_error main i = Some (RGet k) -> In (home k) order /\ exists a b, In (RNew k a b) (flat_map inits order ++ firstn i main)) ->
    exists l s' cs, urun (linked order inits main) ustart = Ret l s' /\
      draws dmake ddraw (fun _ => None) (flat_map inits order ++ main) cs l (uvars s') /\
      forall u, exists n, used_from u (draw_homes home main) cs = outputs next n (seeds u).
  Proof.
    intros Hnd Hno Hm. destruct (units_good (linked order inits main)) as (l & s' & cs & E & Hd & Ho).
    - intros i k Hi. unfold linked in Hi. set (pre := flat_map (fun u => UInit u :: map UCall (inits u)) order) in *.
      destruct (Nat.lt_ge_cases i (length pre)) as [Hlt|Hge].
      + exfalso. rewrite nth_error_app1 in Hi by exact Hlt. apply nth_error_In in Hi. unfold pre in Hi. apply in_linked_call in Hi.
        apply in_flat_map in Hi. destruct Hi as (u & Hu & Hi). apply (Hno u Hu k Hi).
      + rewrite nth_error_app2 in Hi by exact Hge. rewrite nth_error_map in Hi. destruct (nth_error main (i - length pre)) as [o|] eqn:Eo; [|discriminate].
        injection Hi as ->. destruct (Hm _ _ Eo) as (Hh & a & b & Hin). unfold linked. fold pre. rewrite firstn_app.
        rewrite (firstn_all2 pre) by exact Hge. split; [apply in_or_app; left; apply in_linked_init; exact Hh|]. exists a, b.
        apply in_app_or in Hin. apply in_or_app. destruct Hin as [Hin|Hin]; [left; apply in_linked_call; exact Hin|right]. rewrite firstn_map. apply in_map. exact Hin.
    - rewrite initialised_linked. exact Hnd.
    - rewrite calls_linked in *. exists l, s', cs. split; [exact E|]. split; [exact Hd|]. intros u. destruct (Ho u) as (n & Hn). exists n.
      rewrite <- Hn. f_equal. unfold draw_homes. rewrite flat_map_app.
      replace (flat_map (fun o : rop T => match o with RNew _ _ _ => [] | RGet k => [home k] end) (flat_map inits order)) with (@nil nat); [reflexivity|].
      symmetry. assert (forall l : list (rop T), no_draws l -> flat_map (fun o : rop T => match o with RNew _ _ _ => [] | RGet k => [home k] end) l = []) as H0.
      { induction l0 as [|[k a b|k] l0 IH]; intros H; simpl; [reflexivity| |].
        - apply IH. intros k' Hk. apply (H k'). right. exact Hk.
        - exfalso. apply (H k). left. reflexivity. }
      apply H0. intros k Hk. apply in_flat_map in Hk. destruct Hk as (u' & Hu & Hk). apply (Hno u' Hu k Hk).
  Qed.
  Lemma one_home h order inits (main : list (rop T)) l : (forall k, home k = h) -> NoDup (h :: order) ->
    ((exists s', urun (linked (h :: order) inits main) ustart = Ret l s') <->
     exists s1, rrun next dmake ddraw (flat_map inits (h :: order) ++ main) (rinit (seeds h)) = Ret l s1).
  Proof.
    intros Hh Hnd. inversion Hnd as [|? ? Hnin Hnd']; subst. rewrite <- (calls_linked (h :: order) inits main).
    assert (linked (h :: order) inits main = UInit h :: map UCall (inits h) ++ linked order inits main) as El by (unfold linked; simpl; rewrite <- app_assoc; reflexivity).
    rewrite El. set (p := map UCall (inits h) ++ linked order inits main).
    assert (~ In h (initialised p)) as Hn.
    { unfold p. unfold initialised. rewrite flat_map_app. change (flat_map _ (map UCall (inits h))) with (initialised (map UCall (inits h))). rewrite initialised_map.
      change (flat_map _ (linked order inits main)) with (initialised (linked order inits main)). rewrite initialised_linked. exact Hnin. }
    pose proof (one_home_gen h p Hh (mkUst (fun _ => None) (set_var (fun _ => None) h (Some (seeds h)))) (seeds h)) as X. cbn [generators uvars] in X.
    rewrite set_var_eq in X. specialize (X eq_refl Hn). change (calls (UInit h :: p)) with (calls p). fold (@rinit G Ds (seeds h)) in X.
    cbn [RandomUnitsModel.urun ustep]. unfold bind, init_unit, ret, ustart. cbn [uvars generators].
    destruct (rrun next dmake ddraw (calls p) (rinit (seeds h))) as [l1 s1|? ?|?| |]; try contradiction.
    - destruct X as (s' & -> & _). split; intros (x & E); injection E as -> _; eauto.
    - rewrite X. split; intros (x & E); discriminate.
  Qed.
  (** ** what can go wrong *)
  Lemma too_early v order inits (main : list (rop T)) k a b rest : v <> home k -> inits v = RNew k a b :: RGet k :: rest ->
    urun (linked (v :: order) inits main) ustart = Ub UbUninit.
  Proof.
    intros Hn Hi. unfold linked. cbn [flat_map app]. rewrite Hi. cbn [map app RandomUnitsModel.urun ustep]. unfold bind, init_unit, unew, uget, ret, ustart.
    cbn [uvars generators]. rewrite set_var_eq, set_var_neq by congruence. reflexivity.
  Qed.
  Lemma twice k k' a b : k <> k' -> home k <> home k' -> seeds (home k) = seeds (home k') ->
    exists v s', urun (linked [home k; home k'] (fun _ => []) [RNew k a b; RNew k' a b; RGet k; RGet k']) ustart = Ret [None; None; Some v; Some v] s'.
  Proof.
    intros Hk Hh Hs. unfold linked. cbn [flat_map map app RandomUnitsModel.urun ustep]. unfold bind, init_unit, unew, uget, ret, ustart. cbn [uvars generators].
    assert (Nat.eqb k k' = false /\ Nat.eqb k' k = false /\ Nat.eqb (home k) (home k') = false /\ Nat.eqb (home k') (home k) = false) as (E1 & E2 & E3 & E4)
      by (repeat split; apply Nat.eqb_neq; congruence).
    unfold set_var. rewrite ?Nat.eqb_refl, ?E1, ?E2, ?E3, ?E4. destruct (feed next (ddraw (dmake a b)) (seeds (home k))) as [[v d'] g'] eqn:Ef. cbn [uvars generators].
    rewrite ?Nat.eqb_refl, ?E1, ?E2, ?E3, ?E4.
    rewrite <- Hs, Ef. cbn. eauto.
  Qed.
End Units.
