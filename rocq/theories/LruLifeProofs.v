(** LruLifeProofs.v -- proofs for C153. *)
From Verif Require Import Base StdOrd LruModel LruProofs LruLifeModel LruLifeSpec.

Section Proofs.
  Context {L V : Type} (ltb : L -> L -> bool) (late movable : bool).
  Notation life := (life L V).

  (** [k] never is undefined; if it returns it has changed the counts by the given numbers, if it throws it has changed nothing *)
  Definition eff (k : M life unit) (f : cache L V -> cache L V) (dv dl dn cv mv cl : nat) : Prop := forall s,
    match k s with
    | Ret _ s' => l_cache s' = f (l_cache s) /\ vals s' = dv + vals s /\ labs s' = dl + labs s /\ nodes s' = dn + nodes s
                  /\ v_copies s' = cv + v_copies s /\ v_moves s' = mv + v_moves s /\ l_copies s' = cl + l_copies s
    | Exc e s' => l_cache s' = l_cache s /\ vals s' = vals s /\ labs s' = labs s /\ nodes s' = nodes s
    | _ => False
    end.
  Definition same (c : cache L V) := c.

  Lemma chance_eff e : eff (chance e) same 0 0 0 0 0 0.
  Proof. intros [c v l n vc vm lc [|[] t]]; cbn; repeat split. Qed.
  Ltac prim e := intros s; unfold bind; generalize (chance_eff e s); destruct (chance e s) as [u s1|x s1| | |]; try contradiction;
    unfold same; cbn; intros H; decompose [and] H; repeat split; congruence.
  Lemma copy_v_eff : eff copy_v same 1 0 0 1 0 0.
  Proof. unfold copy_v. prim (EUser 0). Qed.
  Lemma copy_l_eff : eff copy_l same 0 1 0 0 0 1.
  Proof. unfold copy_l. prim (EUser 0). Qed.
  Lemma new_node_eff : eff new_node same 0 0 1 0 0 0.
  Proof. unfold new_node. prim EBadAlloc. Qed.
  Definition mcopies := if movable then 0 else 1.
  Definition mmoves := if movable then 1 else 0.
  Lemma move_v_eff : eff (move_v movable) same 1 0 0 mcopies mmoves 0.
  Proof. unfold move_v, mcopies, mmoves. destruct movable; [prim (EUser 0)|apply copy_v_eff]. Qed.

  Ltac use H s := let E := fresh in generalize (H s); destruct s eqn:E.
  Ltac fin := unfold same in *; cbn in *; repeat match goal with H : _ /\ _ |- _ => destruct H end; repeat split; try congruence; try lia.

  Lemma make_pair_eff : eff (make_pair movable) same 1 1 0 mcopies mmoves 1.
  Proof.
    intros s. unfold make_pair, bind, on_throw. pose proof (copy_l_eff s) as H. destruct (copy_l s) as [u s1|e s1| | |]; try contradiction; [|fin].
    pose proof (move_v_eff s1) as H1. destruct (move_v movable s1) as [u2 s2|e s2| | |]; try contradiction; [fin|].
    unfold end_l. destruct (labs s2) eqn:E; [fin|]. fin.
  Qed.
  Lemma scoped_v_eff k f dv dl dn cv mv cl : eff k f dv dl dn cv mv cl -> eff (copy_v ;;; finally k end_v)%M f dv dl dn (S cv) mv cl.
  Proof.
    intros K s. unfold bind, finally. pose proof (copy_v_eff s) as H. destruct (copy_v s) as [u s1|e s1| | |]; try contradiction; [|fin].
    pose proof (K s1) as H1. destruct (k s1) as [u2 s2|e s2| | |]; try contradiction; unfold end_v; (destruct (vals s2) eqn:E; [fin|]).
    - destruct H as [H [? [? [? [? [? ?]]]]]]. unfold same in H. rewrite H in H1. fin.
    - fin.
  Qed.
  Definition linked (label : L) (val : V) (c : cache L V) :=
    mkCache (c_max c) (insert_elem n_key ltb (mkNode (c_next c) label 0%Z val) (c_elems c)) (S (c_next c)).
  Lemma map_insert_eff label val : eff (map_insert ltb movable label val) (linked label val) 1 1 1 mcopies mmoves 1.
  Proof.
    intros s. unfold map_insert, bind, on_throw.
    pose proof (chance_eff (EUser 0) s) as H0. destruct (chance (EUser 0) s) as [u0 s0|e s0| | |]; try contradiction; [|fin].
    pose proof (new_node_eff s0) as H1. destruct (new_node s0) as [u1 s1|e s1| | |]; try contradiction; [|fin].
    pose proof (make_pair_eff s1) as H2. destruct (make_pair movable s1) as [u2 s2|e s2| | |]; try contradiction.
    - unfold on_cache. cbn [l_cache vals labs nodes v_copies v_moves l_copies].
      assert (l_cache s2 = l_cache s) as -> by fin. fin.
    - unfold end_node. destruct (nodes s2) eqn:E; fin.
  Qed.
  Lemma insert_avp_eff label val : eff (insert_avp ltb movable label val) (linked label val) 1 1 1 (mcopies + mcopies) (mmoves + mmoves) 2.
  Proof.
    intros s. unfold insert_avp, bind, finally.
    pose proof (make_pair_eff s) as H1. destruct (make_pair movable s) as [u1 s1|e s1| | |]; try contradiction; [|fin].
    pose proof (map_insert_eff label val s1) as H2. destruct (map_insert ltb movable label val s1) as [u2 s2|e s2| | |]; try contradiction.
    - unfold end_pair, bind, end_v. destruct (vals s2) eqn:E; [fin|]. unfold end_l. cbn [labs].
      destruct (labs s2) eqn:E2; [fin|]. cbn [l_cache vals labs nodes v_copies v_moves l_copies].
      assert (l_cache s1 = l_cache s) as Q by fin. rewrite Q in H2. fin.
    - unfold end_pair, bind, end_v. destruct (vals s2) eqn:E; [fin|]. unfold end_l. cbn [labs].
      destruct (labs s2) eqn:E2; fin.
  Qed.
  Lemma insert_expr_eff label val :
    eff (insert_expr ltb late movable label val) (linked label val) 1 1 1 (2 + (mcopies + mcopies)) (mmoves + mmoves) 2.
  Proof.
    unfold insert_expr. destruct late.
    - apply scoped_v_eff, scoped_v_eff, insert_avp_eff.
    - intros s. pose proof (scoped_v_eff copy_v _ _ _ _ _ _ _ copy_v_eff s) as H0. unfold bind in *. 
      destruct (copy_v s) as [u s0|e s0| | |]; try contradiction; [|fin].
      destruct (finally copy_v end_v s0) as [u1 s1|e s1| | |]; try contradiction; [|fin].
      unfold finally. pose proof (insert_avp_eff label val s1) as H2.
      destruct (insert_avp ltb movable label val s1) as [u2 s2|e s2| | |]; try contradiction; unfold end_v; (destruct (vals s2) eqn:E; [fin|]).
      + assert (l_cache s1 = l_cache s) as Q by fin. rewrite Q in H2. fin.
      + fin.
  Qed.

  Lemma insert_len l (es : list (node L V)) n : n_key n = l -> find_pos n_key ltb l es = None -> length (insert_elem n_key ltb n es) = S (length es).
  Proof.
    intros <-. induction es as [|x es IH]; simpl; [reflexivity|]. unfold eqvb. destruct (ltb (n_key x) (n_key n)) eqn:E1; cbn [negb andb];
      destruct (ltb (n_key n) (n_key x)) eqn:E2; cbn [negb andb]; try discriminate; simpl;
      destruct (find_pos n_key ltb (n_key n) es); try discriminate; intros _; try rewrite IH; reflexivity.
  Qed.
  Lemma find_aged l (es : list (node L V)) : find_pos n_key ltb l (map incr_age es) = find_pos n_key ltb l es.
  Proof. induction es as [|x es IH]; simpl; [reflexivity|]. rewrite IH. reflexivity. Qed.
  Lemma find_erased l (es : list (node L V)) i : find_pos n_key ltb l es = None -> find_pos n_key ltb l (erase_at i es) = None.
  Proof.
    revert i. induction es as [|x es IH]; intros i; simpl; [destruct i; reflexivity|]. destruct (eqvb ltb (n_key x) l) eqn:E; [discriminate|].
    destruct (find_pos n_key ltb l es) eqn:F; [discriminate|]. intros _. destruct i; simpl; [exact F|]. rewrite E, IH; reflexivity.
  Qed.
  Lemma erase_len (es : list (node L V)) i n : nth_error es i = Some n -> length es = S (length (erase_at i es)).
  Proof. revert i. induction es as [|x es IH]; intros [|i]; simpl; try discriminate; [reflexivity|]. intros H. rewrite (IH _ H). reflexivity. Qed.

  (** the two ways to make room, then the insertion *)
  Lemma after_room (s s1 : life) label val c1 :
    l_cache s1 = c1 -> find_pos n_key ltb label (c_elems c1) = None -> owns_its_contents s1 ->
    v_copies s1 = v_copies s -> v_moves s1 = v_moves s -> l_copies s1 = l_copies s ->
    match insert_expr ltb late movable label val s1 with
    | Ret _ s' => l_cache s' = linked label val c1 /\ owns_its_contents s' /\ made s s' (if movable then 2 else 4) (if movable then 2 else 0) 2
    | Exc _ s' => l_cache s' = c1 /\ owns_its_contents s'
    | _ => False
    end.
  Proof.
    intros Hc Hf Ho E1 E2 E3. pose proof (insert_expr_eff label val s1) as H. unfold owns_its_contents, made in *. cbn zeta in *.
    destruct (insert_expr ltb late movable label val s1) as [u s'|e s'| | |]; try contradiction.
    - destruct H as (-> & ? & ? & ? & ? & ? & ?). rewrite Hc in *. split; [reflexivity|]. unfold linked. cbn [c_elems]. rewrite (insert_len label) by (reflexivity || exact Hf).
      unfold mcopies, mmoves in *. destruct movable; repeat split; lia.
    - destruct H as (-> & ? & ? & ?). rewrite Hc in *. repeat split; lia.
  Qed.

  Lemma life_put_ok (s : life) label (val : V) : owns_its_contents s ->
    match life_put ltb late movable label val s with
    | Ret _ s' => put ltb label (VVal val) false (l_cache s) = Ret tt (l_cache s') /\ owns_its_contents s'
                  /\ made s s' (if movable then 2 else 4) (if movable then 2 else 0) 2
    | Exc _ s' => owns_its_contents s' /\ (l_cache s' = l_cache s \/ exists e, put ltb label (VVal val) true (l_cache s) = Exc e (l_cache s'))
    | Ub r => r = UbEraseEnd /\ put ltb label (VVal val) false (l_cache s) = Ub r
    | _ => False
    end.
  Proof.
    intros Ho. unfold life_put. unfold bind at 1. pose proof (chance_eff (EUser 0) s) as H. 
    destruct (chance (EUser 0) s) as [u s0|e s0| | |]; try contradiction.
    2:{ destruct H as (E & ? & ? & ?). unfold owns_its_contents in *. cbn zeta in *. rewrite E. split; [repeat split; lia|left; reflexivity]. }
    unfold same in H. destruct H as (E & Hv & Hl & Hn & Hcv & Hmv & Hcl). 
    assert (owns_its_contents s0) as Ho0 by (unfold owns_its_contents in *; cbn zeta in *; rewrite E; repeat split; lia).
    unfold put, put_body. rewrite E. destruct (find_pos n_key ltb label (c_elems (l_cache s))) eqn:F.
    { split; [exact Ho0|]. right. eexists. rewrite E. reflexivity. }
    destruct (Z.of_nat (length (c_elems (l_cache s))) <? c_max (l_cache s))%Z.
    - unfold bind at 1. unfold on_cache at 1.
      lazymatch goal with |- match insert_expr _ _ _ _ _ ?x with _ => _ end => set (s1 := x) end.
      pose proof (after_room s s1 label val (set_elems (l_cache s) (map incr_age (c_elems (l_cache s))))) as A.
      assert (l_cache s1 = set_elems (l_cache s) (map incr_age (c_elems (l_cache s)))) as E1 by (unfold s1; cbn [l_cache]; rewrite E; reflexivity).
      specialize (A E1). unfold set_elems at 1 in A. cbn [c_elems] in A. rewrite find_aged in A. specialize (A F).
      assert (owns_its_contents s1) as Ho1.
      { unfold owns_its_contents in *. cbn zeta in *. rewrite E1. unfold set_elems. cbn [c_elems]. rewrite map_length. unfold s1. cbn [vals labs nodes].
        rewrite <- E. exact Ho0. }
      specialize (A Ho1 Hcv Hmv Hcl). clearbody s1.
      destruct (insert_expr ltb late movable label val s1) as [u1 s'|e s'| | |]; try contradiction.
      + destruct A as (-> & A). split; [|exact A]. reflexivity.
      + destruct A as (-> & A). split; [exact A|]. right. eexists. reflexivity.
    - destruct (put_loop_map (l_cache s)) as (r & Er & Hr). rewrite Er. unfold bind at 1. unfold on_cache at 1. unfold bind at 1. unfold erase_expr at 1.
      cbn [l_cache]. destruct r as [i|]; cbn [put_erase].
      2:{ split; [reflexivity|]. unfold bind. rewrite Er. reflexivity. }
      destruct Hr as (nd & Hnth & _). pose proof (erase_len _ _ _ Hnth) as Hlen.
      assert (length (map incr_age (c_elems (l_cache s))) = S (length (erase_at i (map incr_age (c_elems (l_cache s)))))) as Hlen'
        by (apply (erase_len _ _ (incr_age nd)); rewrite nth_error_map, Hnth; reflexivity).
      pose proof Ho0 as (Q1 & Q2 & Q3). rewrite E in *. 
      unfold end_pair, bind, end_v, end_l, end_node, on_cache. cbn [vals labs nodes l_cache v_copies v_moves l_copies sched].
      rewrite (eq_trans Q1 Hlen), (eq_trans Q2 Hlen), (eq_trans Q3 Hlen). cbn [vals labs nodes l_cache v_copies v_moves l_copies sched].
      lazymatch goal with |- match insert_expr _ _ _ _ _ ?x with _ => _ end => set (s1 := x) end.
      pose proof (after_room s s1 label val _ eq_refl) as A. unfold s1 at 1 in A. cbn [l_cache] in A. unfold set_elems in A. cbn [c_elems] in A.
      specialize (A (find_erased _ _ _ (eq_trans (find_aged _ _) F))).
      assert (owns_its_contents s1) as Ho1.
      { unfold owns_its_contents, s1, set_elems. cbn zeta. cbn [l_cache vals labs nodes c_elems]. rewrite map_length in Hlen'. repeat split; lia. }
      specialize (A Ho1 Hcv Hmv Hcl).
      destruct (insert_expr ltb late movable label val s1) as [u1 s'|e s'| | |]; try contradiction.
      + destruct A as (-> & A). split; [|exact A]. try rewrite Er; reflexivity.
      + destruct A as (-> & A). split; [exact A|]. right. eexists. try rewrite Er; reflexivity.
  Qed.

  Lemma life_put_cache (s : life) label val : owns_its_contents s ->
    match life_put ltb late movable label val s with
    | Exc _ s' => l_cache s' = l_cache s \/ exists e, put ltb label (VVal val) true (l_cache s) = Exc e (l_cache s')
    | Ret _ s' => put ltb label (VVal val) false (l_cache s) = Ret tt (l_cache s')
    | _ => True
    end.
  Proof. intros Ho. pose proof (life_put_ok s label val Ho) as K. destruct (life_put ltb late movable label val s); try exact I; apply K. Qed.

  (** the other members keep the number of elements *)
  Lemma get_loop_len e todo : forall (c c' : cache L V) u, get_loop e todo c = Ret u c' -> length (c_elems c') = length (c_elems c).
  Proof.
    induction todo as [|i todo IH]; intros c c' u; cbn [get_loop]; [intros [= <- <-]; reflexivity|].
    destruct (nth_error (c_elems c) i) eqn:E; [|discriminate]. destruct (nth_error (c_elems c) e); [|discriminate].
    destruct (_ <? _)%Z; [|apply IH]. intros H. rewrite (IH _ _ _ H). unfold set_elems. cbn [c_elems]. apply upd_length.
  Qed.
  Lemma get_loop_defined e todo : forall (c : cache L V) x c', get_loop e todo c <> Exc x c'.
  Proof.
    induction todo as [|i todo IH]; intros c x c'; cbn [get_loop]; [discriminate|].
    destruct (nth_error (c_elems c) i); [|discriminate]. destruct (nth_error (c_elems c) e); [|discriminate]. destruct (_ <? _)%Z; apply IH.
  Qed.
  Lemma step_len (c c' : cache L V) o r : is_put o = false -> step ltb c o = (Some c', r) -> length (c_elems c') = length (c_elems c).
  Proof.
    destruct o as [l|l|l|l v| |]; simpl; intros Hp; try discriminate.
    - unfold has_label. destruct (find_pos n_key ltb l (c_elems c)); intros [= <- <-]; reflexivity.
    - unfold get. destruct (find_pos n_key ltb l (c_elems c)) as [e|]; [|intros [= <- <-]; reflexivity]. unfold bind.
      destruct (get_loop e (seq 0 (length (c_elems c))) c) as [u c1|x c1| | |] eqn:G; try discriminate.
      + destruct (nth_error (c_elems c1) e); [|discriminate]. destruct (read_node _ _); [|discriminate].
        intros [= <- <-]. unfold set_elems. cbn [c_elems]. rewrite upd_length. exact (get_loop_len _ _ _ _ _ G).
      + destruct (get_loop_defined _ _ _ _ _ G).
    - unfold age. destruct (find_elem n_key ltb l (c_elems c)); intros [= <- <-]; reflexivity.
    - intros [= <- <-]; reflexivity.
    - intros [= <- <-]; reflexivity.
  Qed.
  Lemma life_step_owns (s : life) o f s' r : owns_its_contents s -> life_step ltb late movable s o f = (Some s', r) -> owns_its_contents s'.
  Proof.
    intros Ho H. destruct (is_put o) eqn:P.
    - destruct o as [l|l|l|l v| |]; try discriminate. cbn [life_step] in H.
      lazymatch type of H with match life_put _ _ _ _ _ ?x with _ => _ end = _ => pose proof (life_put_ok x l v Ho) as K; destruct (life_put ltb late movable l v x) end;
        try discriminate; injection H as <- <-; apply K.
    - assert (exists c', step ltb (l_cache s) o = (Some c', r) /\ s' = mkLife c' (vals s) (labs s) (nodes s) (v_copies s) (v_moves s) (l_copies s) f) as (c' & E & ->).
      { destruct o as [l|l|l|l v| |]; try discriminate; cbn [life_step l_cache vals labs nodes v_copies v_moves l_copies] in H;
          lazymatch type of H with (let (_, _) := ?x in _) = _ => destruct x as [[c'|] r'] end; try discriminate; injection H as <- <-; eexists; split; reflexivity. }
      apply step_len in E; [|exact P]. unfold owns_its_contents in *. cbn zeta in *. cbn [l_cache vals labs nodes]. rewrite E. exact Ho.
  Qed.
  Lemma life_run_owns ops : forall (s s' : life) rs, owns_its_contents s -> life_run ltb late movable s ops = (Some s', rs) -> owns_its_contents s'.
  Proof.
    induction ops as [|[o f] ops IH]; intros s s' rs Ho; cbn [life_run]; [intros [= <- <-]; exact Ho|].
    destruct (life_step ltb late movable s o f) as [[s1|] r] eqn:E; [|discriminate].
    destruct (life_run ltb late movable s1 ops) as [s2 rs2] eqn:E2. intros [= -> <-]. exact (IH _ _ _ (life_step_owns _ _ _ _ _ Ho E) E2).
  Qed.
  Lemma start_owns m (c : cache L V) : lru_new m = Ret c tt -> owns_its_contents (start c).
  Proof. unfold lru_new. destruct (0 <? m)%Z; [|discriminate]. intros [= <-]. repeat split. Qed.

  Lemma end_nodes_ok n : forall (s : life), vals s = n -> labs s = n -> nodes s = n ->
    exists s', end_nodes n s = Ret tt s' /\ owns_nothing s' /\ made s s' 0 0 0.
  Proof.
    induction n as [|n IH]; intros s E1 E2 E3; cbn [end_nodes].
    - exists s. unfold owns_nothing, made. repeat split; lia.
    - unfold end_pair, bind, end_v, end_l, end_node. rewrite E1. cbn [labs]. rewrite E2. cbn [nodes]. rewrite E3.
      cbn [vals labs nodes l_cache v_copies v_moves l_copies sched].
      destruct (IH (mkLife (l_cache s) n n n (v_copies s) (v_moves s) (l_copies s) (sched s)) eq_refl eq_refl eq_refl) as (s' & E & H).
      exists s'. split; [exact E|exact H].
  Qed.
  Lemma destroy_ok (s : life) : owns_its_contents s -> exists s', life_destroy s = Ret tt s' /\ owns_nothing s' /\ made s s' 0 0 0.
  Proof.
    intros (E1 & E2 & E3). unfold life_destroy, bind. destruct (end_nodes_ok _ s E1 E2 E3) as (s' & -> & H). eexists. split; [reflexivity|exact H].
  Qed.

  (** without failures, the results are those of LruModel *)
  Definition calm (k : M life unit) : Prop := forall s, sched s = [] -> match k s with Ret _ s' => sched s' = [] | Exc _ _ => False | _ => True end.
  Lemma calm_bind k k' : calm k -> calm k' -> calm (k ;;; k')%M.
  Proof. intros H H' s E. unfold bind. specialize (H s E). destruct (k s) as [[] s1|e s1| | |]; try exact I; [apply H'; exact H|contradiction]. Qed.
  Lemma calm_finally k d : calm k -> calm d -> calm (finally k d).
  Proof. intros H H' s E. unfold finally. specialize (H s E). destruct (k s) as [[] s1|e s1| | |]; try exact I; [apply H'; exact H|contradiction]. Qed.
  Lemma calm_on_throw k d : calm k -> calm (on_throw k d).
  Proof. intros H s E. unfold on_throw. specialize (H s E). destruct (k s) as [[] s1|e s1| | |]; try exact I; [exact H|contradiction]. Qed.
  Lemma calm_chance e : calm (chance e).
  Proof. intros [c v l n a b d sc] E. cbn in E. subst. reflexivity. Qed.
  Lemma calm_upd (f : life -> life) : (forall s, sched (f s) = sched s) -> calm (fun s => Ret tt (f s)).
  Proof. intros H s E. cbn. rewrite H. exact E. Qed.
  Lemma calm_copy_v : calm copy_v.
  Proof. unfold copy_v. apply calm_bind; [apply calm_chance|]. intros s E. exact E. Qed.
  Lemma calm_copy_l : calm copy_l.
  Proof. unfold copy_l. apply calm_bind; [apply calm_chance|]. intros s E. exact E. Qed.
  Lemma calm_new_node : calm new_node.
  Proof. unfold new_node. apply calm_bind; [apply calm_chance|]. intros s E. exact E. Qed.
  Lemma calm_move_v : calm (move_v movable).
  Proof. unfold move_v. destruct movable; [|apply calm_copy_v]. apply calm_bind; [apply calm_chance|]. intros s E. exact E. Qed.
  Lemma calm_end_v : calm end_v.
  Proof. intros s E. unfold end_v. destruct (vals s); [exact I|exact E]. Qed.
  Lemma calm_end_l : calm end_l.
  Proof. intros s E. unfold end_l. destruct (labs s); [exact I|exact E]. Qed.
  Lemma calm_make_pair : calm (make_pair movable).
  Proof. unfold make_pair. apply calm_bind; [apply calm_copy_l|]. apply calm_on_throw, calm_move_v. Qed.
  Lemma calm_insert_avp label val : calm (insert_avp ltb movable label val).
  Proof.
    unfold insert_avp. apply calm_bind; [apply calm_make_pair|]. apply calm_finally.
    - unfold map_insert. apply calm_bind; [apply calm_chance|]. apply calm_bind; [apply calm_new_node|]. apply calm_bind; [apply calm_on_throw, calm_make_pair|].
      intros s E. exact E.
    - unfold end_pair. apply calm_bind; [apply calm_end_v|apply calm_end_l].
  Qed.
  Lemma calm_insert_expr label val : calm (insert_expr ltb late movable label val).
  Proof.
    unfold insert_expr. destruct late.
    - apply calm_bind; [apply calm_copy_v|]. apply calm_finally; [|apply calm_end_v].
      apply calm_bind; [apply calm_copy_v|]. apply calm_finally; [apply calm_insert_avp|apply calm_end_v].
    - apply calm_bind; [apply calm_copy_v|]. apply calm_bind; [apply calm_finally; [apply calm_copy_v|apply calm_end_v]|].
      apply calm_finally; [apply calm_insert_avp|apply calm_end_v].
  Qed.
  Lemma insert_calm (s : life) label val : sched s = [] -> exists s',
    insert_expr ltb late movable label val s = Ret tt s' /\ l_cache s' = linked label val (l_cache s).
  Proof.
    intros E. pose proof (calm_insert_expr label val s E) as C. pose proof (insert_expr_eff label val s) as H.
    destruct (insert_expr ltb late movable label val s) as [[] s'|e s'| | |]; try contradiction. exists s'. split; [reflexivity|apply H].
  Qed.
  Lemma put_calm (s : life) l v : owns_its_contents s -> sched s = [] ->
    match put ltb l (VVal v) false (l_cache s) with
    | Ret _ c' => exists s', life_put ltb late movable l v s = Ret tt s' /\ l_cache s' = c'
    | Exc e c' => exists s', life_put ltb late movable l v s = Exc e s' /\ l_cache s' = c'
    | Ub r => life_put ltb late movable l v s = Ub r
    | _ => False
    end.
  Proof.
    intros Ho Es. assert (life_put ltb late movable l v s = put_body ltb late movable l v s) as ->
      by (unfold life_put, bind; replace (chance (EUser 0) s) with (Ret tt s) by (destruct s; cbn in Es; subst; reflexivity); reflexivity).
    unfold put, put_body.
    destruct (find_pos n_key ltb l (c_elems (l_cache s))) eqn:F; [exists s; split; reflexivity|].
    destruct (Z.of_nat (length (c_elems (l_cache s))) <? c_max (l_cache s))%Z.
    - unfold bind, put_age_all, put_insert, bind, read_vref. cbn beta iota. unfold on_cache.
      lazymatch goal with |- exists s', insert_expr _ _ _ _ _ ?x = _ /\ _ => destruct (insert_calm x l v Es) as (s' & E & Ec) end.
      exists s'. split; [exact E|exact Ec].
    - unfold bind. destruct (put_loop_map (l_cache s)) as (r & -> & Hr). unfold on_cache at 1. unfold erase_expr. cbn [l_cache].
      destruct r as [i|]; cbn [put_erase]; [|reflexivity]. destruct Hr as (nd & Hnth & _). pose proof (erase_len _ _ _ Hnth) as Hlen.
      destruct Ho as (Q1 & Q2 & Q3). unfold put_insert, bind, read_vref. cbn beta iota.
      unfold end_pair, bind, end_v, end_l, end_node, on_cache. cbn [vals labs nodes l_cache v_copies v_moves l_copies sched].
      rewrite (eq_trans Q1 Hlen), (eq_trans Q2 Hlen), (eq_trans Q3 Hlen). cbn [vals labs nodes l_cache v_copies v_moves l_copies sched].
      lazymatch goal with |- exists s', insert_expr _ _ _ _ _ ?x = _ /\ _ => destruct (insert_calm x l v Es) as (s' & E & Ec) end.
      exists s'. split; [exact E|exact Ec].
  Qed.
  Lemma step_calm (s : life) o : owns_its_contents s ->
    step ltb (l_cache s) o = (option_map l_cache (fst (life_step ltb late movable s o [])), snd (life_step ltb late movable s o [])).
  Proof.
    intros Ho. destruct o as [l|l|l|l v| |];
      try (cbn [life_step l_cache vals labs nodes v_copies v_moves l_copies];
           lazymatch goal with |- ?x = _ => destruct x as [[c'|] r] end; reflexivity).
    cbn [step life_step].
    lazymatch goal with |- context [life_put _ _ _ _ _ ?x] => pose proof (put_calm x l v Ho eq_refl) as K; cbn [l_cache] in K end.
    destruct (put ltb l (VVal v) false (l_cache s)) as [u c'|e c'|r| |]; try contradiction.
    - destruct K as (s' & -> & <-). reflexivity.
    - destruct K as (s' & -> & <-). reflexivity.
    - rewrite K. reflexivity.
  Qed.
  Lemma life_run_calm ops : forall (s : life), owns_its_contents s ->
    let calm := map (fun o => (o, @nil bool)) ops in
    run ltb (l_cache s) ops = (option_map l_cache (fst (life_run ltb late movable s calm)), snd (life_run ltb late movable s calm)).
  Proof.
    induction ops as [|o ops IH]; intros s Ho; cbn [run map life_run]; [reflexivity|]. rewrite (step_calm s o Ho).
    destruct (life_step ltb late movable s o []) as [[s1|] r] eqn:E; cbn [fst snd option_map]; [|reflexivity].
    rewrite (IH s1 (life_step_owns _ _ _ _ _ Ho E)). destruct (life_run ltb late movable s1 (map (fun o => (o, [])) ops)) as [s2 rs]. reflexivity.
  Qed.
  Lemma life_step_made (s : life) o f s' r : owns_its_contents s -> life_step ltb late movable s o f = (Some s', r) ->
    (is_put o = false -> made s s' 0 0 0) /\ (is_put o = true -> r = RUnit -> made s s' (if movable then 2 else 4) (if movable then 2 else 0) 2).
  Proof.
    intros Ho H. split; intros P.
    - destruct o as [l|l|l|l v| |]; try discriminate; cbn [life_step l_cache vals labs nodes v_copies v_moves l_copies] in H;
          lazymatch type of H with (let (_, _) := ?x in _) = _ => destruct x as [[c'|] r'] end; try discriminate; injection H as <- <-;
          unfold made; cbn; repeat split; lia.
    - intros ->. destruct o as [l|l|l|l v| |]; try discriminate. cbn [life_step] in H.
      lazymatch type of H with match life_put _ _ _ _ _ ?x with _ => _ end = _ => pose proof (life_put_ok x l v Ho) as K; destruct (life_put ltb late movable l v x) end;
        try discriminate; injection H as <-; apply K.
  Qed.
  (** a put can be undefined only where it is in LruModel *)
  Lemma life_step_undefined (s : life) o f : owns_its_contents s -> fst (life_step ltb late movable s o f) = None -> fst (step ltb (l_cache s) o) = None.
  Proof.
    intros Ho. destruct o as [l|l|l|l v| |];
      try (cbn [life_step l_cache vals labs nodes v_copies v_moves l_copies];
           lazymatch goal with |- _ -> fst ?x = _ => destruct x as [[c'|] r] end; (discriminate || reflexivity)).
    cbn [life_step step].
    lazymatch goal with |- fst match life_put _ _ _ _ _ ?x with _ => _ end = _ -> _ => pose proof (life_put_ok x l v Ho) as K; destruct (life_put ltb late movable l v x) end;
      try discriminate; try contradiction. intros _. cbn [l_cache] in K. destruct K as [_ ->]. reflexivity.
  Qed.
End Proofs.
