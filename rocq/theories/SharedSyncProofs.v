(** SharedSyncProofs.v -- lemmas about SharedArrays used by several threads. *)
From Verif Require Import Base SharedModel SharedSpec SharedProofs SyncModel SyncSpec SyncProofs LruSyncProofs ApartProofs SharedSyncModel SharedSyncSpec.

Section Proofs.
  Context {V : Type} (dini : option V).
  Notation St := (sst V).
  Notation code := (shared_code (V := V)).
  Notation sact := (act (sst V) sloc (sout V)).

  (** ** a call made alone is the member function *)
  Definition pure {A} (m : M St A) : Prop := forall s, match m s with Ret _ s' => s' = s | Ub _ => True | _ => False end.
  Lemma pure_fresh d : pure (sfresh d).
  Proof. intros s. unfold sfresh. destruct (nth_error (svars s) d) as [[|]|]; auto. Qed.
  Lemma pure_var a : pure (sget_var a).
  Proof. intros s. unfold sget_var. destruct (nth_error (svars s) a) as [[|]|]; auto. Qed.
  Lemma pure_count c : pure (count_at c).
  Proof.
    intros s. unfold count_at. destruct (nth_error (counts s) (fst c)) as [k|]; auto.
    destruct (snd c =? 0)%Z; auto. destruct (c_freed k); auto.
  Qed.
  Lemma pure_array p : pure (array_at p).
  Proof. intros s. unfold array_at. destruct (nth_error (arrays s) p) as [k|]; auto. destruct (a_freed k); auto. Qed.
  Lemma pure_load p i : pure (sload p i).
  Proof.
    intros s. unfold sload, bind. pose proof (pure_array p s) as H. destruct (array_at p s) as [l s'| | | |]; auto.
    destruct (nth_error l i) as [[v|]|]; exact I || assumption.
  Qed.

  Lemma look_bind {A} l (m : M St A) (k : A -> sact) f (s : St) : pure m -> (forall a, m s = Ret a s -> alone (k a) s = f a s) ->
    alone (look l m k) s = bind m f s.
  Proof.
    intros Hp H. unfold look, bind. cbn [alone]. specialize (Hp s). destruct (m s) as [a s'| | | |]; try contradiction; [|reflexivity].
    subst s'. apply H. reflexivity.
  Qed.

  Lemma add_alone c z (k : sact) f (s : St) : (forall s', alone k s' = f s') ->
    alone (add_count_code c z k) s = (n <- count_at c ;; set_count c (wrap64 (n + z)) ;;; f)%M s.
  Proof.
    intros H. unfold add_count_code, count_code. apply look_bind; [apply pure_count|]. intros n E.
    unfold put_count_code. cbn [alone]. rewrite H. unfold set_count, bind. rewrite E. reflexivity.
  Qed.

  Lemma bind_assoc3 {A B C} (m : M St A) (f : A -> M St B) (g : B -> M St C) s :
    bind (bind m f) g s = bind m (fun a => bind (f a) g) s.
  Proof. unfold bind. destruct (m s); reflexivity. Qed.

  Lemma bind_eq {A B} (m : M St A) (f g : A -> M St B) s : (forall a s', f a s' = g a s') -> bind m f s = bind m g s.
  Proof. intros H. unfold bind. destruct (m s); auto. Qed.

  Lemma tail_alone d a (s : St) :
    alone (get_var_code a (fun k => put_var_code d (SArr (fst (fst k)) (snd (fst k)) (snd k)) (add_count_code (fst (fst k)) 1 (Fin SDone)))) s =
    (k <- sget_var a ;; sput_var d (SArr (fst (fst k)) (snd (fst k)) (snd k)) ;;;
     z <- count_at (fst (fst k)) ;; set_count (fst (fst k)) (wrap64 (z + 1)) ;;; ret SDone)%M s.
  Proof.
    apply look_bind; [apply pure_var|]. intros k _. unfold put_var_code. cbn [alone].
    rewrite (add_alone _ _ _ (ret SDone)) by reflexivity. reflexivity.
  Qed.

  Lemma code_alone (s : St) o : scd s = None -> alone (code o) s = sexec_op dini (seq_op o) s.
  Proof.
    intros Hs. destruct o as [d a|d a|a i v|a i|a]; cbn [shared_code seq_op sexec_op].
    - unfold copy_code, s_copy, sdone. rewrite bind_assoc3. apply look_bind; [apply pure_fresh|]. intros _ _.
      rewrite tail_alone. rewrite bind_assoc3. apply bind_eq. intros k s'. rewrite bind_assoc3. apply bind_eq. intros _ s2.
      rewrite bind_assoc3. apply bind_eq. reflexivity.
    - unfold assign_code, s_assign, sdone. rewrite bind_assoc3. apply look_bind; [apply pure_var|]. intros m _.
      rewrite bind_assoc3. apply look_bind; [apply pure_var|]. intros k _.
      destruct (snd m =? snd k); [reflexivity|]. cbv zeta.
      rewrite bind_assoc3.
      rewrite (add_alone _ _ _ (z <- count_at (fst (fst m)) ;;
        ((if (z =? 0)%Z then delete_count (fst (fst m)) ;;; delete_array (snd m) else ret tt) ;;;
         k <- sget_var a ;; sput_var d (SArr (fst (fst k)) (snd (fst k)) (snd k)) ;;;
         z <- count_at (fst (fst k)) ;; set_count (fst (fst k)) (wrap64 (z + 1)) ;;; ret SDone))%M).
      + apply bind_eq. intros z s1. rewrite bind_assoc3. apply bind_eq. intros _ s2. rewrite bind_assoc3. apply bind_eq. intros z' s3.
        rewrite bind_assoc3. apply bind_eq. intros _ s4. rewrite bind_assoc3. apply bind_eq. intros k' s5. rewrite bind_assoc3. apply bind_eq. intros _ s6.
        rewrite bind_assoc3. apply bind_eq. reflexivity.
      + intros s1. apply look_bind; [apply pure_count|]. intros z Ez. destruct (z =? 0)%Z; [|rewrite tail_alone; reflexivity].
        rewrite bind_assoc3. unfold delete_count. rewrite bind_assoc3. apply look_bind; [apply pure_count|]. intros z' _.
        unfold put_count_code. cbn [alone]. unfold bind at 1.
        match goal with |- alone _ ?st = _ => generalize st end. intros s2.
        unfold look, deletable, delete_array, bind at 1. cbn [alone].
        destruct (nth_error (arrays s2) (snd m)) as [x|]; [|reflexivity].
        destruct (a_freed x); [reflexivity|]. unfold put_array_code. cbn [alone]. rewrite tail_alone. reflexivity.
    - unfold set_code, s_set, sdone. cbn [sbind]. rewrite bind_assoc3. unfold bind at 1, ret at 1. rewrite bind_assoc3.
      apply look_bind; [apply pure_var|]. intros m _. cbn [sread]. rewrite bind_assoc3. unfold bind at 1, ret at 1.
      unfold sstore. rewrite bind_assoc3. apply look_bind; [apply pure_array|]. intros l _.
      destruct (nth_error l i); [|reflexivity]. rewrite bind_assoc3. unfold bind at 1, sevent. rewrite Hs. reflexivity.
    - unfold get_code, s_get. rewrite bind_assoc3. apply look_bind; [apply pure_var|]. intros m _.
      apply look_bind; [apply pure_load|]. reflexivity.
    - unfold size_code, s_size. rewrite bind_assoc3. apply look_bind; [apply pure_var|]. reflexivity.
  Qed.

  (** ** calls one after the other *)
  Lemma seq_shared (ops : list (top V)) : forall m (s : St) l m', Rep m s -> shexec dini m (map seq_op ops) = Some (l, m') ->
    exists s', seqrun (fun o => alone (code o)) ops s = Ret l s' /\ Rep m' s'.
  Proof.
    induction ops as [|o ops IH]; intros m s l m' R E; cbn [map shexec seqrun] in *.
    - injection E as <- <-. exists s. auto.
    - destruct (shstep dini m (seq_op o)) as [[x m1]|] eqn:E1; [|discriminate].
      destruct (shexec dini m1 (map seq_op ops)) as [[l2 m2]|] eqn:E2; [|discriminate]. injection E as <- <-.
      rewrite code_alone by (apply R).
      pose proof (step_ok dini m s (seq_op o) x m1 R E1) as H. unfold okres in H. 
      destruct H as (s1 & -> & R1). destruct (IH _ _ _ _ R1 E2) as (s2 & -> & R2). exists s2. auto.
  Qed.

  Lemma state_rep s0 m0 : shared_state dini s0 m0 -> Rep m0 s0.
  Proof.
    intros (n & p & l & Hn & E1 & E2). destruct (run_ok dini p _ _ _ _ (rep_init n Hn) E1) as (s' & E & R). congruence.
  Qed.

  Lemma shared_mutex (ts : list (list (stm (top V)))) (s0 : St) m0 : shared_state dini s0 m0 -> protected ts -> any_order dini m0 ts ->
    forall sch, exists c, crun code sch (fork s0 ts) = inl c /\ as_if_sequential (fun o => alone (code o)) s0 ts c /\
      (exists m, shexec dini m0 (map seq_op (map snd (history c))) = Some (results c, m) /\ (idle c -> shows (shared c) m)) /\
      exists sch' c', crun code (sch ++ sch') (fork s0 ts) = inl c' /\ forall t, In t (threads c') -> finished t.
  Proof.
    intros H0 Hp Ha sch. apply state_rep in H0.
    assert (Hok : forall l, merged ts l -> exists outs s', seqrun (fun o => alone (code o)) (map snd l) s0 = Ret outs s').
    { intros l Hl. specialize (Ha l Hl). destruct (shexec dini m0 (map seq_op (map snd l))) as [[x m]|] eqn:E; [|contradiction].
      destruct (seq_shared _ _ _ _ _ H0 E) as (s' & E' & _). eauto. }
    destruct (protected_good code (fun o => alone (code o)) ts s0 (fun o s => eq_refl) Hp Hok sch) as (c & E & G).
    exists c. split; [exact E|]. split; [exact G|]. split.
    - specialize (Ha _ (in_order _ _ _ _ G)).
      destruct (shexec dini m0 (map seq_op (map snd (history c)))) as [[x m]|] eqn:Ex; [|contradiction].
      destruct (seq_shared _ _ _ _ _ H0 Ex) as (s' & E' & R). destruct (sequential _ _ _ _ G) as (s1 & Es & Hi).
      rewrite E' in Es. injection Es as -> <-. exists m. split; [reflexivity|]. intros I. rewrite (Hi I).
      intros a o k Ho. exact (seen m s' a o k R Ho).
    - exact (protected_completes code (fun o => alone (code o)) ts s0 (fun o s => eq_refl) Hp Hok sch).
  Qed.

  (** ** threads that only read *)
  Lemma reads_readonly (s0 : St) m0 o x : Rep m0 s0 -> shstep dini m0 (seq_op o) = Some (x, m0) ->
    match o with TGet _ _ | TSize _ => True | _ => False end -> readonly s0 (code o) /\ alone (code o) s0 = Ret x s0.
  Proof.
    intros R E Ho. destruct (step_ok dini m0 s0 (seq_op o) x m0 R E) as (s1 & E1 & R1).
    pose proof E1 as E2. rewrite <- code_alone in E2 by apply R.
    destruct o as [d a|d a|a i v|a i|a]; try contradiction; cbn [shared_code] in *.
    - unfold get_code, get_var_code, look in *. cbn [alone] in E2.
      pose proof (pure_var a s0) as P1. destruct (sget_var a s0) as [m s'| | | |] eqn:Ev; try contradiction; [|discriminate].
      cbn [alone] in E2. pose proof (pure_load (snd m) i s0) as P2.
      destruct (sload (snd m) i s0) as [v s''| | | |] eqn:El; try contradiction; [|discriminate]. cbn [alone] in E2. injection E2 as <- <-.
      split.
      + constructor. rewrite Ev. constructor. rewrite El. constructor.
      + cbn [alone]. rewrite Ev. cbn [alone]. rewrite El. reflexivity.
    - unfold size_code, get_var_code, look in *. cbn [alone] in E2.
      pose proof (pure_var a s0) as P1. destruct (sget_var a s0) as [m s'| | | |] eqn:Ev; try contradiction; [|discriminate].
      cbn [alone] in E2. injection E2 as <- <-. split; [constructor; rewrite Ev; constructor|].
      cbn [alone]. rewrite Ev. reflexivity.
  Qed.

  Lemma reads_step m0 o : match o with TGet a i => elem_of m0 a i <> None | TSize a => obj_of m0 a <> None | _ => False end ->
    exists x, shstep dini m0 (seq_op o) = Some (x, m0) /\ match o with TGet _ _ | TSize _ => True | _ => False end.
  Proof.
    destruct o as [d a|d a|a i v|a i|a]; intros H; try contradiction; cbn [seq_op shstep].
    - destruct (elem_of m0 a i) as [v|]; [|contradiction]. eauto.
    - destruct (obj_of m0 a) as [[o l]|]; [|contradiction]. eauto.
  Qed.

  Lemma shared_readers (ts : list (list (stm (top V)))) (s0 : St) m0 : shared_state dini s0 m0 ->
    (forall p, In p ts -> only_reads m0 p /\ guarded false false p) ->
    forall sch, exists c, crun code sch (fork s0 ts) = inl c /\ as_if_sequential (fun o => alone (code o)) s0 ts c /\ shared c = s0 /\
      forall i o x, In (i, o, x) (log c) -> shstep dini m0 (seq_op o) = Some (x, m0).
  Proof.
    intros H0 Hts sch. apply state_rep in H0.
    assert (Hro : forall p o, In p ts -> In o (does p) -> readonly s0 (code o)).
    { intros p o Hp Ho. destruct (reads_step m0 o) as (x & E & Q); [apply (Hts p Hp); exact Ho|]. apply (reads_readonly _ _ _ _ H0 E Q). }
    assert (Hg : forall p, In p ts -> guarded false false p) by (intros p Hp; apply (Hts p Hp)).
    destruct (rinv_run code (fun o => alone (code o)) ts s0 (fun o s => eq_refl) Hro sch _ (rinv_fork (Loc := sloc) (Out := sout V) (fun o => alone (code o)) ts s0 Hg)) as (c & E & H).
    pose proof (rinv_good _ _ _ _ H) as G.
    exists c. split; [exact E|]. split; [exact G|]. split; [apply (r_shared _ _ _ _ H)|].
    intros i o x Hin. destruct (r_log _ _ _ _ H i o x Hin) as [Hi Hc].
    destruct (in_order _ _ _ _ G) as [_ Hm].
    destruct (nth_error ts i) as [p|] eqn:Ep; [|apply nth_error_None in Ep; lia].
    assert (Ho : In o (does p)).
    { destruct (Hm i p Ep) as (q & ->). apply in_or_app. left. unfold of_thread. apply in_map_iff. exists (i, o). split; [reflexivity|].
      apply filter_In. split; [|apply Nat.eqb_refl]. unfold history. apply in_map_iff. exists (i, o, x). auto. }
    destruct (reads_step m0 o) as (y & Ey & Q); [apply (Hts p); [eapply nth_error_In; exact Ep|exact Ho]|].
    destruct (reads_readonly _ _ _ _ H0 Ey Q) as [_ Ea]. rewrite Ea in Hc. injection Hc as ->. exact Ey.
  Qed.

  (** ** threads with variables and elements of their own *)
  Section Own.
    Context (ts : list (list (stm (top V)))) (s0 : St) (m0 : shst V).
    Context (H0 : Rep m0 s0) (Hap : apart m0 ts).
    Definition var_of (i a : nat) : Prop := exists p, nth_error ts i = Some p /\ uses p a.
    Definition object_of (i o : nat) : Prop := exists a, var_of i a /\ ref_of m0 a = Some o.
    Definition owns (i : nat) (l : sloc) : Prop :=
      match l with LVar a => var_of i a | LCount o => object_of i o | LArr o => object_of i o end.
    Definition part (i : nat) (s s' : St) : Prop :=
      (forall a, var_of i a -> nth_error (svars s) a = nth_error (svars s') a) /\
      (forall o, object_of i o -> nth_error (counts s) o = nth_error (counts s') o) /\
      (forall o, object_of i o -> nth_error (arrays s) o = nth_error (arrays s') o).
    (** the variables of thread i refer to its own arrays *)
    Definition inside (i : nat) (s : St) : Prop :=
      forall a c n p, var_of i a -> nth_error (svars s) a = Some (SArr c n p) -> object_of i (fst c) /\ object_of i p.

    Lemma part_refl i s : part i s s. Proof. repeat split. Qed.
    Lemma part_trans i s1 s2 s3 : part i s1 s2 -> part i s2 s3 -> part i s1 s3.
    Proof.
      intros (A & B & C) (A' & B' & C'). repeat split; intros x X.
      - rewrite (A x X). exact (A' x X).
      - rewrite (B x X). exact (B' x X).
      - rewrite (C x X). exact (C' x X).
    Qed.
    Lemma var_apart i j a : var_of i a -> var_of j a -> i = j.
    Proof.
      intros (p & Ep & Ua) (q & Eq & Ub). destruct (Nat.eq_dec i j) as [->|N]; [reflexivity|].
      destruct (Hap i j p q a a N Ep Eq Ua Ub) as [X _]. contradiction.
    Qed.
    Lemma object_apart i j o : object_of i o -> object_of j o -> i = j.
    Proof.
      intros (a & (p & Ep & Ua) & Ra) (b & (q & Eq & Ub) & Rb). destruct (Nat.eq_dec i j) as [->|N]; [reflexivity|].
      destruct (Hap i j p q a b N Ep Eq Ua Ub) as [_ X]. destruct (X o Ra Rb).
    Qed.
    Lemma owns_one i j (p q : list (stm (top V))) l : nth_error ts i = Some p -> nth_error ts j = Some q -> owns i l -> owns j l -> i = j.
    Proof. intros _ _. destruct l; cbn [owns]; [apply var_apart|apply object_apart|apply object_apart]. Qed.

    Notation loc := (ApartProofs.local ts part owns).
    Lemma local_look {A} i l (m : M St A) (k : A -> sact) (s : St) : owns i l -> pure m ->
      (forall s', part i s' s -> match m s, m s' with Ret a _, Ret b _ => a = b | Ub r, Ub r' => r = r' | _, _ => False end) ->
      (forall a, m s = Ret a s -> loc i (k a) s) -> loc i (look l m k) s.
    Proof.
      intros O P C K. unfold look. apply L_read; [exact O| |].
      - intros s' Q. specialize (C s' Q). specialize (P s). destruct (m s) as [a s1| | | |], (m s') as [b s2| | | |]; try contradiction; congruence.
      - pose proof (P s) as Q. destruct (m s) as [a s1| | | |] eqn:E; try contradiction; [|apply L_undefined].
        subst s1. apply K. reflexivity.
    Qed.
    Lemma local_var i a k s : var_of i a -> inside i s ->
      (forall c n p, object_of i (fst c) -> object_of i p -> nth_error (svars s) a = Some (SArr c n p) -> loc i (k (c, n, p)) s) ->
      loc i (get_var_code a k) s.
    Proof.
      intros O I K. apply local_look; [exact O|apply pure_var| |].
      - intros s' (A & _). unfold sget_var. rewrite (A a O). destruct (nth_error (svars s) a) as [[|]|]; reflexivity.
      - intros m E. unfold sget_var in E. destruct (nth_error (svars s) a) as [[|c n p]|] eqn:Ev; try discriminate. injection E as <-.
        destruct (I a c n p O Ev) as [Oc Op]. exact (K c n p Oc Op eq_refl).
    Qed.
    Lemma local_count i c k s : object_of i (fst c) -> (forall z, loc i (k z) s) -> loc i (count_code c k) s.
    Proof.
      intros O K. apply local_look; [exact O|apply pure_count| |intros z _; apply K].
      intros s' (_ & B & _). unfold count_at. rewrite (B _ O). destruct (nth_error (counts s) (fst c)) as [x|]; [|reflexivity].
      destruct (snd c =? 0)%Z; [|reflexivity]. destruct (c_freed x); reflexivity.
    Qed.
    Lemma nth_upd_same {A} (l l' : list A) a b x : nth_error l b = nth_error l' b -> nth_error (upd a x l) b = nth_error (upd a x l') b.
    Proof.
      intros E. destruct (Nat.eq_dec a b) as [->|N]; [|rewrite !nth_error_upd_neq by exact N; exact E].
      destruct (nth_error l b) eqn:El; symmetry in E.
      - rewrite !nth_error_upd_eq; [reflexivity| |]; apply nth_error_Some; congruence.
      - apply nth_error_None in El, E.
        assert (Z : forall m : list A, length m <= b -> nth_error (upd b x m) b = None) by (intros m Hm; apply nth_error_None; rewrite upd_length; exact Hm).
        rewrite !Z by assumption. reflexivity.
    Qed.
    Lemma local_put_var i a x k s : var_of i a -> loc i k (mkS (upd a x (svars s)) (counts s) (arrays s) (scd s)) ->
      loc i (put_var_code a x k) s.
    Proof.
      intros O K. apply L_write; [exact O| | |exact K].
      - intros s' (A & B & C). repeat split; cbn [svars counts arrays]; intros y Y; [apply nth_upd_same, A, Y|apply B, Y|apply C, Y].
      - intros j q s' Hj N. repeat split; cbn [svars counts arrays]; intros y Y. apply nth_error_upd_neq. intros ->.
        apply N. exact (var_apart j i y Y O).
    Qed.
    Lemma local_put_count i c z b k s : object_of i (fst c) ->
      loc i k (mkS (svars s) (upd (fst c) (SharedModel.mkC z b) (counts s)) (arrays s) (scd s)) -> loc i (put_count_code c z b k) s.
    Proof.
      intros O K. apply L_write; [exact O| | |exact K].
      - intros s' (A & B & C). repeat split; cbn [svars counts arrays]; intros y Y; [apply A, Y|apply nth_upd_same, B, Y|apply C, Y].
      - intros j q s' Hj N. repeat split; cbn [svars counts arrays]; intros y Y. apply nth_error_upd_neq. intros <-.
        apply N. exact (object_apart j i _ Y O).
    Qed.
    Lemma local_put_array i p l b k s : object_of i p ->
      loc i k (mkS (svars s) (counts s) (upd p (mkA l b) (arrays s)) (scd s)) -> loc i (put_array_code p l b k) s.
    Proof.
      intros O K. apply L_write; [exact O| | |exact K].
      - intros s' (A & B & C). repeat split; cbn [svars counts arrays]; intros y Y; [apply A, Y|apply B, Y|apply nth_upd_same, C, Y].
      - intros j q s' Hj N. repeat split; cbn [svars counts arrays]; intros y Y. apply nth_error_upd_neq. intros <-.
        apply N. exact (object_apart j i _ Y O).
    Qed.
    Lemma local_add i c z k s : object_of i (fst c) ->
      (forall x, loc i k (mkS (svars s) (upd (fst c) x (counts s)) (arrays s) (scd s))) -> loc i (add_count_code c z k) s.
    Proof. intros O K. apply local_count; [exact O|]. intros n. apply local_put_count; [exact O|]. apply K. Qed.
    Lemma local_tail i d a s : var_of i d -> var_of i a -> inside i s ->
      loc i (get_var_code a (fun k => put_var_code d (SArr (fst (fst k)) (snd (fst k)) (snd k)) (add_count_code (fst (fst k)) 1 (Fin SDone)))) s.
    Proof.
      intros Od Oa I. apply local_var; [exact Oa|exact I|]. intros c n p Oc Op _. cbn [fst snd]. apply local_put_var; [exact Od|].
      apply local_add; [exact Oc|]. intros x. apply L_fin.
    Qed.
    Lemma inside_vars i s s' : svars s' = svars s -> inside i s -> inside i s'.
    Proof. intros E I a c n p O H. rewrite E in H. exact (I a c n p O H). Qed.

    Lemma local_code i o s : (forall a, In a (names o) -> var_of i a) -> inside i s -> loc i (code o) s.
    Proof.
      intros O I. destruct o as [d a|d a|a j v|a j|a]; cbn [shared_code names] in *.
      - assert (Od : var_of i d) by (apply O; cbn; auto). assert (Oa : var_of i a) by (apply O; cbn; auto).
        apply local_look; [exact Od|apply pure_fresh| |intros _ _; apply local_tail; assumption].
        intros s' (A & _). unfold sfresh. rewrite (A d Od). destruct (nth_error (svars s) d) as [[|]|]; reflexivity.
      - assert (Od : var_of i d) by (apply O; cbn; auto). assert (Oa : var_of i a) by (apply O; cbn; auto).
        apply local_var; [exact Od|exact I|]. intros c n p Oc Op _. apply local_var; [exact Oa|exact I|]. intros c' n' p' _ _ _. cbn [fst snd].
        destruct (p =? p'); [apply L_fin|]. cbv zeta. apply local_add; [exact Oc|]. intros x.
        apply local_count; [exact Oc|]. intros z. destruct (z =? 0)%Z.
        + apply local_count; [exact Oc|]. intros z'. apply local_put_count; [exact Oc|].
          apply local_look; [exact Op| | |].
          * intros s1. unfold deletable. destruct (nth_error (arrays s1) p) as [y|]; [destruct (a_freed y); auto|exact Logic.I].
          * intros s' (_ & _ & C). unfold deletable. rewrite (C p Op). cbn [arrays]. destruct (nth_error (arrays s) p) as [y|]; [|reflexivity].
            destruct (a_freed y); reflexivity.
          * intros l _. apply local_put_array; [exact Op|]. apply local_tail; [exact Od|exact Oa|]. apply (inside_vars i s); [reflexivity|exact I].
        + apply local_tail; [exact Od|exact Oa|]. apply (inside_vars i s); [reflexivity|exact I].
      - assert (Oa : var_of i a) by (apply O; cbn; auto). apply local_var; [exact Oa|exact I|]. intros c n p _ Op _. cbn [snd].
        apply local_look; [exact Op|apply pure_array| |].
        + intros s' (_ & _ & C). unfold array_at. rewrite (C p Op). destruct (nth_error (arrays s) p) as [y|]; [|reflexivity]. destruct (a_freed y); reflexivity.
        + intros l _. destruct (nth_error l j); [|apply L_undefined]. apply local_put_array; [exact Op|]. apply L_fin.
      - assert (Oa : var_of i a) by (apply O; cbn; auto). apply local_var; [exact Oa|exact I|]. intros c n p _ Op _. cbn [snd].
        apply local_look; [exact Op|apply pure_load| |intros v _; apply L_fin].
        intros s' (_ & _ & C). unfold sload, bind, array_at. rewrite (C p Op). destruct (nth_error (arrays s) p) as [y|]; [|reflexivity].
        destruct (a_freed y); [reflexivity|]. destruct (nth_error (a_cells y) j) as [[w|]|]; reflexivity.
      - assert (Oa : var_of i a) by (apply O; cbn; auto). apply local_var; [exact Oa|exact I|]. intros c n p _ _ _. apply L_fin.
    Qed.

    (** what the variables of thread i refer to after some of its calls *)
    Definition refs_inside (i : nat) (m : shst V) : Prop := forall a o, var_of i a -> ref_of m a = Some o -> object_of i o.
    Lemma rep_inside i m s : Rep m s -> refs_inside i m -> inside i s.
    Proof.
      intros R I a c n p O E. destruct (nth_error (refs m) a) as [r|] eqn:Er.
      - destruct r as [o|].
        + assert (Ho : ref_of m a = Some o) by (unfold ref_of; rewrite Er; reflexivity).
          destruct (rep_ref _ _ _ _ R Ho) as (l & _ & _ & _ & Ev & _). rewrite Ev in E. injection E as <- <- <-. cbn [fst].
          split; exact (I a o O Ho).
        + assert (N : is_new m a = true) by (unfold is_new; rewrite Er; reflexivity).
          destruct (rep_new _ _ _ R N) as [_ F]. unfold sfresh in F. rewrite E in F. discriminate.
      - exfalso. apply nth_error_None in Er. assert (L : length (refs m) = length (svars s)) by (generalize (p_slots _ _ R); clear; induction 1; cbn; congruence). rewrite L in Er.
        apply nth_error_None in Er. congruence.
    Qed.
    Lemma ref_upd (m : shst V) d o a (x : list (list (option V))) : ref_of (mkSh (upd d (Some o) (refs m)) x) a = Some o \/ ref_of (mkSh (upd d (Some o) (refs m)) x) a = ref_of m a.
    Proof.
      unfold ref_of. cbn [refs]. destruct (Nat.eq_dec d a) as [->|N]; [|right; now rewrite nth_error_upd_neq by exact N].
      destruct (Nat.lt_ge_cases a (length (refs m))) as [L|L].
      - left. now rewrite nth_error_upd_eq.
      - right. rewrite !(proj2 (nth_error_None _ _)); [reflexivity|exact L|rewrite upd_length; exact L].
    Qed.
    Lemma step_inside i m o x m' : (forall a, In a (names o) -> var_of i a) -> refs_inside i m ->
      shstep dini m (seq_op o) = Some (x, m') -> refs_inside i m'.
    Proof.
      intros O I E. destruct o as [d a|d a|a j v|a j|a]; cbn [seq_op shstep names] in *.
      - assert (Oa : var_of i a) by (apply O; cbn; auto). destruct (ref_of m a) as [ob|] eqn:Er; [|discriminate].
        destruct (is_new m d); [|discriminate]. injection E as <- <-. intros b o' Ob Hb.
        destruct (ref_upd m d ob b (objs m)) as [Q|Q]; rewrite Q in Hb; [injection Hb as <-; exact (I a ob Oa Er)|exact (I b o' Ob Hb)].
      - assert (Oa : var_of i a) by (apply O; cbn; auto). destruct (ref_of m d); [|discriminate]. destruct (ref_of m a) as [ob|] eqn:Er; [|discriminate].
        injection E as <- <-. intros b o' Ob Hb.
        destruct (ref_upd m d ob b (objs m)) as [Q|Q]; rewrite Q in Hb; [injection Hb as <-; exact (I a ob Oa Er)|exact (I b o' Ob Hb)].
      - destruct (obj_of m a) as [[ob l]|]; [|discriminate]. cbn [sarg_val] in E. destruct (j <? length l); [|discriminate].
        injection E as <- <-. exact I.
      - destruct (elem_of m a j); [|discriminate]. injection E as <- <-. exact I.
      - destruct (obj_of m a) as [[ob l]|]; [|discriminate]. injection E as <- <-. exact I.
    Qed.
    Lemma exec_inside i ops : forall m l m', (forall o a, In o ops -> In a (names o) -> var_of i a) -> refs_inside i m ->
      shexec dini m (map seq_op ops) = Some (l, m') -> refs_inside i m'.
    Proof.
      induction ops as [|o ops IH]; intros m l m' O I E; cbn [map shexec] in E.
      - injection E as <- <-. exact I.
      - destruct (shstep dini m (seq_op o)) as [[x m1]|] eqn:E1; [|discriminate].
        destruct (shexec dini m1 (map seq_op ops)) as [[l2 m2]|] eqn:E2; [|discriminate]. injection E as <- <-.
        apply (IH m1 l2 m2); [intros o' a Ho; apply O; now right| |exact E2].
        apply (step_inside i m o x m1); [intros a; apply O; now left|exact I|exact E1].
    Qed.
  End Own.

  Lemma shexec_app p1 p2 (m : shst V) : shexec dini m (p1 ++ p2) =
    match shexec dini m p1 with
    | Some (l1, m1) => match shexec dini m1 p2 with Some (l2, m2) => Some (l1 ++ l2, m2) | None => None end
    | None => None
    end.
  Proof.
    revert m. induction p1 as [|o p1 IH]; intros m; cbn [app shexec].
    - destruct (shexec dini m p2) as [[l2 m2]|]; reflexivity.
    - destruct (shstep dini m o) as [[x m1]|]; [|reflexivity]. rewrite IH. destruct (shexec dini m1 p1) as [[l1 m2]|]; [|reflexivity].
      destruct (shexec dini m2 p2) as [[l2 m3]|]; reflexivity.
  Qed.

  Lemma shared_apart (ts : list (list (stm (top V)))) (s0 : St) m0 : shared_state dini s0 m0 -> apart m0 ts ->
    (forall p, In p ts -> guarded false false p /\ shexec dini m0 (map seq_op (does p)) <> None) ->
    forall sch, exists c, crun code sch (fork s0 ts) = inl c /\
      as_if_alone (fun o => alone (code o)) (fun i s s' => forall p, nth_error ts i = Some p -> same_for p s s') s0 ts c /\
      forall i p t, nth_error ts i = Some p -> nth_error (threads c) i = Some t ->
        exists m, shexec dini m0 (map seq_op (map fst (outs t))) = Some (map snd (outs t), m) /\
          (cur t = None -> forall a o k, uses p a -> obj_of m a = Some (o, k) ->
             seen_elems (shared c) a = Some k /\ seen_count (shared c) a = Some (Z.of_nat (sharers m o))).
  Proof.
    intros H0 Hap Hts sch. apply state_rep in H0.
    assert (Hvar : forall i p o a, nth_error ts i = Some p -> In o (does p) -> In a (names o) -> var_of ts i a).
    { intros i p o a Ep Ho Ha. exists p. split; [exact Ep|]. exists o. auto. }
    assert (Hin : forall i, refs_inside ts m0 i m0) by (intros i a o O E; exists a; auto).
    assert (Hpre : forall i p ops q, nth_error ts i = Some p -> does p = ops ++ q ->
      exists l m s, shexec dini m0 (map seq_op ops) = Some (l, m) /\ seqrun (fun o => alone (code o)) ops s0 = Ret l s /\ Rep m s /\ inside ts m0 i s /\
        shexec dini m (map seq_op q) <> None).
    { intros i p ops q Ep Ed. destruct (Hts p (nth_error_In _ _ Ep)) as [_ Hx]. rewrite Ed, map_app, shexec_app in Hx.
      destruct (shexec dini m0 (map seq_op ops)) as [[l m]|] eqn:E; [|contradiction].
      destruct (seq_shared _ _ _ _ _ H0 E) as (s & Es & R). exists l, m, s. split; [reflexivity|]. split; [exact Es|]. split; [exact R|]. split.
      - apply (rep_inside ts m0 i m s R). apply (exec_inside ts m0 i ops m0 l m); [|apply Hin|exact E].
        intros o a Ho. apply (Hvar i p o a Ep). rewrite Ed. apply in_or_app. now left.
      - destruct (shexec dini m (map seq_op q)); [discriminate|contradiction]. }
    assert (Hloc : forall i p ops o q, nth_error ts i = Some p -> does p = ops ++ o :: q ->
      exists l s x s', seqrun (fun o => alone (code o)) ops s0 = Ret l s /\ ApartProofs.local ts (part ts m0) (owns ts m0) i (code o) s /\ alone (code o) s = Ret x s').
    { intros i p ops o q Ep Ed. destruct (Hpre i p ops (o :: q) Ep Ed) as (l & m & s & _ & Es & R & I & Hq).
      cbn [map shexec] in Hq. destruct (shstep dini m (seq_op o)) as [[x m1]|] eqn:E1; [|contradiction].
      destruct (step_ok dini m s (seq_op o) x m1 R E1) as (s' & E' & _). exists l, s, x, s'. split; [exact Es|]. split.
      - apply (local_code ts m0 Hap); [|exact I]. intros a. apply (Hvar i p o a Ep). rewrite Ed. apply in_or_app. right. now left.
      - rewrite code_alone by (apply R). exact E'. }
    destruct (apart_good code ts s0 (part ts m0) (owns ts m0) (part_refl ts m0) (part_trans ts m0) (owns_one ts m0 Hap) Hloc
      (fun p Hp => proj1 (Hts p Hp)) sch) as (c & E & G).
    assert (Hsee : forall i p a s s', nth_error ts i = Some p -> uses p a -> part ts m0 i s s' -> inside ts m0 i s' ->
      nth_error (svars s) a = nth_error (svars s') a /\ seen_elems s a = seen_elems s' a /\ seen_count s a = seen_count s' a).
    { intros i p a s s' Ep Ua (A & B & C) I. assert (O : var_of ts i a) by (exists p; auto).
      unfold seen_elems, seen_count. rewrite (A a O). split; [reflexivity|].
      destruct (nth_error (svars s') a) as [[|[cn off] n q]|] eqn:Ev; [split; reflexivity| |split; reflexivity].
      destruct (I a _ _ _ O Ev) as [Oc Oq]. cbn [fst] in Oc. rewrite (B cn Oc), (C q Oq). split; reflexivity. }
    exists c. split; [exact E|]. split; [split|].
    - exact (alone_no_race _ _ _ _ _ G).
    - intros i p t Ep Et. destruct (alone_results _ _ _ _ _ G i p t Ep Et) as (q & s1 & D & Es & P & F).
      exists q, s1. split; [exact D|]. split; [exact Es|]. split; [|exact F]. intros Ec p' Ep' a Ua. rewrite Ep in Ep'. injection Ep' as <-.
      destruct (Hpre i p _ q Ep D) as (l & m & s & _ & Es' & R & I & _). rewrite Es in Es'. injection Es' as <- <-.
      exact (Hsee i p a _ _ Ep Ua (P Ec) I).
    - exact (alone_progress _ _ _ _ _ G).
    - intros i p t Ep Et. destruct (alone_results _ _ _ _ _ G i p t Ep Et) as (q & s1 & D & Es & P & F).
      destruct (Hpre i p _ q Ep D) as (l & m & s & Ex & Es' & R & I & _). rewrite Es in Es'. injection Es' as <- <-.
      exists m. split; [exact Ex|]. intros Ec a o k Ua Ho. destruct (Hsee i p a _ _ Ep Ua (P Ec) I) as (_ & -> & ->).
      exact (seen m s1 a o k R Ho).
  Qed.

  (** ** two copies at the same time *)
  Notation cfg := (config St sloc (top V) (sout V)).
  Notation thr := (thread St sloc (top V) (sout V)).
  Definition at_ (c : cfg) (i : nat) (o : top V) (a : sact) : Prop := exists q ou, nth_error (threads c) i = Some (mkT (Some (o, a)) q ou).
  (** the others are where they were *)
  Definition rest_same (c c' : cfg) (i : nat) : Prop :=
    length (threads c') = length (threads c) /\ held c' = held c /\ forall j, j <> i -> nth_error (threads c') j = nth_error (threads c) j.

  Lemma crun_cons i sch (c c1 : cfg) : cstep code i c = inl c1 -> crun code (i :: sch) c = crun code sch c1.
  Proof. intros H. cbn [crun]. rewrite H. reflexivity. Qed.
  Lemma put_same (c : cfg) i t s' lg : rest_same c (mkC s' (held c) (put_thread c i t) lg) i.
  Proof.
    unfold rest_same, put_thread. cbn [threads held]. rewrite upd_length. repeat split. intros j Hj. apply nth_error_upd_neq. congruence.
  Qed.
  Lemma put_at (c : cfg) i t t' s' lg h : nth_error (threads c) i = Some t ->
    nth_error (threads (mkC s' h (put_thread c i t') lg : cfg)) i = Some t'.
  Proof. intros H. unfold put_thread. cbn [threads]. apply nth_error_upd_eq. apply nth_error_Some. congruence. Qed.

  Lemma begin_step (c : cfg) i o q ou : nth_error (threads c) i = Some (mkT None (StDo o :: q) ou) ->
    exists c', cstep code i c = inl c' /\ shared c' = shared c /\ log c' = log c /\ rest_same c c' i /\ at_ c' i o (code o).
  Proof.
    intros H. unfold cstep. rewrite H. cbn [cur rest outs]. eexists. split; [reflexivity|]. cbn [shared log].
    split; [reflexivity|]. split; [reflexivity|]. split; [apply put_same|]. eexists _, _. eapply put_at. exact H.
  Qed.
  Lemma look_step {A} (c : cfg) i o l (m : M St A) k x : at_ c i o (look l m k) -> m (shared c) = Ret x (shared c) ->
    exists c', cstep code i c = inl c' /\ shared c' = shared c /\ log c' = log c /\ rest_same c c' i /\ at_ c' i o (k x).
  Proof.
    intros (q & ou & H) E. unfold cstep. rewrite H. cbn [cur rest outs look]. rewrite E. eexists. split; [reflexivity|]. cbn [shared log].
    split; [reflexivity|]. split; [reflexivity|]. split; [apply put_same|]. eexists _, _. eapply put_at. exact H.
  Qed.
  Lemma write_step (c : cfg) i o l f k : at_ c i o (Write l f k) ->
    exists c', cstep code i c = inl c' /\ shared c' = f (shared c) /\ log c' = log c /\ rest_same c c' i /\ at_ c' i o k.
  Proof.
    intros (q & ou & H). unfold cstep. rewrite H. cbn [cur rest outs]. eexists. split; [reflexivity|]. cbn [shared log].
    split; [reflexivity|]. split; [reflexivity|]. split; [apply put_same|]. eexists _, _. eapply put_at. exact H.
  Qed.
  Lemma fin_step (c : cfg) i o x : at_ c i o (Fin x) ->
    exists c', cstep code i c = inl c' /\ shared c' = shared c /\ log c' = log c ++ [(i, o, x)] /\ rest_same c c' i.
  Proof.
    intros (q & ou & H). unfold cstep. rewrite H. cbn [cur rest outs]. eexists. split; [reflexivity|]. cbn [shared log].
    split; [reflexivity|]. split; [reflexivity|]. apply put_same.
  Qed.
  Lemma at_keep (c c' : cfg) i j o a : rest_same c c' i -> j <> i -> at_ c j o a -> at_ c' j o a.
  Proof. intros (_ & _ & H) Hn (q & ou & E). exists q, ou. rewrite H by exact Hn. exact E. Qed.
  Lemma same_trans (c c1 c2 : cfg) i : rest_same c c1 i -> rest_same c1 c2 i -> rest_same c c2 i.
  Proof. intros (L1 & H1 & N1) (L2 & H2 & N2). repeat split; try congruence. intros j Hj. rewrite N2, N1 by exact Hj. reflexivity. Qed.

  (** up to the access to the count *)
  Lemma copy_begins (c : cfg) i d a q ou o n p : nth_error (threads c) i = Some (mkT None (StDo (TCopy d a) :: q) ou) ->
    sfresh d (shared c) = Ret tt (shared c) -> nth_error (svars (shared c)) a = Some (SArr (o, 0%Z) n p) ->
    exists c', crun code [i; i; i; i] c = inl c' /\ rest_same c c' i /\ log c' = log c /\
      shared c' = mkS (upd d (SArr (o, 0%Z) n p) (svars (shared c))) (counts (shared c)) (arrays (shared c)) (scd (shared c)) /\
      at_ c' i (TCopy d a) (add_count_code (o, 0%Z) 1 (Fin SDone)).
  Proof.
    intros H Hd Ha. destruct (begin_step c i _ _ _ H) as (c1 & E1 & S1 & L1 & R1 & A1). cbn [shared_code] in A1. unfold copy_code in A1.
    rewrite <- S1 in Hd. destruct (look_step c1 i _ _ _ _ _ A1 Hd) as (c2 & E2 & S2 & L2 & R2 & A2). cbn beta in A2.
    assert (Ha2 : sget_var a (shared c2) = Ret ((o, 0%Z), n, p) (shared c2)).
    { rewrite S2, S1. unfold sget_var. rewrite Ha. reflexivity. }
    unfold get_var_code in A2. destruct (look_step c2 i _ _ _ _ _ A2 Ha2) as (c3 & E3 & S3 & L3 & R3 & A3). cbn beta in A3. cbn [fst snd] in A3.
    unfold put_var_code in A3. destruct (write_step c3 i _ _ _ _ A3) as (c4 & E4 & S4 & L4 & R4 & A4).
    exists c4. rewrite (crun_cons _ _ _ _ E1), (crun_cons _ _ _ _ E2), (crun_cons _ _ _ _ E3), (crun_cons _ _ _ _ E4).
    split; [reflexivity|]. split; [eauto using same_trans|]. split; [congruence|]. split; [|exact A4].
    rewrite S4, S3, S2, S1. reflexivity.
  Qed.

  Lemma copies_race (ts : list (list (stm (top V)))) (s0 : St) m0 i j d d' a a' p q o : shared_state dini s0 m0 -> i <> j ->
    nth_error ts i = Some (StDo (TCopy d a) :: p) -> nth_error ts j = Some (StDo (TCopy d' a') :: q) ->
    is_new m0 d = true -> is_new m0 d' = true -> d <> d' -> ref_of m0 a = Some o -> ref_of m0 a' = Some o ->
    (exists sch c, crun code sch (fork s0 ts) = inl c /\ race c) /\
    exists sch c, crun code sch (fork s0 ts) = inl c /\ history c = [(i, TCopy d a); (j, TCopy d' a')] /\
      seen_count (shared c) a = Some (Z.of_nat (sharers m0 o) + 1)%Z.
  Proof.
    intros H0 Hn Hi Hj Hd Hd' Hdd Ha Ha'. apply state_rep in H0.
    destruct (rep_new _ _ _ H0 Hd) as [Nd Fd]. destruct (rep_new _ _ _ H0 Hd') as [Nd' Fd'].
    destruct (rep_ref _ _ _ _ H0 Ha) as (l & Ra & Ho & _ & Va & Hs & Hc & _).
    destruct (rep_ref _ _ _ _ H0 Ha') as (l' & Ra' & Ho' & _ & Va' & _ & _ & _). assert (l' = l) by congruence. subst l'.
    assert (Hda : d <> a) by (intros ->; congruence). assert (Hda' : d <> a') by (intros ->; congruence). assert (Hd'a : d' <> a) by (intros ->; congruence).
    set (c0 := fork s0 ts : cfg).
    assert (Ti : nth_error (threads c0) i = Some (mkT None (StDo (TCopy d a) :: p) [])) by (unfold c0, fork; cbn [threads]; rewrite nth_error_map, Hi; reflexivity).
    assert (Tj : nth_error (threads c0) j = Some (mkT None (StDo (TCopy d' a') :: q) [])) by (unfold c0, fork; cbn [threads]; rewrite nth_error_map, Hj; reflexivity).
    destruct (copy_begins c0 i d a p [] o (length l) o Ti Fd Va) as (c1 & E1 & R1 & L1 & S1 & A1).
    assert (Tj1 : nth_error (threads c1) j = Some (mkT None (StDo (TCopy d' a') :: q) [])) by (destruct R1 as (_ & _ & R1); rewrite R1 by congruence; exact Tj).
    assert (Fd1 : sfresh d' (shared c1) = Ret tt (shared c1)).
    { revert Fd'. rewrite S1. unfold sfresh. cbn [svars shared c0 fork]. rewrite nth_error_upd_neq by exact Hdd.
      destruct (nth_error (svars s0) d') as [[|]|]; intros Q; try discriminate. reflexivity. }
    assert (Va1 : nth_error (svars (shared c1)) a' = Some (SArr (o, 0%Z) (length l) o)) by (rewrite S1; cbn [svars]; rewrite nth_error_upd_neq by exact Hda'; exact Va').
    destruct (copy_begins c1 j d' a' q [] o (length l) o Tj1 Fd1 Va1) as (c2 & E2 & R2 & L2 & S2 & A2).
    assert (B2 : at_ c2 i (TCopy d a) (add_count_code (o, 0%Z) 1 (Fin SDone))) by (eapply at_keep; [exact R2|congruence|exact A1]).
    assert (K2 : nth_error (counts (shared c2)) o = Some (SharedModel.mkC (Z.of_nat (sharers m0 o)) false)) by (rewrite S2; cbn [counts]; rewrite S1; exact Hc).
    unfold add_count_code, count_code in A2, B2.
    destruct (look_step c2 i _ _ _ _ _ B2 (count_ok _ _ _ K2)) as (c3 & E3 & S3 & L3 & R3 & A3). cbn beta in A3. cbn [fst] in A3.
    assert (B3 : at_ c3 j (TCopy d' a') (look (LCount o) (count_at (o, 0%Z)) (fun n => put_count_code (o, 0%Z) (wrap64 (n + 1)) false (Fin SDone)))).
    { eapply at_keep; [exact R3|congruence|exact A2]. }
    assert (Ec3 : crun code ([i; i; i; i] ++ [j; j; j; j] ++ [i]) c0 = inl c3).
    { rewrite crun_app, E1, crun_app, E2. cbn [crun]. rewrite E3. reflexivity. }
    split.
    { exists ([i; i; i; i] ++ [j; j; j; j] ++ [i]), c3. split; [exact Ec3|]. exists (LCount o).
      destruct A3 as (q1 & ou1 & A3). destruct B3 as (q2 & ou2 & B3). unfold race_at.
      exists i, j. do 2 eexists. exists true, false. split; [exact Hn|]. split; [exact A3|]. split; [exact B3|]. repeat split. }
    assert (K3 : nth_error (counts (shared c3)) o = Some (SharedModel.mkC (Z.of_nat (sharers m0 o)) false)) by (rewrite S3; exact K2).
    destruct (look_step c3 j _ _ _ _ _ B3 (count_ok _ _ _ K3)) as (c4 & E4 & S4 & L4 & R4 & A4). cbn beta in A4.
    unfold put_count_code in A4, A3. assert (B4 := at_keep _ _ _ _ _ _ R4 Hn A3).
    destruct (write_step c4 i _ _ _ _ B4) as (c5 & E5 & S5 & L5 & R5 & A5).
    assert (B5 := at_keep _ _ _ _ _ _ R5 (not_eq_sym Hn) A4).
    destruct (write_step c5 j _ _ _ _ B5) as (c6 & E6 & S6 & L6 & R6 & A6).
    assert (B6 := at_keep _ _ _ _ _ _ R6 Hn A5).
    destruct (fin_step c6 i _ _ B6) as (c7 & E7 & S7 & L7 & R7).
    assert (B7 := at_keep _ _ _ _ _ _ R7 (not_eq_sym Hn) A6).
    destruct (fin_step c7 j _ _ B7) as (c8 & E8 & S8 & L8 & R8).
    exists (([i; i; i; i] ++ [j; j; j; j] ++ [i]) ++ [j; i; j; i; j]), c8. split.
    { rewrite crun_app, Ec3. rewrite (crun_cons _ _ _ _ E4), (crun_cons _ _ _ _ E5), (crun_cons _ _ _ _ E6), (crun_cons _ _ _ _ E7), (crun_cons _ _ _ _ E8). reflexivity. }
    split.
    { unfold history. rewrite L8, L7, L6, L5, L4, L3, L2, L1. reflexivity. }
    unfold seen_count. rewrite S8, S7, S6, S5, S4, S3, S2. cbn [svars counts]. rewrite S1. cbn [svars counts shared c0 fork].
    rewrite !nth_error_upd_neq by assumption. rewrite Va. rewrite nth_error_upd_eq; [cbn [c_freed c_val negb orb Z.eqb]|].
    - f_equal. apply wrap_small. pose proof (p_few _ _ H0).
      assert (sharers m0 o < length (refs m0)); [|lia].
      pose proof (cnt_upd (refs m0) d None (Some o) o Nd) as Q. rewrite ind_same in Q.
      pose proof (cnt_le (upd d (Some o) (refs m0)) o) as Q2. rewrite upd_length in Q2. change (cnt (refs m0) o) with (sharers m0 o) in Q. unfold ind in Q. cbn in Q. lia.
    - rewrite upd_length. apply nth_error_Some. congruence.
  Qed.
End Proofs.

(** ** after two copies at the same time, a later program reads freed memory *)
Lemma copies_free :
  exists (s0 : sst nat) (m0 : shst nat) ts sch c later,
  shared_state None s0 m0 /\ any_order None m0 ts /\ crun shared_code sch (fork s0 ts) = inl c /\ (forall t, In t (threads c) -> finished t) /\
  shexec None m0 (map seq_op (map snd (history c)) ++ later) <> None /\ srun None later (shared c) = Ub UbDangling.
Proof.
  exists (mkS [SArr (0, 0%Z) 2 0; SDead; SDead; SArr (1, 0%Z) 1 1] [SharedModel.mkC 1 false; SharedModel.mkC 1 false]
           [mkA [Some 5; Some 6] false; mkA [Some 7] false] None),
         (mkSh [Some 0; None; None; Some 1] [[Some 5; Some 6]; [Some 7]]),
         [[StDo (TCopy 1 0)]; [StDo (TCopy 2 0)]], [0; 0; 0; 0; 1; 1; 1; 1; 0; 1; 0; 1; 0; 1].
  eexists. exists [SAssign 1 3; SAssign 2 3; SGet 0 1].
  split.
  { exists 4, [SList 0 [5; 6]; SList 3 [7]], [SDone; SDone]. vm_compute. repeat split. }
  split.
  { intros l [Hl Hm].
    destruct (Hm 0 _ eq_refl) as (q0 & E0). destruct (Hm 1 _ eq_refl) as (q1 & E1). cbn [does] in E0, E1.
    assert (Hin : forall i o, In (i, o) l -> (i = 0 /\ o = TCopy 1 0) \/ (i = 1 /\ o = TCopy 2 0)).
    { intros i o I. assert (Hi := Hl _ _ I). cbn in Hi.
      assert (It : In o (of_thread i l)) by (unfold of_thread; apply in_map_iff; exists (i, o); split; [reflexivity|]; apply filter_In; split; [exact I|apply Nat.eqb_refl]).
      destruct i as [|[|i]]; [| |lia].
      - left. split; [reflexivity|]. assert (I' : In o [TCopy (V := nat) 1 0]) by (rewrite E0; apply in_or_app; left; exact It). destruct I' as [<-|[]]. reflexivity.
      - right. split; [reflexivity|]. assert (I' : In o [TCopy (V := nat) 2 0]) by (rewrite E1; apply in_or_app; left; exact It). destruct I' as [<-|[]]. reflexivity. }
    destruct l as [|[i1 o1] [|[i2 o2] [|[i3 o3] l]]].
    - discriminate.
    - destruct (Hin _ _ (or_introl eq_refl)) as [[-> ->]|[-> ->]]; vm_compute; discriminate.
    - destruct (Hin _ _ (or_introl eq_refl)) as [[-> ->]|[-> ->]]; destruct (Hin _ _ (or_intror (or_introl eq_refl))) as [[-> ->]|[-> ->]];
        try (cbn in E0, E1; discriminate); vm_compute; discriminate.
    - exfalso. destruct (Hin _ _ (or_introl eq_refl)) as [[-> ->]|[-> ->]]; destruct (Hin _ _ (or_intror (or_introl eq_refl))) as [[-> ->]|[-> ->]];
        destruct (Hin _ _ (or_intror (or_intror (or_introl eq_refl)))) as [[-> ->]|[-> ->]]; cbn in E0, E1; discriminate. }
  split; [vm_compute; reflexivity|]. split; [intros t [<-|[<-|[]]]; split; reflexivity|]. split; [vm_compute; discriminate|vm_compute; reflexivity].
Qed.
