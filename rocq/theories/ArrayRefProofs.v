(** ArrayRefProofs.v -- references to elements through the statements of ArrayModel.v. *)
From Verif Require Import Base ArrayModel ArraySpec ArrayProofs ArrayStep ArrayRefSpec.
Local Open Scope monad_scope.

Section Pres.
  Context {V : Type} (sz : Z) (dflt : V) (neq : V -> V -> bool).
  Notation St := (st V).

  (** [I] is not disturbed, whether the computation returns or throws *)
  Definition pres {A} (I : St -> Prop) (m : M St A) : Prop :=
    forall s, I s -> match m s with Ret _ s' | Exc _ s' => I s' | _ => True end.
  Lemma pres_bind {A B} I (m : M St A) (k : A -> M St B) : pres I m -> (forall x, pres I (k x)) -> pres I (bind m k).
  Proof.
    intros Hm Hk s Hs. unfold bind. pose proof (Hm s Hs) as H. destruct (m s) as [x s'| | | |]; auto. apply Hk. exact H.
  Qed.
  Lemma pres_ret {A} I (x : A) : pres I (ret x).
  Proof. intros s H. exact H. Qed.
  Lemma pres_undefined {A} I r : pres I (undefined r : M St A).
  Proof. intros s H. exact Logic.I. Qed.
  Lemma pres_for_up I body : (forall i, pres I (body i)) -> forall n i, pres I (for_up i n body).
  Proof. intros H. induction n as [|n IH]; intros i; cbn [for_up]; [apply pres_ret|]. apply pres_bind; auto. Qed.
  Lemma pres_for_down I body : (forall i, pres I (body i)) -> forall n, pres I (for_down n body).
  Proof. intros H. induction n as [|n IH]; cbn [for_down]; [apply pres_ret|]. apply pres_bind; auto. Qed.
  Lemma pres_get I a : pres I (get_var a : M St _).
  Proof. intros s H. unfold get_var. destruct (nth_error (vars s) a) as [[|]|]; auto. Qed.
  Lemma pres_fresh I a : pres I (fresh_var a : M St _).
  Proof. intros s H. unfold fresh_var. destruct (nth_error (vars s) a) as [[|]|]; auto. Qed.
  Lemma pres_block I p : pres I (block p : M St _).
  Proof. intros s H. unfold block. destruct p as [b|]; auto. destruct (nth_error (heap s) b) as [k|]; auto. destruct (b_freed k); auto. Qed.
  Lemma pres_cell I k i : pres I (cell k i : M St _).
  Proof. intros s H. unfold cell. destruct (nth_error (b_cells k) i); auto. Qed.

  (** the invariants used below: block [b] stays released, variable [a] keeps its members *)
  Record good (I : St -> Prop) : Prop := {
    g_event : forall e, pres I (event e : M St _);
    g_new : forall n, pres I (uninitialized_new sz n : M St _);
    g_delete : forall p, pres I (uninitialized_delete p : M St _);
    g_construct : forall p i v, pres I (construct p i v);
    g_store : forall p i v, pres I (store_at p i v);
    g_destroy : forall p i, pres I (destroy_at p i : M St _) }.

  Definition freed (b : nat) (s : St) : Prop := exists k, nth_error (heap s) b = Some k /\ b_freed k = true.
  Definition keeps_var (a : nat) (v : avar) (s : St) : Prop := nth_error (vars s) a = Some v.

  Lemma freed_upd b c k (s : St) vs' mm gg cc :
    freed b s -> (forall k', nth_error (heap s) c = Some k' -> b_freed k' = true -> b_freed k = true) ->
    freed b (mkSt vs' (upd c k (heap s)) mm gg cc).
  Proof.
    intros (k0 & Hk & Hf) Hc. unfold freed. cbn [heap]. destruct (Nat.eq_dec b c) as [->|Hne].
    - exists k. split; [apply nth_error_upd_eq; exact (nth_error_lt _ _ _ Hk)|eauto].
    - exists k0. rewrite nth_error_upd_neq by congruence. auto.
  Qed.
  Lemma good_freed b : good (freed b).
  Proof.
    constructor.
    - intros e s H. unfold event. destruct (cd s) as [[|]|]; exact H.
    - intros n s H. unfold uninitialized_new, bind, event.
      assert (forall s' : St, freed b s' -> freed b (mkSt (vars s') (heap s' ++ [mkBlk (bytes_for sz n) (repeat None (Z.to_nat (bytes_for sz n / sz))) false]) (made s') (gone s') (cd s'))) as Hs.
      { intros s' (k & Hk & Hf). exists k. cbn [heap]. split; [|exact Hf]. rewrite nth_error_app1 by exact (nth_error_lt _ _ _ Hk). exact Hk. }
      destruct (cd s) as [[|c]|]; [exact H|..]; destruct (2 ^ 63 <=? bytes_for sz n)%Z; try exact H; apply Hs; exact H.
    - intros p s H. unfold uninitialized_delete. destruct p as [c|]; [|exact H].
      destruct (nth_error (heap s) c) as [k|] eqn:Hk; [|exact Logic.I]. destruct (b_freed k); [exact Logic.I|].
      apply freed_upd; [exact H|reflexivity].
    - intros p i v s H. unfold construct, bind, block, cell, event, set_cell. destruct p as [c|]; [|exact Logic.I].
      destruct (nth_error (heap s) c) as [k|] eqn:Hk; [|exact Logic.I]. destruct (b_freed k) eqn:Ef; [exact Logic.I|]. cbn [fst snd].
      destruct (nth_error (b_cells k) i); [|exact Logic.I]. destruct (cd s) as [[|]|]; cbn [vars heap made gone cd]; try exact H;
        (apply (freed_upd b c _ s); [exact H|]; rewrite Hk; intros k' E Hf; injection E as <-; congruence).
    - intros p i v s H. unfold store_at, bind, block, cell, event, set_cell, undefined. destruct p as [c|]; [|exact Logic.I].
      destruct (nth_error (heap s) c) as [k|] eqn:Hk; [|exact Logic.I]. destruct (b_freed k) eqn:Ef; [exact Logic.I|]. cbn [fst snd].
      destruct (nth_error (b_cells k) i) as [[|]|]; try exact Logic.I. destruct (cd s) as [[|]|]; cbn [vars heap made gone cd]; try exact H;
        (apply (freed_upd b c _ s); [exact H|]; rewrite Hk; intros k' E Hf; injection E as <-; congruence).
    - intros p i s H. unfold destroy_at, bind, block, cell, set_cell, undefined. destruct p as [c|]; [|exact Logic.I].
      destruct (nth_error (heap s) c) as [k|] eqn:Hk; [|exact Logic.I]. destruct (b_freed k) eqn:Ef; [exact Logic.I|]. cbn [fst snd].
      destruct (nth_error (b_cells k) i) as [[|]|]; try exact Logic.I.
      apply (freed_upd b c _ s); [exact H|]; rewrite Hk; intros k' E Hf; injection E as <-; congruence.
  Qed.
  Lemma good_var a v : good (keeps_var a v).
  Proof.
    constructor.
    - intros e s H. unfold event. destruct (cd s) as [[|]|]; exact H.
    - intros n s H. unfold uninitialized_new, bind, event.
      destruct (cd s) as [[|c]|]; [exact H|..]; destruct (2 ^ 63 <=? bytes_for sz n)%Z; exact H.
    - intros p s H. unfold uninitialized_delete. destruct p as [c|]; [|exact H].
      destruct (nth_error (heap s) c) as [k|]; [|exact Logic.I]. destruct (b_freed k); [exact Logic.I|exact H].
    - intros p i x s H. unfold construct, bind, block, cell, event, set_cell. destruct p as [c|]; [|exact Logic.I].
      destruct (nth_error (heap s) c) as [k|]; [|exact Logic.I]. destruct (b_freed k); [exact Logic.I|]. cbn [fst snd].
      destruct (nth_error (b_cells k) i); [|exact Logic.I]. destruct (cd s) as [[|]|]; exact H.
    - intros p i x s H. unfold store_at, bind, block, cell, event, set_cell, undefined. destruct p as [c|]; [|exact Logic.I].
      destruct (nth_error (heap s) c) as [k|]; [|exact Logic.I]. destruct (b_freed k); [exact Logic.I|]. cbn [fst snd].
      destruct (nth_error (b_cells k) i) as [[|]|]; try exact Logic.I. destruct (cd s) as [[|]|]; exact H.
    - intros p i s H. unfold destroy_at, bind, block, cell, set_cell, undefined. destruct p as [c|]; [|exact Logic.I].
      destruct (nth_error (heap s) c) as [k|]; [|exact Logic.I]. destruct (b_freed k); [exact Logic.I|]. cbn [fst snd].
      destruct (nth_error (b_cells k) i) as [[|]|]; try exact Logic.I. exact H.
  Qed.

  Section Good.
    Context (I : St -> Prop) (G : good I).
    (** the variables a computation may change the members of *)
    Definition puts (d : nat) : Prop := forall x, pres I (put_var d x : M St _).

    Ltac pz :=
      repeat lazymatch goal with
        | |- pres _ (bind _ _) => apply pres_bind; [|intros ?]
        | |- pres _ (ret _) => apply pres_ret
        | |- pres _ (undefined _) => apply pres_undefined
        | |- pres _ (for_up _ _ _) => apply pres_for_up; intros ?
        | |- pres _ (for_down _ _) => apply pres_for_down; intros ?
        | |- pres _ (get_var _) => apply pres_get
        | |- pres _ (fresh_var _) => apply pres_fresh
        | |- pres _ (block _) => apply pres_block
        | |- pres _ (cell _ _) => apply pres_cell
        | |- pres _ (event _) => apply (g_event _ G)
        | |- pres _ (uninitialized_new _ _) => apply (g_new _ G)
        | |- pres _ (uninitialized_delete _) => apply (g_delete _ G)
        | |- pres _ (construct _ _ _) => apply (g_construct _ G)
        | |- pres _ (store_at _ _ _) => apply (g_store _ G)
        | |- pres _ (destroy_at _ _) => apply (g_destroy _ G)
        | H : puts ?d |- pres _ (put_var ?d _) => apply H
        | |- pres _ (if ?b then _ else _) => destruct b
        | |- pres _ (match ?x with _ => _ end) => destruct x
        end.
    Lemma p_load p i : pres I (load p i). Proof. unfold load. pz. Qed.
    Lemma p_elem a i : pres I (elem_ref a i). Proof. unfold elem_ref. pz. Qed.
    Lemma p_iter a i : pres I (iter a i). Proof. unfold iter. pz. Qed.
    Lemma p_arg t : pres I (bind_arg t). Proof. destruct t; cbn [bind_arg]; pz; try (apply p_elem). Qed.
    Lemma p_ref r : pres I (read_ref r). Proof. destruct r as [|[]]; cbn [read_ref]; pz; try (apply p_load). Qed.
    Lemma p_src x : pres I (bind_src x). Proof. destruct x; cbn [bind_src]; pz; apply p_iter. Qed.
    Lemma p_cursor c k : pres I (read_cursor c k). Proof. destruct c; cbn [read_cursor]; pz; try (apply p_load). Qed.
    Lemma p_destroy n p : pres I (destroy_elements n p). Proof. unfold destroy_elements. pz. Qed.
    Lemma p_ufill n p rd : (forall i, pres I (rd i)) -> pres I (uninitialized_fill n p rd).
    Proof. intros H. unfold uninitialized_fill. pz; try (apply H). Qed.
    Lemma p_fill n p rd : (forall i, pres I (rd i)) -> pres I (fill_with n p rd).
    Proof. intros H. unfold fill_with. pz; try (apply H). Qed.
    Lemma p_build d n rd : puts d -> (forall i, pres I (rd i)) -> pres I (a_build sz d n rd).
    Proof. intros Hd H. unfold a_build. pz; try (apply p_ufill; exact H). Qed.
    Lemma p_resize_to a n rd : puts a -> pres I rd -> pres I (resize_to sz a n rd).
    Proof.
      intros Ha H. unfold resize_to. pz.
      - apply p_ufill. intros i. destruct (i <? _); [apply p_load|exact H].
      - apply p_destroy.
    Qed.
    Lemma p_resize a n t : puts a -> pres I (a_resize sz dflt a n t).
    Proof. intros Ha. unfold a_resize. destruct t as [t|]; [apply pres_bind; [apply p_arg|intros r]|]; apply p_resize_to; auto; [apply p_ref|apply pres_ret]. Qed.
    Lemma p_get a i : pres I (a_get a i). Proof. unfold a_get. pz; try (apply p_elem); try (apply p_load). Qed.
    Lemma p_throw {A} e : pres I (throw e : M St A). Proof. intros s H. exact H. Qed.
    Lemma p_at_ref a i : pres I (at_ref a i). Proof. unfold at_ref. pz; try (apply p_elem); try (apply p_throw). Qed.
    Lemma p_loads p : forall n i, pres I (loads p i n).
    Proof. induction n as [|n IH]; intros i; cbn [loads]; pz; try (apply p_load); try (apply IH). Qed.
    Lemma p_eq_loop p q : forall n i, pres I (eq_loop neq p q i n).
    Proof. induction n as [|n IH]; intros i; cbn [eq_loop]; pz; try apply p_load. apply IH. Qed.
    Lemma p_eq a b : pres I (a_eq neq a b). Proof. unfold a_eq. pz; try (apply p_eq_loop). Qed.

    Lemma p_assign_tail d y p : puts d ->
      pres I (mq <- get_var y ;; put_var d (Arr (fst mq) p) ;;;
         q <- uninitialized_new sz (fst mq) ;; put_var d (Arr (fst mq) q) ;;;
         mq <- get_var y ;; uninitialized_fill (fst mq) q (read_cursor (CPtr (fun v => v) (snd mq) 0))).
    Proof. intros H. pz. apply p_ufill. intros i. apply p_cursor. Qed.
    Lemma p_realloc_tail a n p : puts a ->
      pres I (put_var a (Arr n p) ;;; q <- uninitialized_new sz n ;; put_var a (Arr n q) ;;; uninitialized_fill n q (fun _ => ret dflt)).
    Proof. intros H. pz. apply p_ufill. intros i. apply pres_ret. Qed.
    Lemma p_fill_tail a c : pres I (np <- get_var a ;; fill_with (fst np) (snd np) (read_cursor c)).
    Proof. pz. apply p_fill. intros i. apply p_cursor. Qed.
    (** the variables whose members a statement may change *)
    Definition targets (o : op V) : list nat :=
      match o with
      | OpDefault d | OpSize d _ | OpUninit d _ | OpValue d _ _ | OpFrom d _ | OpGen d _ _ | OpCopy d _ _ => [d]
      | OpMove d s | OpMoveAssign d s | OpSwap d s => [d; s]
      | OpDestroy a | OpResize a _ _ | OpReallocate a _ | OpAssignRange a _ => [a]
      | OpAssign d _ => [d]
      | _ => []
      end.
    Lemma p_done (m : M St unit) : pres I m -> pres I (done m).
    Proof. intros H. unfold done. pz. exact H. Qed.
    Lemma p_exec o : Forall puts (targets o) -> pres I (exec_op sz dflt neq o).
    Proof.
      intros HT.
      destruct o; cbn [exec_op targets] in *;
        repeat match goal with H : Forall _ (_ :: _) |- _ => inversion H; clear H; subst end.
      all: try (apply p_done).
      - unfold a_default. pz.
      - unfold a_size. pz; try (apply p_build; auto; intros i; apply pres_ret).
      - unfold a_uninit. pz.
      - unfold a_value. pz; [apply p_arg|]. apply p_build; auto. intros i. apply p_ref.
      - unfold a_from. pz; [apply p_src|]. apply p_build; auto. intros i. apply p_cursor.
      - unfold a_gen. pz; try (apply p_build; auto; intros i; apply pres_ret).
      - unfold a_copy. pz; try (apply p_build; auto; intros i; apply p_cursor).
      - unfold a_move. pz.
      - unfold a_destroy. pz; try (apply p_destroy).
      - unfold a_assign. pz; try (apply p_fill; intros i; apply p_cursor); try (apply p_destroy); try (apply p_ufill; intros i; apply p_cursor).
      - unfold a_move_assign. pz.
      - unfold a_swap. pz.
      - apply p_resize. assumption.
      - unfold a_reallocate. pz; try (apply p_destroy); try (apply p_ufill; intros i; apply pres_ret).
      - unfold a_fill. pz; try (apply p_arg); try (apply p_fill; intros i; apply p_ref).
      - unfold a_fill_from. pz; try (apply p_src); try (apply p_fill; intros i; apply p_cursor).
      - unfold a_assign_range. pz; try (apply p_src); try (apply p_resize; assumption); try (apply p_fill; intros i; apply p_cursor).
      - unfold a_set. pz; try (apply p_arg); try (apply p_elem); try (apply p_ref).
      - unfold a_set_at. pz; try (apply p_arg); try (apply p_at_ref); try (apply p_ref).
      - unfold a_place. pz; try (apply p_arg); try (apply p_elem); try (apply p_ref).
      - pz; try (apply p_get).
      - unfold a_at. pz; try (apply p_at_ref); try (apply p_load).
      - unfold a_front. pz; try (apply p_get).
      - unfold a_back. apply pres_bind; [apply pres_bind; [apply pres_get|intros np; apply p_get]|intros v; apply pres_ret].
      - unfold a_list. pz; try (apply p_loads).
      - pz; try (apply p_eq).
      - unfold a_ne. pz; try (apply p_eq).
      - unfold a_len. pz.
      - unfold a_empty. pz.
    Qed.
  End Good.

  Lemma puts_freed b d : puts (freed b) d.
  Proof. intros x s H. exact H. Qed.
  Lemma puts_var a v d : d <> a -> puts (keeps_var a v) d.
  Proof. intros Hd x s H. unfold put_var, keeps_var in *. cbn [vars]. rewrite nth_error_upd_neq by exact Hd. exact H. Qed.
  Lemma exec_freed b o : pres (freed b) (exec_op sz dflt neq o).
  Proof. apply p_exec; [apply good_freed|]. apply Forall_forall. intros d _. apply puts_freed. Qed.
  Lemma exec_var a v o : ~ In a (targets o) -> pres (keeps_var a v) (exec_op sz dflt neq o).
  Proof. intros H. apply p_exec; [apply good_var|]. apply Forall_forall. intros d Hd. apply puts_var. intros ->. auto. Qed.
  Lemma run_freed b : forall p (s : St), freed b s -> match run sz dflt neq p s with Ret _ s' => freed b s' | _ => True end.
  Proof.
    induction p as [|[o f] p IH]; intros s H; cbn [run]; [exact H|].
    pose proof (exec_freed b o (mkSt (vars s) (heap s) (made s) (gone s) f) H) as Ho.
    destruct (exec_op sz dflt neq o _) as [x s'|e s'| | |]; auto; specialize (IH s' Ho); unfold bind, ret;
      destruct (run sz dflt neq p s'); auto.
  Qed.
End Pres.

Lemma f2_len {A B} (R : A -> B -> Prop) l l' : Forall2 R l l' -> length l = length l'.
Proof. induction 1 as [|x y l l' _ _ IH]; [reflexivity|]. cbn [length]. rewrite IH. reflexivity. Qed.

Section Fate.
  Context {V : Type} (sz : Z) (dflt : V) (neq : V -> V -> bool) (eq_dec : forall x y : V, {x = y} + {x <> y}).
  Hypothesis sz_pos : (0 < sz)%Z.
  Hypothesis neq_spec : forall x y, neq x y = true <-> x <> y.
  Notation St := (st V).
  Notation Rep := (Rep sz).

  Lemma freed_release n b (h : list (blk V)) vs mm gg cc : b < length h -> freed b (mkSt vs (release n (Some b) h) mm gg cc).
  Proof.
    intros H. unfold freed, release. cbn [heap]. destruct (nth_error h b) as [k|] eqn:E; [|apply nth_error_None in E; lia].
    eexists. split; [apply nth_error_upd_eq; exact H|reflexivity].
  Qed.
  Lemma free_other m (s : St) d a n p : Rep m s -> is_free m d = true -> nth_error (vars s) a = Some (Arr n p) -> d <> a.
  Proof. intros HR Hf Ha ->. destruct (rep_free _ _ _ _ HR Hf) as (_ & H). congruence. Qed.
  Lemma build_free (m : vst V) d vs f r : s_build sz m d vs f = Some r -> is_free m d = true.
  Proof. unfold s_build. destruct (is_free m d); [reflexivity|discriminate]. Qed.

  Definition after_fate (b n : nat) (x : fate) (s' : St) : Prop :=
    match x with
    | InArray a' => nth_error (vars s') a' = Some (Arr n (Some b))
    | Released => freed b s'
    | MovedOver => True
    end.
  Definition ends (r : res St (out V)) (P : St -> Prop) : Prop := match r with Ret _ s' | Exc _ s' => P s' | _ => True end.
  Lemma ends_pres {A} I (m : M St A) (k : A -> M St (out V)) s : pres I m -> (forall x, pres I (k x)) -> I s -> ends (bind m k s) I.
  Proof. intros H Hk Hs. exact (pres_bind I m k H Hk s Hs). Qed.
  Lemma ends_done I (m : M St unit) s : pres I m -> I s -> ends (done m s) I.
  Proof. intros H Hs. apply ends_pres; auto. intros x. apply pres_ret. Qed.

  Lemma other_fate o (s : St) a n b : ~ In a (targets o) -> nth_error (vars s) a = Some (Arr n (Some b)) ->
    ends (exec_op sz dflt neq o s) (after_fate b n (InArray a)).
  Proof. intros Hn Ha. exact (exec_var sz dflt neq a _ o Hn s Ha). Qed.

  Lemma rep_len m (s : St) a n p : Rep m s -> nth_error (vars s) a = Some (Arr n p) -> len m a = n.
  Proof.
    intros HR Ha. unfold len, lookup. destruct (nth_error (store m) a) as [x|] eqn:Hx.
    - destruct (Forall2_nth _ _ _ _ _ (r_slots _ _ _ HR) Hx) as (y & Hy & Hok). rewrite Ha in Hy. injection Hy as <-.
      destruct x as [|own l]; [contradiction|]. destruct Hok as (-> & _). reflexivity.
    - apply nth_error_None in Hx. pose proof (f2_len _ _ _ (r_slots _ _ _ HR)) as E. apply nth_error_lt in Ha. rewrite E in Hx. lia.
  Qed.

  Theorem fate_step m (s : St) o x m' a n b :
    Rep m s -> sstep sz dflt eq_dec m o (cd s) = Some (x, m') -> nth_error (vars s) a = Some (Arr n (Some b)) ->
    ends (exec_op sz dflt neq o s) (after_fate b n (fate1 sz m o (cd s) a)).
  Proof.
    intros HR H Ha.
    destruct o; cbn [fate1]; try solve [apply other_fate; [intros []|exact Ha]].
    - cbn [sstep] in H. destruct (is_free m d) eqn:Hf; [|discriminate]. apply other_fate; [|exact Ha].
      intros [E|[]]. exact (free_other _ _ _ _ _ _ HR Hf Ha E).
    - cbn [sstep] in H. apply build_free in H as Hf. apply other_fate; [|exact Ha].
      intros [E|[]]. exact (free_other _ _ _ _ _ _ HR Hf Ha E).
    - cbn [sstep] in H. destruct (is_free m d) eqn:Hf; [|discriminate]. apply other_fate; [|exact Ha].
      intros [E|[]]. exact (free_other _ _ _ _ _ _ HR Hf Ha E).
    - cbn [sstep] in H. destruct (arg_val m t); [|discriminate]. apply build_free in H as Hf. apply other_fate; [|exact Ha].
      intros [E|[]]. exact (free_other _ _ _ _ _ _ HR Hf Ha E).
    - cbn [sstep] in H. assert (is_free m d = true) as Hf.
      { destruct (is_free m d && reversed m x0) eqn:E; [apply andb_true_iff in E; tauto|].
        destruct (src_val m x0); [|discriminate]. apply build_free in H. exact H. }
      apply other_fate; [|exact Ha]. intros [E|[]]. exact (free_other _ _ _ _ _ _ HR Hf Ha E).
    - cbn [sstep] in H. apply build_free in H as Hf. apply other_fate; [|exact Ha].
      intros [E|[]]. exact (free_other _ _ _ _ _ _ HR Hf Ha E).
    - cbn [sstep] in H. destruct (seq_of m s0) as [[own l]|]; [|discriminate]. apply build_free in H as Hf. apply other_fate; [|exact Ha].
      intros [E|[]]. exact (free_other _ _ _ _ _ _ HR Hf Ha E).
    - (* move *)
      cbn [sstep] in H. destruct (lookup m s0) as [[own l]|] eqn:Hl; [|discriminate]. destruct (is_free m d) eqn:Hf; [|discriminate].
      pose proof (free_other _ _ _ _ _ _ HR Hf Ha) as Hda.
      destruct (Nat.eqb_spec a s0) as [<-|Hne]; [|apply other_fate; [intros [E|[E|[]]]; congruence|exact Ha]].
      cbn [exec_op]. unfold a_move, done, bind. rewrite (fresh_ok _ _ (proj2 (rep_free _ _ _ _ HR Hf))), (get_ok _ _ _ _ Ha).
      unfold put_var. cbn [vars heap made gone cd fst snd ends ret after_fate]. apply nth_error_upd_eq. rewrite upd_length.
      exact (nth_error_lt _ _ _ (proj2 (rep_free _ _ _ _ HR Hf))).
    - (* destroy *)
      destruct (Nat.eqb_spec a a0) as [<-|Hne]; cbn [released_if]; [|apply other_fate; [intros [E|[]]; congruence|exact Ha]].
      cbn [sstep] in H. destruct (seq_of m a) as [[own l]|] eqn:Hs; [|discriminate].
      destruct (rep_seq _ _ _ _ _ _ HR Hs) as (_ & p & _ & Hv & Hp). rewrite Ha in Hv. injection Hv as -> <-.
      cbn [exec_op]. unfold a_destroy, done, bind at 1 2. rewrite (get_ok _ _ _ _ Ha). cbn [fst snd].
      rewrite (destroy_release l _ _ s _ eq_refl (ptr_pointee sz _ _ _ _ Hp)). unfold put_var. cbn [ends ret after_fate vars heap made gone cd].
      apply freed_release. unfold ptr_ok in Hp. destruct own; [|destruct Hp; discriminate]. destruct Hp as (_ & b' & E & Hb).
      injection E as <-. exact (nth_error_lt _ _ _ Hb).
    - (* assignment *)
      destruct (Nat.eqb_spec a d) as [<-|Hne]; cbn [andb released_if]; [|apply other_fate; [intros [E|[]]; congruence|exact Ha]].
      cbn [sstep] in H. destruct (seq_of m a) as [[own l]|] eqn:Hd; [|discriminate].
      destruct (seq_of m s0) as [[own' vs]|] eqn:Hs; [|discriminate].
      destruct (rep_seq _ _ _ _ _ _ HR Hd) as (_ & p & _ & Hv & Hp). destruct (rep_seq _ _ _ _ _ _ HR Hs) as (_ & q & _ & Hv' & Hp').
      rewrite (rep_len _ _ _ _ _ HR Ha), (rep_len _ _ _ _ _ HR Hv'). rewrite Ha in Hv. injection Hv as -> <-.
      cbn [exec_op]. unfold a_assign, done, bind at 1 2 3. rewrite (get_ok _ _ _ _ Ha), (get_ok _ _ _ _ Hv'). cbn [fst snd].
      rewrite (Nat.eqb_sym (length vs)). destruct (length l =? length vs); cbn [negb released_if].
      + match goal with |- ends (match ?k ?s1 with _ => _ end) _ => change (ends (done k s1) (keeps_var a (Arr (length l) (Some b)))) end.
        apply (ends_done (keeps_var a (Arr (length l) (Some b)))); [|exact Ha].
        apply p_fill with (sz := sz); [apply good_var|]. intros i. apply p_cursor.
      + rewrite (destroy_release l _ _ s _ eq_refl (ptr_pointee sz _ _ _ _ Hp)).
        match goal with |- ends (match ?k ?s1 with _ => _ end) _ => change (ends (done k s1) (freed b)) end.
        apply ends_done; [apply p_assign_tail; [apply good_freed|apply puts_freed]|].
        apply freed_release. unfold ptr_ok in Hp. destruct own; [|destruct Hp; discriminate]. destruct Hp as (_ & b' & E & Hb).
        injection E as <-. exact (nth_error_lt _ _ _ Hb).
    - (* move assignment *)
      cbn [sstep] in H. destruct (lookup m d) as [[own l]|] eqn:Hd; [|discriminate]. destruct (lookup m s0) as [[own' l']|] eqn:Hs; [|discriminate].
      destruct (rep_lookup _ _ _ _ _ _ HR Hd) as (p & _ & Hv & _). destruct (rep_lookup _ _ _ _ _ _ HR Hs) as (q & _ & Hv' & _).
      cbn [exec_op]. unfold a_move_assign, done, bind. rewrite (get_ok _ _ _ _ Hv), (get_ok _ _ _ _ Hv'). cbn [fst snd].
      destruct (Nat.eqb_spec d s0) as [->|Hds]; [exact Ha|]. unfold put_var. cbn [vars heap made gone cd ends ret].
      destruct (Nat.eqb_spec a s0) as [->|Has].
      + cbn [after_fate vars]. rewrite nth_error_upd_neq by congruence. rewrite nth_error_upd_eq by exact (nth_error_lt _ _ _ Hv). congruence.
      + destruct (Nat.eqb_spec a d) as [->|Had]; [exact I|]. cbn [after_fate vars]. rewrite !nth_error_upd_neq by congruence. exact Ha.
    - (* swap *)
      cbn [sstep] in H. destruct (lookup m a0) as [[own l]|] eqn:Hd; [|discriminate]. destruct (lookup m b0) as [[own' l']|] eqn:Hs; [|discriminate].
      destruct (rep_lookup _ _ _ _ _ _ HR Hd) as (p & _ & Hv & _). destruct (rep_lookup _ _ _ _ _ _ HR Hs) as (q & _ & Hv' & _).
      cbn [exec_op]. unfold a_swap, done, bind. rewrite (get_ok _ _ _ _ Hv), (get_ok _ _ _ _ Hv'). cbn [fst snd].
      unfold put_var. cbn [vars heap made gone cd ends ret after_fate].
      destruct (Nat.eqb_spec a a0) as [->|Ha0].
      + rewrite nth_error_upd_eq by (rewrite upd_length; exact (nth_error_lt _ _ _ Hv')). congruence.
      + destruct (Nat.eqb_spec a b0) as [->|Hb0].
        * rewrite nth_error_upd_neq by congruence. rewrite nth_error_upd_eq by exact (nth_error_lt _ _ _ Hv). congruence.
        * rewrite !nth_error_upd_neq by congruence. exact Ha.
    - (* resize *)
      destruct (Nat.eqb_spec a a0) as [<-|Hne]; cbn [andb released_if]; [|apply other_fate; [intros [E|[]]; congruence|exact Ha]].
      cbn [sstep] in H. destruct (seq_of m a) as [[own l]|] eqn:Hs; [|discriminate].
      destruct (rep_seq _ _ _ _ _ _ HR Hs) as (_ & p & _ & Hv & Hp). rewrite (rep_len _ _ _ _ _ HR Ha).
      rewrite Ha in Hv. injection Hv as -> <-.
      assert (b < length (heap s)) as Hb.
      { unfold ptr_ok in Hp. destruct own; [|destruct Hp; discriminate]. destruct Hp as (_ & b' & E & Hb). injection E as <-. exact (nth_error_lt _ _ _ Hb). }
      assert (forall rd v, s_resize sz m a n0 l v (cd s) = Some (x, m') ->
        (forall s' : St, vars s' = vars s -> (forall b, b < length (heap s) -> nth_error (heap s') b = nth_error (heap s) b) -> rd s' = Ret v s') ->
        ends (done (resize_to sz a n0 rd) s) (after_fate b (length l) (released_if (negb (n0 =? length l) && creates sz n0 (cd s)) a))) as Hgo.
      { intros rd v Hr Hrd. destruct (Nat.eqb_spec n0 (length l)) as [->|Hn]; cbn [negb andb released_if].
        - unfold done, resize_to, bind. rewrite (get_ok _ _ _ _ Ha). cbn [fst]. rewrite Nat.eqb_refl. exact Ha.
        - unfold s_resize in Hr. apply Nat.eqb_neq in Hn as Hn'. rewrite Hn' in Hr. destruct (sane sz n0) eqn:Hsn; [|discriminate].
          unfold done, bind at 1. rewrite (resize_exact sz sz_pos a n0 l (Some b) rd v s Ha (ptr_pointee sz _ _ _ _ Hp) Hn Hsn Hrd).
          unfold creates. destruct (try_new sz n0 (cd s)); cbn [ends ret released_if after_fate vars]; try exact Ha.
          apply freed_release. rewrite app_length. lia. }
      cbn [exec_op]. destruct t as [t|]; cbn [a_resize].
      + destruct (arg_val m t) as [v|] eqn:Ht; [|discriminate].
        destruct (bind_arg_ok _ _ _ _ _ HR Ht) as (r & Hr & Hok). unfold done, bind at 1 2. rewrite Hr.
        apply (Hgo (read_ref r) v H). intros s' _ Hfr. apply read_ref_ok. eapply ref_ok_old; eassumption.
      + apply (Hgo (ret dflt) dflt H). reflexivity.
    - (* reallocate *)
      destruct (Nat.eqb_spec a a0) as [<-|Hne]; cbn [andb released_if]; [|apply other_fate; [intros [E|[]]; congruence|exact Ha]].
      cbn [sstep] in H. destruct (seq_of m a) as [[own l]|] eqn:Hs; [|discriminate].
      destruct (rep_seq _ _ _ _ _ _ HR Hs) as (_ & p & _ & Hv & Hp). rewrite (rep_len _ _ _ _ _ HR Ha).
      rewrite Ha in Hv. injection Hv as -> <-.
      cbn [exec_op]. unfold a_reallocate, done, bind at 1 2. rewrite (get_ok _ _ _ _ Ha). cbn [fst snd]. rewrite (Nat.eqb_sym n0).
      destruct (length l =? n0); cbn [negb released_if]; [exact Ha|].
      rewrite (destroy_release l _ _ s _ eq_refl (ptr_pointee sz _ _ _ _ Hp)).
      match goal with |- ends (match ?k ?s1 with _ => _ end) _ => change (ends (done k s1) (freed b)) end.
      apply ends_done; [apply p_realloc_tail; [apply good_freed|apply puts_freed]|].
      apply freed_release. unfold ptr_ok in Hp. destruct own; [|destruct Hp; discriminate]. destruct Hp as (_ & b' & E & Hb).
      injection E as <-. exact (nth_error_lt _ _ _ Hb).
    - (* assign *)
      destruct (Nat.eq_dec a a0) as [<-|Hne].
      2:{ apply Nat.eqb_neq in Hne as He. rewrite He. cbn [andb]. destruct (src_val m x0); cbn [released_if]; (apply other_fate; [|exact Ha]);
          intros [E|[]]; apply Hne; symmetry; exact E. }
      rewrite Nat.eqb_refl. cbn [andb].
      cbn [sstep] in H. destruct (seq_of m a) as [[own l]|] eqn:Hs; [|discriminate].
      destruct (rep_seq _ _ _ _ _ _ HR Hs) as (_ & p & _ & Hv & Hp). rewrite (rep_len _ _ _ _ _ HR Ha).
      rewrite Ha in Hv. injection Hv as -> <-.
      assert (b < length (heap s)) as Hb.
      { unfold ptr_ok in Hp. destruct own; [|destruct Hp; discriminate]. destruct Hp as (_ & b' & E & Hb). injection E as <-. exact (nth_error_lt _ _ _ Hb). }
      cbn [exec_op]. unfold a_assign_range, done, bind at 1 2. cbn [a_resize].
      destruct (reversed m x0) eqn:Hr.
      { destruct (bind_src_reversed sz sz_pos _ _ _ HR Hr) as (c & k & Hbs & Hn' & Hk). rewrite Hbs. cbn [fst snd].
        assert (src_val m x0 = None) as ->.
        { destruct x0 as [|f a' i j]; [discriminate|]. cbn [reversed src_val] in *. destruct (lookup m a') as [[own' l']|]; [|reflexivity].
          apply andb_true_iff in Hr as (Hji & _). apply Nat.ltb_lt in Hji. destruct (Nat.leb_spec i j); [lia|reflexivity]. }
        unfold bind, resize_to, bind. rewrite (get_ok _ _ _ _ Ha). cbn [fst snd].
        destruct (Nat.eqb_spec (length l) k) as [E|_]; [|rewrite Hk; exact Ha].
        exfalso. refine (Hn' (length l) _ E). rewrite <- (map_length Some). eapply ptr_ok_fits; exact Hp. }
      destruct (src_val m x0) as [vs|] eqn:Hy; [|discriminate].
      destruct (bind_src_ok sz sz_pos _ _ _ _ HR Hy) as (c & Hbs & _). rewrite Hbs. cbn [fst snd].
      destruct (Nat.eqb_spec (length vs) (length l)) as [E|Hn]; cbn [negb andb released_if].
      + unfold bind at 1, resize_to, bind at 1. rewrite (get_ok _ _ _ _ Ha). cbn [fst]. rewrite E, Nat.eqb_refl. unfold ret at 1.
        match goal with |- ends (match ?k ?s1 with _ => _ end) _ => change (ends (done k s1) (keeps_var a (Arr (length l) (Some b)))) end.
        apply ends_done; [|exact Ha]. apply p_fill_tail with (sz := sz). apply good_var.
      + destruct (inside a x0 && negb (length vs =? 0)); [discriminate|].
        assert (sane sz (length vs) = true) as Hsn.
        { apply Nat.eqb_neq in Hn as Hn'. unfold s_resize in H. rewrite Hn' in H. destruct (sane sz (length vs)); [reflexivity|discriminate]. }
        unfold bind at 1. rewrite (resize_exact sz sz_pos a (length vs) l (Some b) (ret dflt) dflt s Ha (ptr_pointee sz _ _ _ _ Hp) Hn Hsn).
        2:{ reflexivity. }
        unfold creates. destruct (try_new sz (length vs) (cd s)); cbn [released_if]; try exact Ha.
        match goal with |- ends (match ?k ?s1 with _ => _ end) _ => change (ends (done k s1) (freed b)) end.
        apply ends_done; [apply p_fill_tail with (sz := sz); apply good_freed|].
        apply freed_release. rewrite app_length. lia.
  Qed.

  (** a reference to element [i] of the array with storage [b] *)
  Lemma freed_load b i (s : St) : freed b s -> load (Some b) i s = Ub UbDangling.
  Proof. intros (k & Hk & Hf). unfold load, bind, block. rewrite Hk, Hf. reflexivity. Qed.

  Theorem run_fate : forall p m (s : St) l m' a n b,
    Rep m s -> sexec sz dflt eq_dec m p = Some (l, m') -> nth_error (vars s) a = Some (Arr n (Some b)) ->
    exists s', run sz dflt neq p s = Ret l s' /\ Rep m' s' /\ after_fate b n (fate_of sz dflt eq_dec m p a) s'.
  Proof.
    induction p as [|[o f] p IH]; intros m s l m' a n b HR H Ha.
    - injection H as <- <-. exists s. split; [reflexivity|]. split; [exact HR|exact Ha].
    - cbn [sexec] in H. destruct (sstep sz dflt eq_dec m o f) as [[x m1]|] eqn:Hs; [|discriminate].
      destruct (sexec sz dflt eq_dec m1 p) as [[l1 m2]|] eqn:He; [|discriminate]. injection H as <- <-.
      pose proof (step_ok sz dflt neq eq_dec sz_pos neq_spec m (with_failure f s) o x m1 (rep_failure _ _ _ f HR) Hs) as Hok.
      pose proof (fate_step m (with_failure f s) o x m1 a n b (rep_failure _ _ _ f HR) Hs Ha) as Hfate.
      cbn [run fate_of]. unfold with_failure in Hok, Hfate. cbn [cd] in Hfate.
      assert (forall y s1, Rep m1 s1 -> after_fate b n (fate1 sz m o f a) s1 ->
        exists s', (l <- run sz dflt neq p ;; ret (y :: l)) s1 = Ret (y :: l1) s' /\ Rep m2 s' /\
          after_fate b n (match fate1 sz m o f a, sstep sz dflt eq_dec m o f with
                          | InArray a', Some (_, m') => fate_of sz dflt eq_dec m' p a' | x, _ => x end) s') as Hrest.
      { intros y s1 HR1 Hf1. rewrite Hs. destruct (fate1 sz m o f a) as [a'| |].
        - destruct (IH _ _ _ _ _ _ _ HR1 He Hf1) as (s' & Hrun & HR' & Hf'). exists s'. unfold bind. rewrite Hrun. auto.
        - destruct (run_ok sz dflt neq eq_dec sz_pos neq_spec p _ _ _ _ HR1 He) as (s' & Hrun & HR').
          pose proof (run_freed sz dflt neq b p s1 Hf1) as Hf'. rewrite Hrun in Hf'. exists s'. unfold bind. rewrite Hrun. auto.
        - destruct (run_ok sz dflt neq eq_dec sz_pos neq_spec p _ _ _ _ HR1 He) as (s' & Hrun & HR'). exists s'. unfold bind. rewrite Hrun.
          split; [reflexivity|]. split; [exact HR'|exact I]. }
      destruct (exec_op sz dflt neq o _) as [y s1|e s1| | |]; cbn [okres ends] in Hok, Hfate; try contradiction; destruct Hok as (-> & HR1);
        exact (Hrest _ s1 HR1 Hfate).
  Qed.

  Theorem reference_fate n p1 l1 m1 p2 l2 m2 a i own l :
    sexec sz dflt eq_dec (vinit n) p1 = Some (l1, m1) -> sexec sz dflt eq_dec m1 p2 = Some (l2, m2) ->
    lookup m1 a = Some (own, l) -> i < length l ->
    exists s1 r s2,
      run sz dflt neq p1 (init n) = Ret l1 s1 /\ elem_ref a i s1 = Ret r s1 /\ run sz dflt neq p2 s1 = Ret l2 s2 /\
      match fate_of sz dflt eq_dec m1 p2 a with
      | InArray a' => elem_ref a' i s2 = Ret r s2 /\
          exists own' l' c, lookup m2 a' = Some (own', l') /\ length l' = length l /\ nth_error l' i = Some c /\
            load (fst r) (snd r) s2 = match c with Some v => Ret v s2 | None => Ub UbUninit end
      | Released => load (fst r) (snd r) s2 = Ub UbDangling
      | MovedOver => True
      end.
  Proof.
    intros H1 H2 Hl Hi.
    destruct (run_ok sz dflt neq eq_dec sz_pos neq_spec p1 _ _ _ _ (rep_init sz n) H1) as (s1 & Hr1 & HR1).
    destruct (nth_error l i) as [c|] eqn:Hc; [|apply nth_error_None in Hc; lia].
    destruct (elem_ok sz _ _ _ _ _ _ _ HR1 Hl Hc) as (b & _ & Hv & _ & _ & _ & He).
    destruct (run_fate p2 _ _ _ _ _ _ _ HR1 H2 Hv) as (s2 & Hr2 & HR2 & Hf).
    exists s1, (Some b, i), s2. split; [exact Hr1|]. split; [exact He|]. split; [exact Hr2|]. cbn [fst snd].
    destruct (fate_of sz dflt eq_dec m1 p2 a) as [a'| |]; cbn [after_fate] in Hf; [|apply freed_load; exact Hf|exact I].
    destruct (nth_error (store m2) a') as [x|] eqn:Hx.
    2:{ apply nth_error_None in Hx. pose proof (f2_len _ _ _ (r_slots _ _ _ HR2)) as E. apply nth_error_lt in Hf. rewrite E in Hx. lia. }
    destruct (Forall2_nth _ _ _ _ _ (r_slots _ _ _ HR2) Hx) as (y & Hy & Hok). rewrite Hf in Hy. injection Hy as <-.
    destruct x as [|own' l']; [contradiction|]. destruct Hok as (Hlen & Hp).
    assert (lookup m2 a' = Some (own', l')) as Hl' by (unfold lookup; rewrite Hx; reflexivity).
    destruct (nth_error l' i) as [c'|] eqn:Hc'; [|apply nth_error_None in Hc'; lia].
    destruct (elem_ok sz _ _ _ _ _ _ _ HR2 Hl' Hc') as (b' & _ & Hv' & Hb' & _ & _ & He'). rewrite Hf in Hv'. injection Hv' as _ <-.
    split; [exact He'|]. exists own', l', c'. split; [exact Hl'|]. split; [symmetry; exact Hlen|]. split; [exact Hc'|].
    unfold load, bind, block, cell. rewrite Hb'. cbn [b_freed nblk snd b_cells]. rewrite Hc'. destruct c'; reflexivity.
  Qed.
End Fate.
