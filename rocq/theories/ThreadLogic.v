(** ThreadLogic.v -- a program logic for the actions of one thread among others. *)
From Verif Require Import Base HandleModel HandleSpec HandleProofs ThreadModel ThreadSpec.

Definition cnt (a : nat) (l : list nat) : nat := count_occ Nat.eq_dec l a.
Arguments cnt : simpl never.
Lemma cnt_cons a b l : cnt a (b :: l) = one a (Ptr b) + cnt a l.
Proof. unfold cnt, one. simpl. destruct (Nat.eq_dec b a) as [Hn|Hn], (slot_eq_dec (Ptr b) (Ptr a)) as [He|He]; try congruence; reflexivity. Qed.
Lemma cnt_in a l : In a l <-> 0 < cnt a l.
Proof. unfold cnt. apply count_occ_In. Qed.
Lemma one_ptr a sl : 0 < one a sl -> sl = Ptr a.
Proof. unfold one. destruct (slot_eq_dec sl (Ptr a)); [auto|lia]. Qed.

Section Logic.
  Context {V Ty : Type} (clone : V -> V) (dyn : V -> Ty)
          (subobjs : Ty -> Ty -> list nat) (wrapper : Ty -> Ty) (inner : Ty -> nat).
  Notation hst := (hst V).
  Notation cell := (cell V).
  Notation hop := (hop V Ty).
  Notation out := (out V).
  Notation cmd := (cmd V).
  Notation act := (act V).
  Notation c_hop := (c_hop clone dyn subobjs wrapper inner).
  Context (owner : nat -> option nat) (n0 : nat) (val0 : nat -> option V) (vars0 : list slot).

  (** ** What a thread knows: the variables it may read, the references it owns in temporaries, the object it is about to destroy,
      the objects it has created, its schedule *)
  Record lst := mkL { lv : list slot; ltmp : list nat; lkill : option nat; lobj : nat -> option V; lsc : list bool }.
  Definition lval (L : lst) (a : nat) : option V := if a <? n0 then val0 a else lobj L a.

  Section OneThread.
    Context (i : nat).
    Notation mine := (mine owner i).
    Notation visible := (visible owner i).
    Definition holds (L : lst) (a : nat) : Prop :=
      In a (ltmp L) \/ exists h, visible h /\ nth_error (lv L) h = Some (Ptr a).
    Definition wpa {B} (a : act B) : lst -> (B -> lst -> Prop) -> (exn -> lst -> Prop) -> Prop :=
      match a in ThreadModel.act _ B return lst -> (B -> lst -> Prop) -> (exn -> lst -> Prop) -> Prop with
      | ALoad h => fun L Q E => visible h /\ exists sl, nth_error (lv L) h = Some sl /\ sl <> Dead /\ Q sl L
      | AFresh d => fun L Q E => mine d /\ nth_error (lv L) d = Some Dead /\ Q tt L
      | AStore h sl => fun L Q E => mine h /\ exists old T, nth_error (lv L) h = Some old /\
          (forall a, one a old + cnt a (ltmp L) = one a sl + cnt a T) /\
          Q tt (mkL (upd h sl (lv L)) T (lkill L) (lobj L) (lsc L))
      | AInc a => fun L Q E => holds L a /\ Q tt (mkL (lv L) (a :: ltmp L) (lkill L) (lobj L) (lsc L))
      | ADec a => fun L Q E => lkill L = None /\ exists T, ltmp L = a :: T /\
          Q false (mkL (lv L) T None (lobj L) (lsc L)) /\ Q true (mkL (lv L) T (Some a) (lobj L) (lsc L))
      | AKill a => fun L Q E => lkill L = Some a /\ Q tt (mkL (lv L) (ltmp L) None (lobj L) (lsc L))
      | AAlloc v => fun L Q E =>
          (hd false (lsc L) = true -> E EBadAlloc (mkL (lv L) (ltmp L) (lkill L) (lobj L) (tl (lsc L)))) /\
          (hd false (lsc L) = false -> forall b, n0 <= b -> lobj L b = None ->
             Q b (mkL (lv L) (b :: ltmp L) (lkill L) (set_var (lobj L) b (Some v)) (tl (lsc L))))
      | AGet a => fun L Q E => holds L a /\ exists v, lval L a = Some v /\ Q v L
      | ASet a f => fun L Q E => holds L a /\ n0 <= a /\ exists v, lobj L a = Some v /\
          Q tt (mkL (lv L) (ltmp L) (lkill L) (set_var (lobj L) a (Some (f v))) (lsc L))
      end.
    Lemma wpa_mono {B} (a : act B) L (Q Q' : B -> lst -> Prop) (E E' : exn -> lst -> Prop) :
      (forall x L', Q x L' -> Q' x L') -> (forall e L', E e L' -> E' e L') -> wpa a L Q E -> wpa a L Q' E'.
    Proof.
      intros HQ HE. destruct a; simpl; intros H.
      - destruct H as (H1 & sl & H2 & H3 & H4). eauto 8.
      - destruct H as (H1 & H2 & H3). eauto.
      - destruct H as (H1 & old & T & H2 & H3 & H4). split; [exact H1|]. exists old, T. auto.
      - destruct H as (H1 & H2). eauto.
      - destruct H as (H1 & T & H2 & H3 & H4). split; [exact H1|]. exists T. auto.
      - destruct H as (H1 & H2). eauto.
      - destruct H as (H1 & H2). split; intros; auto.
      - destruct H as (H1 & v & H2 & H3). eauto.
      - destruct H as (H1 & H2 & v & H3 & H4). eauto 8.
    Qed.
    Fixpoint wp {A} (c : cmd A) (Q : A + exn -> lst -> Prop) (L : lst) : Prop :=
      match c with
      | CRet x => Q (inl x) L
      | CExc e => Q (inr e) L
      | CUb _ => False
      | CAct a k => wpa a L (fun x => wp (k x) Q) (fun e => Q (inr e))
      end.
    Lemma wp_bind {A B} (c : cmd A) (k : A -> cmd B) Q L :
      wp c (fun r L' => match r with inl x => wp (k x) Q L' | inr e => Q (inr e) L' end) L -> wp (cbind c k) Q L.
    Proof.
      revert L. induction c as [x|e|r|C a k' IH]; intros L H; simpl in *; auto.
      eapply wpa_mono; [| |exact H]; auto.
    Qed.
    Lemma wp_mono {A} (c : cmd A) (Q Q' : A + exn -> lst -> Prop) L : (forall r L', Q r L' -> Q' r L') -> wp c Q L -> wp c Q' L.
    Proof.
      intros HQ. revert L. induction c as [x|e|r|C a k' IH]; intros L H; simpl in *; auto.
      eapply wpa_mono; [| |exact H]; auto.
    Qed.
  End OneThread.

  (** ** All threads together *)
  Definition toks (a : nat) (Ls : list lst) : nat := list_sum (map (fun L => cnt a (ltmp L)) Ls).
  Lemma toks_upd a i L L' Ls : nth_error Ls i = Some L -> toks a (upd i L' Ls) + cnt a (ltmp L) = toks a Ls + cnt a (ltmp L').
  Proof.
    unfold toks. revert i; induction Ls as [|x Ls IH]; intros [|i] Hn; simpl in *; try discriminate.
    - injection Hn as <-. lia.
    - specialize (IH _ Hn). lia.
  Qed.
  Lemma toks_in a i L Ls : nth_error Ls i = Some L -> cnt a (ltmp L) <= toks a Ls.
  Proof.
    unfold toks. revert i; induction Ls as [|x Ls IH]; intros [|i] Hn; simpl in *; try discriminate.
    - injection Hn as <-. lia.
    - specialize (IH _ Hn). lia.
  Qed.
  Lemma toks_zero a Ls : (forall i L, nth_error Ls i = Some L -> ltmp L = []) -> toks a Ls = 0.
  Proof.
    unfold toks. induction Ls as [|x Ls IH]; intros H; simpl; [reflexivity|].
    rewrite (H 0 x eq_refl). simpl. apply IH. intros i L Hn. exact (H (S i) L Hn).
  Qed.

  Record GI (s : hst) (Ls : list lst) : Prop := mkGI {
    g_len : forall i L, nth_error Ls i = Some L -> length (lv L) = length (vars s);
    g_vis : forall i L h, nth_error Ls i = Some L -> visible owner i h -> nth_error (lv L) h = nth_error (vars s) h;
    g_cnt : forall a c, nth_error (heap s) a = Some c -> c_cnt c = occ a (vars s) + toks a Ls;
    g_live : forall a c, nth_error (heap s) a = Some c ->
      (c_live c = true <-> 0 < c_cnt c \/ exists i L, nth_error Ls i = Some L /\ lkill L = Some a);
    g_kill : forall i L a, nth_error Ls i = Some L -> lkill L = Some a -> exists c, nth_error (heap s) a = Some c /\ c_cnt c = 0;
    g_kill1 : forall i j L K a, nth_error Ls i = Some L -> nth_error Ls j = Some K -> lkill L = Some a -> lkill K = Some a -> i = j;
    g_ptr : forall a, 0 < occ a (vars s) + toks a Ls -> a < length (heap s);
    g_n0 : n0 <= length (heap s);
    g_old : forall a, a < n0 -> val s a = val0 a;
    g_obj : forall i L a v, nth_error Ls i = Some L -> lobj L a = Some v -> n0 <= a /\ val s a = Some v;
    g_disj : forall i j L K a, nth_error Ls i = Some L -> nth_error Ls j = Some K -> lobj L a <> None -> lobj K a <> None -> i = j;
    g_tok : forall i L a, nth_error Ls i = Some L -> In a (ltmp L) -> n0 <= a -> lobj L a <> None;
    g_var : forall h a, nth_error (vars s) h = Some (Ptr a) -> n0 <= a ->
      exists i L, owner h = Some i /\ nth_error Ls i = Some L /\ lobj L a <> None;
    g_common : forall h, owner h = None -> nth_error (vars s) h = nth_error vars0 h }.

  Lemma nth_upd_inv {A} (l : list A) i x y j z : nth_error l i = Some y -> nth_error (upd i x l) j = Some z ->
    (j = i /\ z = x) \/ (j <> i /\ nth_error l j = Some z).
  Proof.
    intros Hi Hj. destruct (Nat.eq_dec j i) as [->|Hne].
    - left. rewrite (nth_error_upd_some _ _ _ _ Hi) in Hj. injection Hj as <-. auto.
    - right. rewrite nth_error_upd_neq in Hj by auto. auto.
  Qed.
  (** an object held by a thread is alive and has the value the thread believes *)
  Lemma holds_pos s Ls i L a : GI s Ls -> nth_error Ls i = Some L -> holds i L a -> 0 < occ a (vars s) + toks a Ls.
  Proof.
    intros G Hi [Hin|(h & Hv & Hh)].
    - apply cnt_in in Hin. pose proof (toks_in a i L Ls Hi). lia.
    - rewrite (g_vis _ _ G i L h Hi Hv) in Hh. apply nth_error_In in Hh. apply occ_in in Hh. lia.
  Qed.
  Lemma holds_cell s Ls i L a : GI s Ls -> nth_error Ls i = Some L -> holds i L a ->
    exists c, nth_error (heap s) a = Some c /\ c_live c = true /\ 0 < c_cnt c.
  Proof.
    intros G Hi Hh. pose proof (holds_pos _ _ _ _ _ G Hi Hh) as Hp. pose proof (g_ptr _ _ G a Hp) as Hlt.
    destruct (nth_error (heap s) a) as [c|] eqn:Hc; [|apply nth_error_None in Hc; lia].
    exists c. pose proof (g_cnt _ _ G a c Hc). split; [reflexivity|]. split; [apply (g_live _ _ G a c Hc); left|]; lia.
  Qed.
  Lemma holds_obj s Ls i L a : GI s Ls -> nth_error Ls i = Some L -> holds i L a -> n0 <= a -> lobj L a <> None.
  Proof.
    intros G Hi [Hin|(h & Hv & Hh)] Hn.
    - exact (g_tok _ _ G i L a Hi Hin Hn).
    - rewrite (g_vis _ _ G i L h Hi Hv) in Hh. destruct (g_var _ _ G h a Hh Hn) as (j & K & Ho & Hj & HK).
      destruct Hv as [Hv|Hv]; [|congruence]. assert (j = i) by congruence. subst j. congruence.
  Qed.
  Lemma lval_val s Ls i L a v : GI s Ls -> nth_error Ls i = Some L -> lval L a = Some v -> val s a = Some v.
  Proof.
    intros G Hi Hv. unfold lval in Hv. destruct (Nat.ltb_spec a n0) as [Hlt|Hge].
    - rewrite (g_old _ _ G a Hlt). exact Hv.
    - exact (proj2 (g_obj _ _ G i L a v Hi Hv)).
  Qed.
  Lemma GI_sched s Ls sc : GI s Ls -> GI (with_sched s sc) Ls.
  Proof. intros []. split; assumption. Qed.

  Ltac ul Hi H := apply (nth_upd_inv _ _ _ _ _ _ Hi) in H as [[? ?]|[? H]]; subst.
  Lemma nth_heap_upd (hp : list cell) a c c' b x : nth_error hp a = Some c -> nth_error (upd a c' hp) b = Some x ->
    (b = a /\ x = c') \/ (b <> a /\ nth_error hp b = Some x).
  Proof. apply nth_upd_inv. Qed.
  Lemma exists_kill Ls i L L' a : nth_error Ls i = Some L -> lkill L' = lkill L ->
    (exists j K, nth_error (upd i L' Ls) j = Some K /\ lkill K = Some a) <-> (exists j K, nth_error Ls j = Some K /\ lkill K = Some a).
  Proof.
    intros Hi Hk. split; intros (j & K & Hj & HK).
    - ul Hi Hj; [exists i, L; split; congruence|eauto].
    - destruct (Nat.eq_dec j i) as [->|Hne].
      + exists i, L'. rewrite (nth_error_upd_some _ _ _ _ Hi). split; congruence.
      + exists j, K. rewrite nth_error_upd_neq by auto. auto.
  Qed.

  Lemma step_store s Ls i L h sl old T : GI s Ls -> nth_error Ls i = Some L -> owner h = Some i -> nth_error (lv L) h = Some old ->
    (forall a, one a old + cnt a (ltmp L) = one a sl + cnt a T) ->
    GI (up s h sl) (upd i (mkL (upd h sl (lv L)) T (lkill L) (lobj L) (lsc L)) Ls).
  Proof.
    intros G Hi Ho Hh HT. set (L' := mkL _ _ _ _ _).
    assert (Hv : nth_error (vars s) h = Some old) by (rewrite <- (g_vis _ _ G i L h Hi (or_introl Ho)); exact Hh).
    assert (Hsum : forall a, occ a (upd h sl (vars s)) + toks a (upd i L' Ls) = occ a (vars s) + toks a Ls).
    { intros a. pose proof (occ_upd a h sl old _ Hv). pose proof (toks_upd a i L L' Ls Hi) as H2. simpl in H2. specialize (HT a). lia. }
    assert (Hold : forall a, old = Ptr a \/ In a (ltmp L) -> n0 <= a -> lobj L a <> None).
    { intros a Ha Hn. apply (holds_obj s Ls i L a G Hi); [|exact Hn]. destruct Ha as [->|Ha]; [right|left; exact Ha].
      exists h. split; [left; exact Ho|exact Hh]. }
    assert (Hnew : forall a, sl = Ptr a \/ In a T -> n0 <= a -> lobj L a <> None).
    { intros a Ha. apply Hold. specialize (HT a).
      assert (0 < one a sl + cnt a T) by (destruct Ha as [->|Ha]; [rewrite one_eq; lia|apply cnt_in in Ha; lia]).
      destruct (Nat.eq_dec (one a old) 0) as [Hz|Hz]; [right; apply cnt_in; lia|left; apply one_ptr; lia]. }
    split; simpl.
    - intros j K Hj. rewrite upd_length. ul Hi Hj; [simpl; rewrite upd_length|]; eapply g_len; eassumption.
    - intros j K h' Hj Hvis. ul Hi Hj.
      + simpl. destruct (Nat.eq_dec h h') as [->|Hne].
        * rewrite (nth_error_upd_some _ _ _ _ Hh), (nth_error_upd_some _ _ _ _ Hv). reflexivity.
        * rewrite !nth_error_upd_neq by exact Hne. eapply g_vis; eassumption.
      + destruct (Nat.eq_dec h h') as [<-|Hne].
        * exfalso. destruct Hvis; congruence.
        * rewrite nth_error_upd_neq by exact Hne. eapply g_vis; eassumption.
    - intros a c Hc. rewrite Hsum. eapply g_cnt; eassumption.
    - intros a c Hc. rewrite (exists_kill Ls i L L' a Hi eq_refl). eapply g_live; eassumption.
    - intros j K a Hj HK. ul Hi Hj; eapply g_kill; eassumption.
    - intros j k K K' a Hj Hk HK HK'. ul Hi Hj; ul Hi Hk; auto; eapply (g_kill1 _ _ G); eassumption.
    - intros a. rewrite Hsum. apply (g_ptr _ _ G).
    - apply (g_n0 _ _ G).
    - apply (g_old _ _ G).
    - intros j K a v Hj HK. ul Hi Hj; [eapply (g_obj _ _ G i L); eassumption|eapply (g_obj _ _ G); eassumption].
    - intros j k K K' a Hj Hk HK HK'. ul Hi Hj; ul Hi Hk; auto; eapply (g_disj _ _ G); eassumption.
    - intros j K a Hj Hin Hn. ul Hi Hj; [apply Hnew; auto|eapply (g_tok _ _ G); eassumption].
    - intros h' a Hh' Hn. destruct (nth_upd_inv _ _ _ _ _ _ Hv Hh') as [[-> Hsl]|[Hne Hh2]].
      + exists i, L'. rewrite (nth_error_upd_some _ _ _ _ Hi). repeat split; auto. apply Hnew; auto.
      + destruct (g_var _ _ G h' a Hh2 Hn) as (j & K & H1 & H2 & H3). destruct (Nat.eq_dec j i) as [->|Hne'].
        * exists i, L'. rewrite (nth_error_upd_some _ _ _ _ Hi). repeat split; auto. assert (K = L) by congruence. subst K. exact H3.
        * exists j, K. rewrite nth_error_upd_neq by auto. auto.
    - intros h' Hh'. rewrite nth_error_upd_neq by congruence. apply (g_common _ _ G). exact Hh'.
  Qed.

  (** changing counts and lifetime marks only *)
  Lemma step_cell s Ls i L a c c' T kl : GI s Ls -> nth_error Ls i = Some L -> nth_error (heap s) a = Some c -> c_val c' = c_val c ->
    let L' := mkL (lv L) T kl (lobj L) (lsc L) in
    c_cnt c' = occ a (vars s) + toks a (upd i L' Ls) ->
    (forall b, b <> a -> cnt b T = cnt b (ltmp L)) ->
    (c_live c' = true <-> 0 < c_cnt c' \/ exists j K, nth_error (upd i L' Ls) j = Some K /\ lkill K = Some a) ->
    (kl = lkill L \/ lkill L = Some a /\ kl = None \/ lkill L = None /\ kl = Some a) ->
    (forall j K, j <> i -> nth_error Ls j = Some K -> lkill K = Some a -> c_cnt c' = 0 /\ kl <> Some a) ->
    (kl = Some a -> c_cnt c' = 0) ->
    (In a T -> n0 <= a -> lobj L a <> None) ->
    GI (mkHst (vars s) (upd a c' (heap s)) (sched s) (refs s)) (upd i L' Ls).
  Proof.
    intros G Hi Hc Hval L' Hcnt HT Hlive Hkl Hoth Hzero Htok.
    assert (Hlt : a < length (heap s)) by (apply nth_error_Some; congruence).
    assert (Hb : forall b, b <> a -> toks b (upd i L' Ls) = toks b Ls).
    { intros b Hne. pose proof (toks_upd b i L L' Ls Hi) as Hu. simpl in Hu. rewrite (HT b Hne) in Hu. lia. }
    assert (Hv : forall b, val (mkHst (vars s) (upd a c' (heap s)) (sched s) (refs s)) b = val s b).
    { intros b. eapply val_upd; eassumption. }
    split; simpl.
    - intros j K Hj. ul Hi Hj; [eapply (g_len _ _ G i L); eassumption|eapply (g_len _ _ G); eassumption].
    - intros j K h' Hj Hvis. ul Hi Hj; [eapply (g_vis _ _ G i L); eassumption|eapply (g_vis _ _ G); eassumption].
    - intros b x Hx. destruct (nth_heap_upd _ _ _ _ _ _ Hc Hx) as [[-> ->]|[Hne Hx']]; [exact Hcnt|].
      rewrite Hb by exact Hne. eapply g_cnt; eassumption.
    - intros b x Hx. destruct (nth_heap_upd _ _ _ _ _ _ Hc Hx) as [[-> ->]|[Hne Hx']]; [exact Hlive|].
      rewrite (g_live _ _ G b x Hx'). apply or_iff_compat_l. split; intros (j & K & Hj & HK).
      + destruct (Nat.eq_dec j i) as [->|Hji].
        * assert (K = L) by congruence. subst K. exists i, L'. rewrite (nth_error_upd_some _ _ _ _ Hi). split; [reflexivity|].
          simpl. destruct Hkl as [->|[[Hk ->]|[Hk ->]]]; congruence.
        * exists j, K. rewrite nth_error_upd_neq by auto. auto.
      + ul Hi Hj; [|eauto]. exists i, L. split; [exact Hi|]. simpl in HK. destruct Hkl as [->|[[Hk ->]|[Hk ->]]]; congruence.
    - intros j K b Hj HK. assert (Hx : exists x, nth_error (heap s) b = Some x /\ (b <> a -> c_cnt x = 0)).
      { ul Hi Hj.
        - simpl in HK. destruct Hkl as [->|[[Hk ->]|[Hk ->]]].
          + destruct (g_kill _ _ G i L b Hi HK) as (x & Hx & Hx0). eauto.
          + discriminate.
          + injection HK as <-. exists c. split; [exact Hc|congruence].
        - destruct (g_kill _ _ G j K b Hj HK) as (x & Hx & Hx0). eauto. }
      destruct Hx as (x & Hx & Hx0). destruct (Nat.eq_dec b a) as [->|Hne].
      + exists c'. rewrite (nth_error_upd_some _ _ _ _ Hc). split; [reflexivity|].
        ul Hi Hj; [apply Hzero; exact HK|]. eapply Hoth; eauto.
      + exists x. rewrite nth_error_upd_neq by auto. auto.
    - intros j k K K' b Hj Hk HK HK'.
      assert (X : forall K2 k2, k2 <> i -> nth_error Ls k2 = Some K2 -> lkill K2 = Some b -> kl = Some b -> False).
      { intros K2 k2 Hne Hk2 HK2 Hkb. destruct (Nat.eq_dec b a) as [->|Hba].
        - destruct (Hoth k2 K2 Hne Hk2 HK2). congruence.
        - apply Hne. eapply (g_kill1 _ _ G k2 i K2 L b); try eassumption. destruct Hkl as [E|[[E E2]|[E E2]]]; congruence. }
      ul Hi Hj; ul Hi Hk; auto.
      + exfalso. eapply X; eauto.
      + exfalso. eapply X; eauto.
      + eapply (g_kill1 _ _ G); eassumption.
    - intros b Hp. rewrite upd_length. destruct (Nat.eq_dec b a) as [->|Hne]; [exact Hlt|].
      rewrite Hb in Hp by exact Hne. apply (g_ptr _ _ G). exact Hp.
    - rewrite upd_length. apply (g_n0 _ _ G).
    - intros b Hlt'. rewrite Hv. apply (g_old _ _ G). exact Hlt'.
    - intros j K b v Hj HK. rewrite Hv. ul Hi Hj; [eapply (g_obj _ _ G i L); eassumption|eapply (g_obj _ _ G); eassumption].
    - intros j k K K' b Hj Hk HK HK'. ul Hi Hj; ul Hi Hk; auto; eapply (g_disj _ _ G); eassumption.
    - intros j K b Hj Hin Hn. ul Hi Hj; [|eapply (g_tok _ _ G); eassumption].
      simpl in Hin |- *. destruct (Nat.eq_dec b a) as [->|Hne]; [apply Htok; assumption|].
      apply (g_tok _ _ G i L b Hi); [|exact Hn]. apply cnt_in. rewrite <- (HT b Hne). apply cnt_in. exact Hin.
    - intros h' b Hh' Hn. destruct (g_var _ _ G h' b Hh' Hn) as (j & K & H1 & H2 & H3). destruct (Nat.eq_dec j i) as [->|Hne'].
      + exists i, L'. rewrite (nth_error_upd_some _ _ _ _ Hi). repeat split; auto. assert (K = L) by congruence. subst K. exact H3.
      + exists j, K. rewrite nth_error_upd_neq by auto. auto.
    - apply (g_common _ _ G).
  Qed.

  Lemma step_alloc s Ls i L v sc : GI s Ls -> nth_error Ls i = Some L ->
    GI (mkHst (vars s) (heap s ++ [mkCell v 1 true]) sc (refs s))
       (upd i (mkL (lv L) (length (heap s) :: ltmp L) (lkill L) (set_var (lobj L) (length (heap s)) (Some v)) sc) Ls).
  Proof.
    intros G Hi. set (b := length (heap s)). set (L' := mkL _ _ _ _ _).
    assert (Hz : occ b (vars s) + toks b Ls = 0).
    { destruct (Nat.eq_dec (occ b (vars s) + toks b Ls) 0) as [|Hx]; [assumption|]. pose proof (g_ptr _ _ G b). unfold b in *. lia. }
    assert (Ht : forall a, toks a (upd i L' Ls) = one a (Ptr b) + toks a Ls).
    { intros a. pose proof (toks_upd a i L L' Ls Hi) as Hu. simpl in Hu. rewrite cnt_cons in Hu. lia. }
    assert (Hnone : forall j K, nth_error Ls j = Some K -> lobj K b = None).
    { intros j K Hj. destruct (lobj K b) as [w|] eqn:E; [|reflexivity]. exfalso. destruct (g_obj _ _ G j K b w Hj E) as [_ Hv].
      unfold val in Hv. replace (nth_error (heap s) b) with (@None cell) in Hv; [discriminate|]. symmetry. apply nth_error_None. unfold b. lia. }
    assert (Hval : forall a, a < b -> val (mkHst (vars s) (heap s ++ [mkCell v 1 true]) sc (refs s)) a = val s a).
    { intros a Ha. unfold val. simpl. rewrite nth_error_app1 by exact Ha. reflexivity. }
    assert (Hin : forall a c, nth_error (heap s ++ [mkCell v 1 true]) a = Some c -> (a < b /\ nth_error (heap s) a = Some c) \/ (a = b /\ c = mkCell v 1 true)).
    { intros a c Hc. destruct (Nat.lt_ge_cases a b) as [Hlt|Hge].
      - left. rewrite nth_error_app1 in Hc by exact Hlt. auto.
      - right. rewrite nth_error_app2 in Hc by exact Hge. fold b in Hc. destruct (a - b) as [|k] eqn:Hk; [|destruct k; discriminate].
        injection Hc as <-. split; [lia|reflexivity]. }
    assert (Hlobj : forall a, lobj L a <> None -> lobj L' a <> None).
    { intros a Ha. simpl. destruct (Nat.eq_dec a b) as [->|Hne]; [rewrite set_var_eq; discriminate|rewrite set_var_neq by exact Hne; exact Ha]. }
    split; simpl.
    - intros j K Hj. ul Hi Hj; [eapply (g_len _ _ G i L); eassumption|eapply (g_len _ _ G); eassumption].
    - intros j K h' Hj Hvis. ul Hi Hj; [eapply (g_vis _ _ G i L); eassumption|eapply (g_vis _ _ G); eassumption].
    - intros a c Hc. rewrite Ht. destruct (Hin a c Hc) as [[Hlt Hc']|[-> ->]].
      + rewrite one_neq by (intros [= Hx]; lia). simpl. eapply g_cnt; eassumption.
      + rewrite one_eq. simpl. lia.
    - intros a c Hc. rewrite (exists_kill Ls i L L' a Hi eq_refl). destruct (Hin a c Hc) as [[Hlt Hc']|[-> ->]].
      + eapply g_live; eassumption.
      + simpl. split; [intros _; left; lia|reflexivity].
    - intros j K a Hj HK. assert (Hx : exists c, nth_error (heap s) a = Some c /\ c_cnt c = 0).
      { ul Hi Hj; [exact (g_kill _ _ G i L a Hi HK)|exact (g_kill _ _ G j K a Hj HK)]. }
      destruct Hx as (c & Hc & H0). exists c. split; [|exact H0]. rewrite nth_error_app1; [exact Hc|]. apply nth_error_Some. congruence.
    - intros j k K K' a Hj Hk HK HK'. ul Hi Hj; ul Hi Hk; auto; eapply (g_kill1 _ _ G); eassumption.
    - intros a Hp. rewrite app_length. simpl. rewrite Ht in Hp. destruct (Nat.eq_dec a b) as [->|Hne]; [unfold b; lia|].
      rewrite one_neq in Hp by congruence. pose proof (g_ptr _ _ G a Hp). lia.
    - rewrite app_length. pose proof (g_n0 _ _ G). lia.
    - intros a Ha. pose proof (g_n0 _ _ G). rewrite Hval by (unfold b; lia). apply (g_old _ _ G). exact Ha.
    - intros j K a w Hj HK. assert (Hx : lobj K a = Some w -> j <> i -> n0 <= a /\ val (mkHst (vars s) (heap s ++ [mkCell v 1 true]) sc (refs s)) a = Some w).
      { intros HK' Hne. ul Hi Hj; [congruence|]. destruct (g_obj _ _ G j K a w Hj HK') as [Hn Hv]. split; [exact Hn|]. rewrite Hval; [exact Hv|].
        unfold val in Hv. destruct (nth_error (heap s) a) eqn:E; [|discriminate]. apply nth_error_Some. congruence. }
      ul Hi Hj; [|apply Hx; assumption]. clear Hx. simpl in HK. destruct (Nat.eq_dec a b) as [->|Hne].
      + rewrite set_var_eq in HK. injection HK as <-. split; [apply (g_n0 _ _ G)|]. unfold val, b. simpl. rewrite nth_error_app2, Nat.sub_diag by lia. reflexivity.
      + rewrite set_var_neq in HK by exact Hne. destruct (g_obj _ _ G i L a w Hi HK) as [Hn Hv]. split; [exact Hn|]. rewrite Hval; [exact Hv|].
        unfold val in Hv. destruct (nth_error (heap s) a) eqn:E; [|discriminate]. apply nth_error_Some. congruence.
    - assert (X : forall k K a, k <> i -> nth_error Ls k = Some K -> lobj K a <> None -> lobj L' a <> None -> False).
      { intros k K a Hne Hk HK HL. simpl in HL. destruct (Nat.eq_dec a b) as [->|Hab]; [apply HK; eapply Hnone; exact Hk|].
        rewrite set_var_neq in HL by exact Hab. apply Hne. eapply (g_disj _ _ G); eassumption. }
      intros j k K K' a Hj Hk HK HK'. ul Hi Hj; ul Hi Hk; auto.
      + exfalso. eapply X; eauto.
      + exfalso. eapply X; eauto.
      + eapply (g_disj _ _ G); eassumption.
    - intros j K a Hj Hin' Hn. ul Hi Hj; [|eapply (g_tok _ _ G); eassumption].
      simpl in Hin'. destruct Hin' as [<-|Hin']; [simpl; rewrite set_var_eq; discriminate|].
      apply Hlobj. eapply (g_tok _ _ G); eassumption.
    - intros h' a Hh' Hn. destruct (g_var _ _ G h' a Hh' Hn) as (j & K & H1 & H2 & H3). destruct (Nat.eq_dec j i) as [->|Hne'].
      + exists i, L'. rewrite (nth_error_upd_some _ _ _ _ Hi). repeat split; auto. apply Hlobj. assert (K = L) by congruence. subst K. exact H3.
      + exists j, K. rewrite nth_error_upd_neq by auto. auto.
    - apply (g_common _ _ G).
  Qed.

  Lemma step_set s Ls i L a c f v : GI s Ls -> nth_error Ls i = Some L -> nth_error (heap s) a = Some c -> n0 <= a -> lobj L a = Some v ->
    GI (wr s a c f) (upd i (mkL (lv L) (ltmp L) (lkill L) (set_var (lobj L) a (Some (f v))) (lsc L)) Ls).
  Proof.
    intros G Hi Hc Hn Hv. set (L' := mkL _ _ _ _ _).
    assert (Hvc : c_val c = v).
    { destruct (g_obj _ _ G i L a v Hi Hv) as [_ Hx]. unfold val in Hx. rewrite Hc in Hx. simpl in Hx. congruence. }
    assert (Ht : forall b, toks b (upd i L' Ls) = toks b Ls) by (intros b; pose proof (toks_upd b i L L' Ls Hi) as Hu; simpl in Hu; lia).
    assert (Hlobj : forall b, lobj L' b <> None <-> lobj L b <> None).
    { intros b. simpl. destruct (Nat.eq_dec b a) as [->|Hne]; [rewrite set_var_eq, Hv; split; discriminate|rewrite set_var_neq by exact Hne; reflexivity]. }
    assert (Hcell : forall b x, nth_error (heap (wr s a c f)) b = Some x -> exists y, nth_error (heap s) b = Some y /\ c_cnt y = c_cnt x /\ c_live y = c_live x).
    { intros b x Hx. simpl in Hx. destruct (nth_heap_upd _ _ _ _ _ _ Hc Hx) as [[-> ->]|[Hne Hx']]; eauto. }
    split.
    - intros j K Hj. ul Hi Hj; [eapply (g_len _ _ G i L); eassumption|eapply (g_len _ _ G); eassumption].
    - intros j K h' Hj Hvis. ul Hi Hj; [eapply (g_vis _ _ G i L); eassumption|eapply (g_vis _ _ G); eassumption].
    - intros b x Hx. rewrite Ht. destruct (Hcell b x Hx) as (y & Hy & <- & _). eapply (g_cnt _ _ G); eassumption.
    - intros b x Hx. rewrite (exists_kill Ls i L L' b Hi eq_refl). destruct (Hcell b x Hx) as (y & Hy & <- & <-). eapply (g_live _ _ G); eassumption.
    - intros j K b Hj HK. assert (Hx : exists x, nth_error (heap s) b = Some x /\ c_cnt x = 0).
      { ul Hi Hj; [exact (g_kill _ _ G i L b Hi HK)|exact (g_kill _ _ G j K b Hj HK)]. }
      destruct Hx as (x & Hx & H0). simpl. destruct (Nat.eq_dec b a) as [->|Hne].
      + rewrite (nth_error_upd_some _ _ _ _ Hc). eexists. split; [reflexivity|]. simpl. congruence.
      + rewrite nth_error_upd_neq by auto. eauto.
    - intros j k K K' b Hj Hk HK HK'. ul Hi Hj; ul Hi Hk; auto; eapply (g_kill1 _ _ G); eassumption.
    - intros b. rewrite Ht. simpl. rewrite upd_length. apply (g_ptr _ _ G).
    - simpl. rewrite upd_length. apply (g_n0 _ _ G).
    - intros b Hb. rewrite (wr_val _ _ _ _ _ Hc). destruct (Nat.eqb_spec a b); [lia|]. apply (g_old _ _ G). exact Hb.
    - intros j K b w Hj HK. rewrite (wr_val _ _ _ _ _ Hc). ul Hi Hj.
      + simpl in HK. destruct (Nat.eqb_spec a b) as [<-|Hne].
        * rewrite set_var_eq in HK. split; [exact Hn|exact HK].
        * rewrite set_var_neq in HK by auto. exact (g_obj _ _ G i L b w Hi HK).
      + destruct (Nat.eqb_spec a b) as [<-|Hne]; [|exact (g_obj _ _ G j K b w Hj HK)].
        exfalso. assert (j = i) by (eapply (g_disj _ _ G j i K L a); try eassumption; congruence). contradiction.
    - intros j k K K' b Hj Hk HK HK'. ul Hi Hj; ul Hi Hk; auto; rewrite ?Hlobj in *; eapply (g_disj _ _ G); eassumption.
    - intros j K b Hj Hin Hn'. ul Hi Hj; [rewrite Hlobj; eapply (g_tok _ _ G i L); eassumption|eapply (g_tok _ _ G); eassumption].
    - intros h' b Hh' Hn'. destruct (g_var _ _ G h' b Hh' Hn') as (j & K & H1 & H2 & H3). destruct (Nat.eq_dec j i) as [->|Hne'].
      + exists i, L'. rewrite (nth_error_upd_some _ _ _ _ Hi). repeat split; auto. apply Hlobj. assert (K = L) by congruence. subst K. exact H3.
      + exists j, K. rewrite nth_error_upd_neq by auto. auto.
    - apply (g_common _ _ G).
  Qed.

  Lemma act_step {B} (a : act B) s Ls i L Q E : GI s Ls -> nth_error Ls i = Some L -> wpa i a L Q E ->
    match aexec a (with_sched s (lsc L)) with
    | Ret x s' => exists L', GI s' (upd i L' Ls) /\ Q x L' /\ lsc L' = sched s'
    | Exc e s' => exists L', GI s' (upd i L' Ls) /\ E e L' /\ lsc L' = sched s'
    | Ub _ | Abort | Fuel => False
    end.
  Proof.
    intros G0 Hi H. assert (G : GI (with_sched s (lsc L)) Ls) by (apply GI_sched; exact G0). clear G0.
    assert (Hsc : sched (with_sched s (lsc L)) = lsc L) by reflexivity. revert Hsc G. generalize (with_sched s (lsc L)). clear s. intros s Hsc G.
    destruct a as [h|d|h sl|a|a|a|v|a|a f]; simpl in H |- *.
    - destruct H as (Hv & sl & Hh & Hd & HQ). rewrite (g_vis _ _ G i L h Hi Hv) in Hh. rewrite (get_ok _ _ _ Hh Hd).
      exists L. rewrite (upd_same _ _ _ Hi). auto.
    - destruct H as (Hv & Hd & HQ). rewrite (g_vis _ _ G i L d Hi (or_introl Hv)) in Hd. rewrite (fresh_ok _ _ Hd).
      exists L. rewrite (upd_same _ _ _ Hi). auto.
    - destruct H as (Ho & old & T & Hh & HT & HQ). eexists. split; [eapply step_store; eassumption|]. split; [exact HQ|]. auto.
    - destruct H as (Hh & HQ). destruct (holds_cell _ _ _ _ _ G Hi Hh) as (c & Hc & Hl & Hp). unfold a_inc. rewrite Hc, Hl.
      destruct (Nat.ltb_spec 0 (c_cnt c)); [|lia]. simpl. eexists. split; [|split; [exact HQ|auto]].
      eapply step_cell; try eassumption; try reflexivity; simpl.
      + rewrite (g_cnt _ _ G a c Hc). match goal with |- context[toks a (upd i ?L' Ls)] => pose proof (toks_upd a i L L' Ls Hi) as Hu end.
        simpl in Hu. rewrite cnt_cons, one_eq in Hu. lia.
      + intros b Hb. rewrite cnt_cons, one_neq by congruence. reflexivity.
      + split; [intros _; left; lia|reflexivity].
      + auto.
      + intros j K _ Hj HK. destruct (g_kill _ _ G j K a Hj HK) as (x & Hx & H0). replace x with c in * by congruence. lia.
      + intros HK. destruct (g_kill _ _ G i L a Hi HK) as (x & Hx & H0). replace x with c in * by congruence. lia.
      + intros _ Hn. exact (holds_obj _ _ _ _ _ G Hi Hh Hn).
    - destruct H as (Hk & T & HT & HQf & HQt).
      assert (Hh : holds i L a) by (left; rewrite HT; left; reflexivity).
      destruct (holds_cell _ _ _ _ _ G Hi Hh) as (c & Hc & Hl & Hp). unfold a_dec. rewrite Hc, Hl.
      pose proof (g_cnt _ _ G a c Hc) as Hcc.
      assert (Hcase : forall kl, toks a (upd i (mkL (lv L) T kl (lobj L) (lsc L)) Ls) + 1 = toks a Ls).
      { intros kl. match goal with |- context[toks a (upd i ?L' Ls)] => pose proof (toks_upd a i L L' Ls Hi) as Hu end.
        simpl in Hu. rewrite HT, cnt_cons, one_eq in Hu. lia. }
      assert (Hne : forall b, b <> a -> cnt b T = cnt b (ltmp L)) by (intros b Hb; rewrite HT, cnt_cons, one_neq by congruence; reflexivity).
      assert (Hnok : forall j K, nth_error Ls j = Some K -> lkill K <> Some a).
      { intros j K Hj HK. destruct (g_kill _ _ G j K a Hj HK) as (x & Hx & H0). replace x with c in * by congruence. lia. }
      assert (Htok : In a T -> n0 <= a -> lobj L a <> None) by (intros _ Hn; exact (holds_obj _ _ _ _ _ G Hi Hh Hn)).
      destruct (c_cnt c) as [|n] eqn:En; [lia|]. destruct (Nat.eqb_spec n 0) as [->|Hn0].
      + eexists. split; [|split; [exact HQt|auto]]. eapply step_cell; try eassumption; try reflexivity; simpl.
        * specialize (Hcase (Some a)). lia.
        * split; [intros _|reflexivity]. right. eexists i, _. rewrite (nth_error_upd_some _ _ _ _ Hi). split; reflexivity.
        * auto.
        * intros j K _ Hj HK. exfalso. exact (Hnok j K Hj HK).
      + eexists. split; [|split; [exact HQf|auto]]. eapply step_cell; try eassumption; try reflexivity; simpl.
        * specialize (Hcase None). lia.
        * split; [intros _; left; lia|reflexivity].
        * auto.
        * intros j K _ Hj HK. exfalso. exact (Hnok j K Hj HK).
        * discriminate.
    - destruct H as (Hk & HQ). destruct (g_kill _ _ G i L a Hi Hk) as (c & Hc & H0). unfold a_kill. rewrite Hc.
      assert (Hl : c_live c = true) by (apply (g_live _ _ G a c Hc); right; eauto). rewrite Hl.
      eexists. split; [|split; [exact HQ|auto]]. pose proof (g_cnt _ _ G a c Hc) as Hcc.
      eapply step_cell; try eassumption; try reflexivity; simpl.
      + match goal with |- context[toks a (upd i ?L' Ls)] => pose proof (toks_upd a i L L' Ls Hi) as Hu end. simpl in Hu. lia.
      + split; [discriminate|]. intros [Hx|(j & K & Hj & HK)]; [lia|]. exfalso. ul Hi Hj; [discriminate|].
        assert (j = i) by (eapply (g_kill1 _ _ G j i); eassumption). contradiction.
      + auto.
      + intros j K Hne Hj HK. exfalso. assert (j = i) by (eapply (g_kill1 _ _ G j i); eassumption). contradiction.
      + discriminate.
      + intros Hin Hn. exact (g_tok _ _ G i L a Hi Hin Hn).
    - destruct H as (HE & HQ). unfold alloc. rewrite Hsc. destruct (lsc L) as [|[] sc] eqn:El; simpl in *.
      + eexists. split; [exact (step_alloc s Ls i L v _ G Hi)|]. split; [|reflexivity]. apply HQ; [reflexivity|apply (g_n0 _ _ G)|].
        destruct (lobj L (length (heap s))) as [w|] eqn:E0; [|reflexivity]. exfalso. destruct (g_obj _ _ G i L _ w Hi E0) as [_ Hv].
        unfold val in Hv. replace (nth_error (heap s) (length (heap s))) with (@None cell) in Hv; [discriminate|]. symmetry. apply nth_error_None. lia.
      + eexists. split; [|split; [apply HE; reflexivity|reflexivity]].
        assert (G' : GI (mkHst (vars s) (heap s) sc (refs s)) Ls) by (destruct G; split; assumption).
        clear - G' Hi. set (L' := mkL _ _ _ _ _).
        assert (Ht : forall b, toks b (upd i L' Ls) = toks b Ls) by (intros b; pose proof (toks_upd b i L L' Ls Hi) as Hu; simpl in Hu; lia).
        split.
        * intros j K Hj. ul Hi Hj; [eapply (g_len _ _ G' i L); eassumption|eapply (g_len _ _ G'); eassumption].
        * intros j K h' Hj Hvis. ul Hi Hj; [eapply (g_vis _ _ G' i L); eassumption|eapply (g_vis _ _ G'); eassumption].
        * intros b x Hx. rewrite Ht. eapply (g_cnt _ _ G'); eassumption.
        * intros b x Hx. rewrite (exists_kill Ls i L L' b Hi eq_refl). eapply (g_live _ _ G'); eassumption.
        * intros j K b Hj HK. ul Hi Hj; eapply (g_kill _ _ G'); eassumption.
        * intros j k K K' b Hj Hk HK HK'. ul Hi Hj; ul Hi Hk; auto; eapply (g_kill1 _ _ G'); eassumption.
        * intros b. rewrite Ht. apply (g_ptr _ _ G').
        * apply (g_n0 _ _ G').
        * apply (g_old _ _ G').
        * intros j K b w Hj HK. ul Hi Hj; [eapply (g_obj _ _ G' i L); eassumption|eapply (g_obj _ _ G'); eassumption].
        * intros j k K K' b Hj Hk HK HK'. ul Hi Hj; ul Hi Hk; auto; eapply (g_disj _ _ G'); eassumption.
        * intros j K b Hj Hin Hn'. ul Hi Hj; [eapply (g_tok _ _ G' i L); eassumption|eapply (g_tok _ _ G'); eassumption].
        * intros h' b Hh' Hn'. destruct (g_var _ _ G' h' b Hh' Hn') as (j & K & H1 & H2 & H3). destruct (Nat.eq_dec j i) as [->|Hne'].
          -- exists i, L'. rewrite (nth_error_upd_some _ _ _ _ Hi). repeat split; auto. assert (K = L) by congruence. subst K. exact H3.
          -- exists j, K. rewrite nth_error_upd_neq by auto. auto.
        * apply (g_common _ _ G').
      + eexists. split; [exact (step_alloc s Ls i L v _ G Hi)|]. split; [|reflexivity]. apply HQ; [reflexivity|apply (g_n0 _ _ G)|].
        destruct (lobj L (length (heap s))) as [w|] eqn:E0; [|reflexivity]. exfalso. destruct (g_obj _ _ G i L _ w Hi E0) as [_ Hv].
        unfold val in Hv. replace (nth_error (heap s) (length (heap s))) with (@None cell) in Hv; [discriminate|]. symmetry. apply nth_error_None. lia.
    - destruct H as (Hh & v & Hv & HQ). destruct (holds_cell _ _ _ _ _ G Hi Hh) as (c & Hc & Hl & Hp).
      unfold a_get, live_cell. rewrite Hc, Hl. pose proof (lval_val _ _ _ _ _ _ G Hi Hv) as Hx. unfold val in Hx. rewrite Hc in Hx. injection Hx as ->.
      exists L. rewrite (upd_same _ _ _ Hi). auto.
    - destruct H as (Hh & Hn & v & Hv & HQ). destruct (holds_cell _ _ _ _ _ G Hi Hh) as (c & Hc & Hl & Hp).
      unfold write, live_cell, bind. rewrite Hc, Hl. unfold set_cell. eexists. split; [|split; [exact HQ|auto]].
      exact (step_set s Ls i L a c f v G Hi Hc Hn Hv).
  Qed.

  (** ** Data races *)
  Definition conflict {B C} (a : act B) (b : act C) : Prop :=
    exists l wi wj, footprint a = Some (l, wi) /\ footprint b = Some (l, wj) /\ wi || wj = true.
  Lemma conflict_sym {B C} (a : act B) (b : act C) : conflict a b -> conflict b a.
  Proof. intros (l & wi & wj & H1 & H2 & H3). exists l, wj, wi. rewrite orb_comm. auto. Qed.
  (** the accesses of an action: to its own variables, to variables it may see, to objects *)
  Lemma wpa_var {B} (a : act B) i L Q E h w : wpa i a L Q E -> footprint a = Some (LVar h, w) ->
    visible owner i h /\ (w = true -> mine owner i h).
  Proof.
    intros H Hf. destruct a; simpl in *; inversion Hf; subst; split; try (left; tauto); try tauto; try discriminate.
  Qed.
  Lemma wpa_obj {B} (a : act B) i L Q E x w : wpa i a L Q E -> footprint a = Some (LObj x, w) ->
    lkill L = Some x \/ holds i L x /\ (w = true -> n0 <= x /\ lobj L x <> None).
  Proof.
    intros H Hf. destruct a; simpl in *; inversion Hf; subst.
    - left. tauto.
    - right. split; [tauto|discriminate].
    - right. destruct H as (H1 & H2 & v & H3 & _). split; [exact H1|]. intros _. split; [exact H2|congruence].
  Qed.
  Lemma no_conflict {B C} (a : act B) (b : act C) s Ls i j L K Q E Q' E' : GI s Ls -> i <> j ->
    nth_error Ls i = Some L -> nth_error Ls j = Some K -> wpa i a L Q E -> wpa j b K Q' E' -> ~ conflict a b.
  Proof.
    intros G Hne Hi Hj Ha Hb (l & wi & wj & Hfa & Hfb & Hw). destruct l as [h|x].
    - destruct (wpa_var _ _ _ _ _ _ _ Ha Hfa) as [Va Ma], (wpa_var _ _ _ _ _ _ _ Hb Hfb) as [Vb Mb].
      unfold visible, mine in *. destruct wi; [specialize (Ma eq_refl); destruct Vb; congruence|].
      simpl in Hw. specialize (Mb Hw). destruct Va; congruence.
    - assert (X : forall i' L' j' K', nth_error Ls i' = Some L' -> nth_error Ls j' = Some K' -> lkill L' = Some x -> holds j' K' x -> False).
      { intros i' L' j' K' Hi' Hj' Hk Hh. destruct (g_kill _ _ G i' L' x Hi' Hk) as (c & Hc & H0).
        destruct (holds_cell _ _ _ _ _ G Hj' Hh) as (c' & Hc' & _ & Hp). replace c' with c in * by congruence. lia. }
      destruct (wpa_obj _ _ _ _ _ _ _ Ha Hfa) as [Ka|[Ha' Wa]], (wpa_obj _ _ _ _ _ _ _ Hb Hfb) as [Kb|[Hb' Wb]].
      + apply Hne. eapply (g_kill1 _ _ G); eassumption.
      + eapply X with (i' := i) (j' := j); eassumption.
      + eapply X with (i' := j) (j' := i); eassumption.
      + apply Hne. destruct wi.
        * destruct (Wa eq_refl) as [Hn Ho]. eapply (g_disj _ _ G i j L K x); try eassumption. eapply holds_obj; eassumption.
        * destruct (Wb Hw) as [Hn Ho]. eapply (g_disj _ _ G i j L K x); try eassumption. eapply holds_obj; eassumption.
  Qed.
End Logic.
