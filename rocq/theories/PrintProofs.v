(** PrintProofs.v -- lemmas for PrintProps.v *)
From Verif Require Import Base PrintModel PrintSpec.

Section Ind.
  Variable P : pty -> Prop.
  Hypothesis step : forall t, (forall u, In u (components t) -> P u) -> P t.
  Fixpoint pty_all (t : pty) : P t.
  Proof.
    apply step. destruct t; simpl; intros u H; try contradiction;
      try solve [destruct H as [<- | [<- | []]]; apply pty_all];
      try solve [destruct H as [<- | []]; apply pty_all].
    induction ts as [|t ts IH]; simpl in H; [contradiction|].
    destruct H as [<- | H]; [apply pty_all | exact (IH H)].
  Qed.
End Ind.

Lemma mentions_component : forall u t, In u (components t) -> mentions_helper u -> mentions_helper t.
Proof. intros u t H [s [Hs Hc]]. exists s. split; [eapply occurs_in; eauto | exact Hc]. Qed.

Lemma mentions_inv : forall t, mentions_helper t ->
  helper_class t \/ exists u, In u (components t) /\ mentions_helper u.
Proof.
  intros t [s [Hs Hc]]. inversion Hs as [|s' u t' Hu Ho]; subst; [left; exact Hc|].
  right. exists u. split; [exact Hu|]. exists s. split; assumption.
Qed.

Lemma assoc_mentions : forall t, assoc_helper t = true <-> mentions_helper t.
Proof.
  apply pty_all. intros t IH.
  assert (self : helper_class t -> mentions_helper t) by (intros H; exists t; split; [constructor | exact H]).
  destruct t; simpl in *;
    try (split; [intros _; apply self; exact I | reflexivity]).
  - split; [discriminate|]. intros H. destruct (mentions_inv _ H) as [[]|[u [[] _]]].
  - split.
    + intros ->. apply self. exact I.
    + intros H. destruct (mentions_inv _ H) as [Hc|[u [[] _]]]. simpl in Hc. destruct h; [reflexivity | contradiction].
  - rewrite (IH t (or_introl eq_refl)). split; intros H.
    + apply (mentions_component t); [left; reflexivity | exact H].
    + destruct (mentions_inv _ H) as [[]|[u [[<- | []] Hu]]]. exact Hu.
  - rewrite (IH t (or_introl eq_refl)). split; intros H.
    + apply (mentions_component t); [left; reflexivity | exact H].
    + destruct (mentions_inv _ H) as [[]|[u [[<- | []] Hu]]]. exact Hu.
  - rewrite (IH t (or_introl eq_refl)). split; intros H.
    + apply (mentions_component t); [left; reflexivity | exact H].
    + destruct (mentions_inv _ H) as [[]|[u [[<- | []] Hu]]]. exact Hu.
  - rewrite orb_true_iff, (IH t1 (or_introl eq_refl)), (IH t2 (or_intror (or_introl eq_refl))). split.
    + intros [H|H]; eapply mentions_component; try exact H; simpl; auto.
    + intros H. destruct (mentions_inv _ H) as [[]|[u [[<- | [<- | []]] Hu]]]; auto.
  - rewrite orb_true_iff, (IH t1 (or_introl eq_refl)), (IH t2 (or_intror (or_introl eq_refl))). split.
    + intros [H|H]; eapply mentions_component; try exact H; simpl; auto.
    + intros H. destruct (mentions_inv _ H) as [[]|[u [[<- | [<- | []]] Hu]]]; auto.
  - rewrite existsb_exists. split.
    + intros [u [Hu Ha]]. apply (mentions_component u); [exact Hu | apply IH; assumption].
    + intros H. destruct (mentions_inv _ H) as [[]|[u [Hu Hm]]]. exists u. split; [exact Hu | apply IH; assumption].
Qed.

(** the context in which the components of t are printed *)
Definition inner (t : pty) : context :=
  match t with
  | PArray _ => Body OpArray
  | PSharedArray _ => Body OpSharedArray
  | PVector _ | PList _ => Body OpVector
  | PStdSet _ | PSet _ => Body OpStdSet
  | PStdMap _ _ | PMap _ _ => Body OpStdMap
  | _ => StlioBody
  end.
Definition op_of (t : pty) : option op :=
  match t with
  | PArray _ => Some OpArray
  | PSharedArray _ => Some OpSharedArray
  | PVector _ | PList _ => Some OpVector
  | PStdList _ | PLinked _ => Some OpStdList
  | PStdSet _ | PSet _ => Some OpStdSet
  | PStdMap _ _ | PMap _ _ => Some OpStdMap
  | _ => None
  end.
Definition outer_ok (c : context) (t : pty) : Prop :=
  match op_of t with
  | Some o => found c o t = true
  | None => match t with PTuple ts => existsb assoc_helper ts = true | _ => True end
  end.

Lemma prints_step : forall c t,
  prints c t = true <-> outer_ok c t /\ forall u, In u (components t) -> prints (inner t) u = true.
Proof.
  intros c t. unfold outer_ok. destruct t; cbn [prints op_of components inner In];
    rewrite ?andb_true_iff; try (split; [intros _; split; [exact I | intros u []] | reflexivity]);
    try (split; [intros [H1 H2]; split; [exact H1 | intros u [<- | []]; exact H2]
                | intros [H1 H2]; split; [exact H1 | apply H2; left; reflexivity]]).
  - split.
    + intros [H1 [H2 H3]]. split; [exact H1|]. intros u [<- | [<- | []]]; assumption.
    + intros [H1 H2]. split; [exact H1|]. split; apply H2; auto.
  - split.
    + intros [H1 [H2 H3]]. split; [exact H1|]. intros u [<- | [<- | []]]; assumption.
    + intros [H1 H2]. split; [exact H1|]. split; apply H2; auto.
  - split.
    + intros [H1 H2]. split; [exact I|]. intros u [<- | [<- | []]]; assumption.
    + intros [_ H]. split; apply H; auto.
  - rewrite forallb_forall. destruct ts as [|t ts]; [|reflexivity].
    split; [intros [H _]; discriminate | intros [H _]; discriminate].
Qed.

(** what the specification asks of the place of t in the context c *)
Definition place_ok (c : context) (t : pty) : Prop :=
  std_container t -> mentions_helper t \/ (exists o, op_of t = Some o /\ sees c o = true).

Lemma outer_place : forall c t,
  outer_ok c t <-> place_ok c t /\ (forall ts, t = PTuple ts -> exists u, In u ts /\ mentions_helper u).
Proof.
  intros c t. unfold outer_ok, place_ok.
  assert (own : helper_class t -> assoc_helper t = true).
  { intros H. apply assoc_mentions. exists t. split; [constructor | exact H]. }
  destruct t; cbn [op_of std_container helper_class] in *; unfold found;
    try (split; [intros _; split; [intros [] | intros ts' E; discriminate E]
                |intros _; try exact I; rewrite own by exact I; apply orb_true_r]);
    try (rewrite orb_true_iff, assoc_mentions; split;
         [ intros H; split; [intros _; destruct H as [H|H]; [right; eexists; split; [reflexivity | exact H] | left; exact H]
                            | intros ts' E; discriminate E]
         | intros [H _]; destruct (H I) as [Hm | [o [E Hs]]]; [right; exact Hm | injection E as <-; left; exact Hs]]).
  rewrite existsb_exists. split.
  - intros [u [Hu Ha]]. split; [intros [] |]. intros ts' E. injection E as <-. exists u. split; [exact Hu | apply assoc_mentions; exact Ha].
  - intros [_ H]. destruct (H ts eq_refl) as [u [Hu Hm]]. exists u. split; [exact Hu | apply assoc_mentions; exact Hm].
Qed.

Lemma inner_sees : forall p s, std_container s ->
  ((exists o, op_of s = Some o /\ sees (inner p) o = true) <-> may_hold p s).
Proof.
  intros p s H. destruct s; try contradiction; cbn [op_of];
    destruct p; cbn [inner sees may_hold op_number Nat.leb]; split;
    solve [ intros [o [E Hs]]; injection E as <-; first [discriminate Hs | exact I]
          | intros []
          | intros _; eexists; split; [reflexivity | reflexivity] ].
Qed.

Definition tuples_ok (t : pty) : Prop :=
  forall ts, occurs (PTuple ts) t -> exists u, In u ts /\ mentions_helper u.
Definition places_ok (t : pty) : Prop :=
  forall p s, occurs p t -> In s (components p) -> std_container s -> mentions_helper s \/ may_hold p s.

Lemma prints_exact : forall t c, prints c t = true <-> place_ok c t /\ tuples_ok t /\ places_ok t.
Proof.
  apply (pty_all (fun t => forall c, prints c t = true <-> place_ok c t /\ tuples_ok t /\ places_ok t)).
  intros t IH c. rewrite prints_step, outer_place. split.
  - intros [[Hp Ht] Hc].
    assert (Hall : forall u, In u (components t) -> place_ok (inner t) u /\ tuples_ok u /\ places_ok u).
    { intros u Hu. apply (IH u Hu). apply Hc. exact Hu. }
    split; [exact Hp|]. split.
    + intros ts H. inversion H as [|s' u t' Hu Ho]; subst; [apply Ht; reflexivity|].
      exact (proj1 (proj2 (Hall u Hu)) ts Ho).
    + intros p s H Hs Hstd. inversion H as [|s' u t' Hu Ho]; subst.
      * destruct (proj1 (Hall s Hs) Hstd) as [Hm | He]; [left; exact Hm | right; apply inner_sees; assumption].
      * exact (proj2 (proj2 (Hall u Hu)) p s Ho Hs Hstd).
  - intros [Hp [Ht Hs]]. split; [split; [exact Hp|]|].
    + intros ts ->. apply Ht. constructor.
    + intros u Hu. apply (IH u Hu). split; [|split].
      * intros Hstd. destruct (Hs t u (occurs_self t) Hu Hstd) as [Hm | Hh]; [left; exact Hm | right; apply inner_sees; assumption].
      * intros ts Ho. apply Ht. eapply occurs_in; eauto.
      * intros p s Ho Hin Hstd. apply (Hs p s); [eapply occurs_in; eauto | exact Hin | exact Hstd].
Qed.

Lemma place_all : forall t, place_ok (Client true) t.
Proof.
  intros t H. right. destruct t; try contradiction; eexists; split; reflexivity.
Qed.
Lemma place_none : forall t, place_ok (Client false) t <-> (std_container t -> mentions_helper t).
Proof.
  intros t. unfold place_ok. split; intros H Hstd.
  - destruct (H Hstd) as [Hm | [o [_ Hs]]]; [exact Hm | discriminate Hs].
  - left. exact (H Hstd).
Qed.

Lemma client_prints : forall t,
  prints (Client true) t = true <->
  (forall ts, occurs (PTuple ts) t -> exists u, In u ts /\ mentions_helper u) /\
  (forall p s, occurs p t -> In s (components p) -> std_container s -> mentions_helper s \/ may_hold p s).
Proof.
  intros t. rewrite prints_exact. split; [intros [_ H]; exact H | intros H; split; [apply place_all | exact H]].
Qed.
Lemma client_prints_unseen : forall t,
  prints (Client false) t = true <-> prints (Client true) t = true /\ (std_container t -> mentions_helper t).
Proof.
  intros t. rewrite client_prints, prints_exact, place_none. unfold tuples_ok, places_ok. tauto.
Qed.

Lemma helper_containers_print : forall t sees_helper,
  (forall s, occurs s t -> ~ std_container s /\ (forall ts, s <> PTuple ts)) -> prints (Client sees_helper) t = true.
Proof.
  intros t b H. apply prints_exact. split; [|split].
  - intros Hstd. exfalso. exact (proj1 (H t (occurs_self t)) Hstd).
  - intros ts Ho. exfalso. exact (proj2 (H _ Ho) ts eq_refl).
  - intros p s Hp Hin Hstd. exfalso. refine (proj1 (H s _) Hstd).
    clear - Hp Hin. induction Hp as [t|p u t Hu Ho IH]; [eapply occurs_in; [exact Hin | constructor]|].
    eapply occurs_in; [exact Hu | exact (IH Hin)].
Qed.

Lemma plain_tuple_fails : forall c ts, (forall u, In u ts -> ~ mentions_helper u) -> prints c (PTuple ts) = false.
Proof.
  intros c ts H. destruct (prints c (PTuple ts)) eqn:E; [|reflexivity].
  apply prints_exact in E. destruct (proj1 (proj2 E) ts (occurs_self _)) as [u [Hu Hm]]. destruct (H u Hu Hm).
Qed.
Lemma misplaced_fails : forall c p s,
  In s (components p) -> std_container s -> ~ mentions_helper s -> ~ may_hold p s -> prints c p = false.
Proof.
  intros c p s Hin Hstd Hm Hh. destruct (prints c p) eqn:E; [|reflexivity].
  apply prints_exact in E. destruct (proj2 (proj2 E) p s (occurs_self _) Hin Hstd); contradiction.
Qed.
