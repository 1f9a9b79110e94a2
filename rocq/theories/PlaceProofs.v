(** PlaceProofs.v -- lemmas for PlaceProps.v *)
From Verif Require Import Base ArgsModel PlaceModel PlaceSpec.
From Coq Require Import String.
Open Scope list_scope.
Open Scope nat_scope.
Notation len := Datatypes.length.

Lemma stmt_induction (P : stmt -> Prop) :
  P Empty -> (forall s, P (Plain s)) -> (forall l, Forall P l -> P (Block l)) -> (forall c t, P t -> P (If c t None)) ->
  (forall c t e, P t -> P e -> P (If c t (Some e))) -> forall s, P s.
Proof.
  intros H1 H2 H3 H4 H5. fix IH 1. intros [|s|l|c t [e|]].
  - exact H1.
  - apply H2.
  - apply H3. induction l; constructor; [apply IH|assumption].
  - apply H5; apply IH.
  - apply H4; apply IH.
Qed.
Lemma client_induction (P : client -> Prop) :
  (forall s, P (CPlain s)) -> (forall k semi, P (CMacro k semi)) -> (forall l, Forall P l -> P (CBlock l)) ->
  (forall c t, P t -> P (CIf c t None)) -> (forall c t e, P t -> P e -> P (CIf c t (Some e))) -> forall p, P p.
Proof.
  intros H1 H2 H3 H4 H5. fix IH 1. intros [s|k semi|l|c t [e|]].
  - apply H1.
  - apply H2.
  - apply H3. induction l; constructor; [apply IH|assumption].
  - apply H5; apply IH.
  - apply H4; apply IH.
Qed.

(** ** reading back what was printed *)
Fixpoint closed (s : stmt) : bool := match s with If _ _ None => false | If _ _ (Some e) => closed e | _ => true end.
Fixpoint nice (s : stmt) : Prop :=
  match s with
  | Block l => fold_right (fun s P => nice s /\ P) True l
  | If _ t e => nice t /\ match e with Some e => closed t = true /\ nice e | None => True end
  | _ => True
  end.
Lemma nice_list l : fold_right (fun s P => nice s /\ P) True l <-> Forall nice l.
Proof. induction l as [|s l IH]; cbn; split; intros H; [constructor|trivial|constructor; tauto|inversion H; tauto]. Qed.
Definition else_first (l : list tok) : bool := match l with KElse :: _ => true | _ => false end.
Lemma tokens_first s rest : else_first (tokens s ++ rest) = false.
Proof. destruct s; reflexivity. Qed.
Lemma tokens_positive s : 1 <= len (tokens s).
Proof. destruct s; cbn; lia. Qed.
Lemma tokens_list_first l rest : else_first rest = false -> else_first (flat_map tokens l ++ rest) = false.
Proof. destruct l as [|s l]; [auto|]. intros _. cbn. rewrite <- app_assoc. apply tokens_first. Qed.
Definition prepend (ss : list stmt) (r : read (list stmt)) : read (list stmt) :=
  match r with Got ss' r' => Got (ss ++ ss') r' | Bad => Bad | NoFuel => NoFuel end.
Definition stops (l : list tok) : bool := match l with [] | KClose :: _ => true | _ => false end.
Lemma parse_list_step n l : stops l = false ->
  parse_list (S n) l = match parse_stmt n l with
                       | Got s r => match parse_list n r with Got ss r' => Got (s :: ss) r' | Bad => Bad | NoFuel => NoFuel end
                       | Bad => Bad | NoFuel => NoFuel end.
Proof. destruct l as [|[] l]; cbn; intros H; try discriminate H; reflexivity. Qed.
Lemma tokens_stops s rest : stops (tokens s ++ rest) = false.
Proof. destruct s; reflexivity. Qed.

Definition reads (s : stmt) : Prop := nice s -> forall n rest, 2 * len (tokens s) <= n -> closed s = true \/ else_first rest = false ->
  parse_stmt n (tokens s ++ rest) = Got s rest.
Lemma reads_list ss : Forall reads ss -> Forall nice ss -> forall n rest, 2 * len (flat_map tokens ss) + 1 <= n -> else_first rest = false ->
  parse_list n (flat_map tokens ss ++ rest) = prepend ss (parse_list (n - len ss) rest).
Proof.
  induction ss as [|s ss IH]; intros HR HN n rest Hn He; inversion HR; inversion HN; subst.
  - cbn. rewrite Nat.sub_0_r. destruct (parse_list n rest); reflexivity.
  - cbn [flat_map] in *. rewrite app_length in Hn. pose proof (tokens_positive s). destruct n as [|n]; [lia|].
    rewrite <- app_assoc, parse_list_step by apply tokens_stops.
    rewrite H1; [|assumption|lia|right; now apply tokens_list_first].
    rewrite IH by (assumption || lia). cbn [len]. replace (S n - S (len ss)) with (n - len ss) by lia.
    destruct (parse_list (n - len ss) rest); reflexivity.
Qed.
Lemma flat_length ss : len ss <= len (flat_map tokens ss).
Proof. induction ss as [|s ss IH]; cbn; [lia|]. rewrite app_length. pose proof (tokens_positive s). lia. Qed.
Lemma reads_all s : reads s.
Proof.
  induction s as [|x|l IH|c t IHt|c t e IHt IHe] using stmt_induction; intros HN n rest Hn Hc.
  - cbn in Hn. destruct n; [lia|]. reflexivity.
  - cbn in Hn. destruct n; [lia|]. reflexivity.
  - cbn [tokens] in *. cbn [nice] in HN. apply nice_list in HN. cbn [len] in Hn. rewrite app_length in Hn. cbn [len] in Hn.
    destruct n as [|n]; [lia|]. cbn [app parse_stmt]. rewrite <- app_assoc. rewrite reads_list; [|assumption|assumption|lia|reflexivity].
    pose proof (flat_length l). cbn [app]. remember (n - len l) as k eqn:Ek. destruct k as [|k]; [lia|]. cbn [parse_list prepend]. now rewrite app_nil_r.
  - cbn [tokens nice] in *. rewrite app_nil_r in *. cbn [len] in Hn. destruct HN as [HN _]. destruct n as [|n]; [lia|]. cbn [app parse_stmt].
    destruct Hc as [Hc|Hc]; [discriminate Hc|]. rewrite IHt; [|assumption|lia|now right].
    destruct rest as [|[] rest]; try reflexivity. discriminate Hc.
  - cbn [tokens nice] in *. destruct HN as (HN & Ht & HNe). cbn [len] in Hn. rewrite app_length in Hn. cbn [len] in Hn.
    destruct n as [|n]; [lia|]. cbn [app parse_stmt]. rewrite <- app_assoc. rewrite IHt; [|assumption|lia|now left].
    cbn [app]. rewrite IHe; [reflexivity|assumption|lia|exact Hc].
Qed.
Lemma all_read ss : Forall reads ss.
Proof. apply Forall_forall. intros s _. apply reads_all. Qed.
Lemma parse_nice ss : Forall nice ss -> parse_body (flat_map tokens ss) = Body ss.
Proof.
  intros H. unfold parse_body. set (n := _ + 2). rewrite <- (app_nil_r (flat_map tokens ss)).
  rewrite reads_list; [|apply all_read|assumption|unfold n; lia|reflexivity].
  pose proof (flat_length ss). unfold n. remember (2 * len (flat_map tokens ss) + 2 - len ss) as k eqn:Ek. destruct k as [|k]; [lia|].
  cbn. now rewrite app_nil_r.
Qed.

(** ** what becomes of a client's statement *)
Definition semicolon (semi : bool) : list stmt := if semi then [Empty] else [].
Fixpoint flat (p : client) : stmt * list stmt :=
  match p with
  | CPlain s => (Plain s, [])
  | CMacro k semi => match replacement k with Some (s :: l) => (s, l ++ semicolon semi) | _ => (Empty, []) end
  | CBlock l => (Block (flat_map (fun p => fst (flat p) :: snd (flat p)) l), [])
  | CIf c t None => (If c (fst (flat t)) None, snd (flat t))
  | CIf c t (Some e) => (If c (fst (flat t)) (Some (fst (flat e))), snd (flat e))
  end.
Lemma replacement_cons k l : replacement k = Some l -> exists s l', l = s :: l' /\ closed s = true /\ nice s /\ Forall nice l'.
Proof.
  intros H. destruct k as [m|]; [destruct m|]; inversion H; subst; eexists _, _; (split; [reflexivity|]); repeat constructor.
Qed.
Lemma well_placed_weaken p : well_placed true p = true -> well_placed false p = true.
Proof.
  destruct p as [s|k semi|l|c t e]; cbn; auto. unfold single. destruct (replacement k) as [[|s [|]]|]; auto.
Qed.
Lemma branch_rest p : well_placed true p = true -> snd (flat p) = semicolon (ends_in_macro p).
Proof.
  induction p as [s|k semi|l IH|c t IHt|c t e IHt IHe] using client_induction; cbn; intros H.
  - reflexivity.
  - unfold single in H. destruct (replacement k) as [[|s [|]]|]; try discriminate H. reflexivity.
  - reflexivity.
  - rewrite andb_true_r in H. auto.
  - apply andb_prop in H as [_ H]. apply andb_prop in H as [_ H]. auto.
Qed.
Lemma branch_closed p : well_placed true p = true -> closed (fst (flat p)) = negb (ends_in_if p).
Proof.
  induction p as [s|k semi|l IH|c t IHt|c t e IHt IHe] using client_induction; cbn; intros H; try reflexivity.
  - unfold single in H. destruct (replacement k) as [[|s [|]]|] eqn:E; try discriminate H. apply replacement_cons in E as (s' & l' & E & Hc & _).
    inversion E; subst. exact Hc.
  - apply andb_prop in H as [_ H]. apply andb_prop in H as [_ H]. auto.
Qed.
Definition pieces (p : client) : list stmt := fst (flat p) :: snd (flat p).
Lemma flat_map_flat_map {A B C} (f : A -> list B) (g : B -> list C) l : flat_map g (flat_map f l) = flat_map (fun a => flat_map g (f a)) l.
Proof. induction l as [|a l IH]; cbn; [reflexivity|]. now rewrite flat_map_app, IH. Qed.
Lemma flat_tokens p : forall b, well_placed b p = true -> client_tokens p = flat_map tokens (pieces p).
Proof.
  induction p as [s|k semi|l IH|c t IHt|c t e IHt IHe] using client_induction; intros b H.
  - reflexivity.
  - unfold pieces. cbn [client_tokens flat]. destruct (replacement k) as [l|] eqn:E.
    + destruct (replacement_cons k l E) as (s & l' & -> & _). cbn [fst snd flat_map]. rewrite flat_map_app, <- app_assoc.
      destruct semi; reflexivity.
    + cbn in H. unfold single in H. rewrite E in H. destruct b; discriminate H.
  - unfold pieces. cbn [client_tokens flat fst snd flat_map tokens]. rewrite app_nil_r. do 2 f_equal. rewrite flat_map_flat_map.
    cbn in H. induction IH as [|p l Hp HF IHl]; [reflexivity|]. cbn in H. apply andb_prop in H as [H1 H2]. cbn [flat_map].
    rewrite (IHl H2), (Hp false H1). reflexivity.
  - cbn in H. rewrite andb_true_r in H. unfold pieces. cbn [client_tokens flat fst snd flat_map tokens]. rewrite (IHt true H). unfold pieces.
    cbn [flat_map app]. now rewrite !app_nil_r.
  - cbn in H. apply andb_prop in H as [Ht H]. apply andb_prop in H as [H He]. apply andb_prop in H as [Hm Hi].
    unfold pieces. cbn [client_tokens flat fst snd flat_map tokens]. rewrite (IHt true Ht), (IHe true He). unfold pieces. cbn [flat_map].
    rewrite (branch_rest t Ht). apply negb_true_iff in Hm. rewrite Hm. cbn [semicolon flat_map app]. rewrite app_nil_r, <- !app_assoc. reflexivity.
Qed.
Lemma semicolon_nice b : Forall nice (semicolon b).
Proof. destruct b; repeat constructor. Qed.
Lemma flat_nice p : forall b, well_placed b p = true -> Forall nice (pieces p).
Proof.
  induction p as [s|k semi|l IH|c t IHt|c t e IHt IHe] using client_induction; intros b H; unfold pieces; cbn [flat].
  - repeat constructor.
  - destruct (replacement k) as [l|] eqn:E; [|repeat constructor].
    destruct (replacement_cons k l E) as (s & l' & -> & _ & Hs & Hl). constructor; [exact Hs|]. apply Forall_app. split; [exact Hl|apply semicolon_nice].
  - cbn [fst snd]. constructor; [|constructor]. cbn [nice]. apply nice_list. cbn in H.
    induction IH as [|p l Hp HF IHl]; [constructor|]. cbn in H. apply andb_prop in H as [H1 H2]. cbn [flat_map].
    apply Forall_app. split; [exact (Hp false H1)|exact (IHl H2)].
  - cbn in H. rewrite andb_true_r in H. specialize (IHt true H). inversion IHt; subst. cbn [fst snd]. constructor; [cbn; tauto|assumption].
  - cbn in H. apply andb_prop in H as [Ht H]. apply andb_prop in H as [H He]. apply andb_prop in H as [Hm Hi].
    specialize (IHt true Ht). specialize (IHe true He). inversion IHt; inversion IHe; subst. cbn [fst snd]. constructor; [|assumption].
    cbn. rewrite (branch_closed t Ht). tauto.
Qed.
Lemma trace_semicolon v b : flat_map (trace v) (semicolon b) = [].
Proof. destruct b; reflexivity. Qed.
Lemma flat_trace v p : forall b, well_placed b p = true -> flat_map (trace v) (pieces p) = meaning v p.
Proof.
  induction p as [s|k semi|l IH|c t IHt|c t e IHt IHe] using client_induction; intros b H; unfold pieces; cbn [flat meaning].
  - reflexivity.
  - destruct (replacement k) as [l|] eqn:E; [|reflexivity].
    destruct (replacement_cons k l E) as (s & l' & -> & _). cbn [fst snd flat_map]. now rewrite flat_map_app, trace_semicolon, app_nil_r.
  - cbn [fst snd flat_map trace]. rewrite app_nil_r, flat_map_flat_map. cbn in H.
    induction IH as [|p l Hp HF IHl]; [reflexivity|]. cbn in H. apply andb_prop in H as [H1 H2].
    transitivity (flat_map (trace v) (pieces p) ++ flat_map (meaning v) l); [|rewrite (Hp false H1); reflexivity].
    rewrite <- (IHl H2). reflexivity.
  - cbn in H. rewrite andb_true_r in H. specialize (IHt true H). unfold pieces in IHt. cbn [fst snd flat_map trace] in *.
    rewrite (branch_rest t H), trace_semicolon, app_nil_r in *. now rewrite IHt.
  - cbn in H. apply andb_prop in H as [Ht H]. apply andb_prop in H as [H He]. apply andb_prop in H as [Hm Hi].
    specialize (IHt true Ht). specialize (IHe true He). unfold pieces in IHt, IHe. cbn [fst snd flat_map trace] in *.
    rewrite (branch_rest t Ht), trace_semicolon, app_nil_r in IHt. rewrite (branch_rest e He), trace_semicolon, app_nil_r in *.
    now rewrite IHt, IHe.
Qed.

(** ** functions *)
Lemma body_pieces ps : forallb (well_placed false) ps = true ->
  flat_map client_tokens ps = flat_map tokens (flat_map pieces ps) /\ Forall nice (flat_map pieces ps) /\
  forall v, flat_map (trace v) (flat_map pieces ps) = flat_map (meaning v) ps.
Proof.
  induction ps as [|p ps IH]; cbn; intros H; [repeat split; constructor|]. apply andb_prop in H as [H1 H2]. destruct (IH H2) as (E & N & T).
  split; [|split].
  - rewrite (flat_tokens p false H1), E. cbn. rewrite flat_map_app, <- app_assoc. reflexivity.
  - apply (proj2 (Forall_app nice (pieces p) (flat_map pieces ps))). split; [exact (flat_nice p false H1)|exact N].
  - intros v. rewrite <- (T v), <- (flat_trace v p false H1). cbn. rewrite flat_map_app, <- app_assoc. reflexivity.
Qed.
Lemma placed_means ps : forallb (well_placed false) ps = true ->
  exists l, parse_body (flat_map client_tokens ps) = Body l /\ forall v, flat_map (trace v) l = flat_map (meaning v) ps.
Proof.
  intros H. destruct (body_pieces ps H) as (E & N & T). exists (flat_map pieces ps). rewrite E. split; [now apply parse_nice|exact T].
Qed.
Lemma else_rejected before k l c e after : forallb (well_placed false) before = true -> replacement k = Some l ->
  parse_body (flat_map client_tokens (before ++ [CIf c (CMacro k true) (Some e)]) ++ after) = SyntaxError.
Proof.
  intros H E. destruct (body_pieces before H) as (Eb & N & _). destruct (replacement_cons k l E) as (s & l' & -> & Hc & Hs & Hl).
  assert (T : flat_map client_tokens (before ++ [CIf c (CMacro k true) (Some e)]) ++ after =
              flat_map tokens (flat_map pieces before ++ If c s None :: l') ++ KSemi :: KElse :: client_tokens e ++ after).
  { rewrite flat_map_app, Eb. cbn [flat_map client_tokens]. rewrite E. rewrite flat_map_app. cbn [flat_map tokens]. rewrite app_nil_r, <- !app_assoc.
    cbn [app]. rewrite <- !app_assoc. reflexivity. }
  unfold parse_body. set (n := _ + 2). assert (Hn : n = 2 * len (flat_map client_tokens (before ++ [CIf c (CMacro k true) (Some e)]) ++ after) + 2) by reflexivity.
  clearbody n. rewrite T in *. rewrite app_length in Hn. cbn [len] in Hn.
  set (ss := flat_map pieces before ++ If c s None :: l') in *.
  assert (HN : Forall nice ss).
  { apply Forall_app. split; [exact N|]. constructor; [cbn; tauto|exact Hl]. }
  rewrite reads_list; [|apply all_read|exact HN|lia|reflexivity].
  pose proof (flat_length ss). remember (n - len ss) as m eqn:Em. destruct m as [|[|[|m]]]; try lia. reflexivity.
Qed.
Lemma guard_ignored before k c s l semi : forallb (well_placed false) before = true -> replacement k = Some (s :: l) ->
  exists ss, parse_body (flat_map client_tokens (before ++ [CIf c (CMacro k semi) None])) = Body ss /\
  forall v, v c = false -> flat_map (trace v) ss = flat_map (meaning v) before ++ flat_map (trace v) l.
Proof.
  intros H E. destruct (body_pieces before H) as (Eb & N & T). destruct (replacement_cons k _ E) as (s' & l' & E' & Hc & Hs & Hl).
  inversion E'; subst s' l'. clear E'.
  exists (flat_map pieces before ++ If c s None :: l ++ semicolon semi). split.
  - replace (flat_map client_tokens (before ++ [CIf c (CMacro k semi) None]))
      with (flat_map tokens (flat_map pieces before ++ If c s None :: l ++ semicolon semi)).
    + apply parse_nice. apply Forall_app. split; [exact N|]. constructor; [cbn; tauto|]. apply Forall_app. split; [exact Hl|apply semicolon_nice].
    + rewrite !flat_map_app, Eb. cbn [flat_map client_tokens]. rewrite E. cbn [flat_map tokens]. rewrite flat_map_app, !app_nil_r.
      f_equal. f_equal. rewrite <- app_assoc. destruct semi; reflexivity.
  - intros v Hv. rewrite flat_map_app, T. cbn [flat_map trace]. rewrite Hv, flat_map_app, trace_semicolon, app_nil_r. reflexivity.
Qed.
Lemma construct_ignored k semi c v : In k (map Call [TEST_DECLARE; TEST_CONSTRUCT; TEST_DEFAULT_CONSTRUCT; TEST_NAMED_CONSTRUCT; TEST_ASSIGN_CONSTRUCT]) ->
  v c = false -> meaning v (CIf c (CMacro k semi) None) = [] /\
  exists ss, parse_body (client_tokens (CIf c (CMacro k semi) None)) = Body ss /\ flat_map (trace v) ss <> [].
Proof.
  intros Hk Hv. split; [cbn; now rewrite Hv|].
  destruct (replacement k) as [l|] eqn:E; [|exfalso; revert E; cbn in Hk; intuition (subst; discriminate)].
  destruct (replacement_cons k l E) as (s & l' & -> & _).
  destruct (guard_ignored [] k c s l' semi eq_refl E) as (ss & P & Tr). exists ss. split.
  - rewrite <- P. cbn [flat_map app]. now rewrite app_nil_r.
  - rewrite (Tr v Hv). cbn [flat_map app]. cbn in Hk. intuition (subst; inversion E; subst; cbn in *; discriminate).
Qed.
Lemma single_macros k : single k = true <->
  ~ In k (map Call [USING_CONSTRUCTORS; TEST_CATCH; DEPRECATED; WARN_ONCE;
                    TEST_DECLARE; TEST_CONSTRUCT; TEST_DEFAULT_CONSTRUCT; TEST_NAMED_CONSTRUCT; TEST_ASSIGN_CONSTRUCT]).
Proof.
  destruct k as [m|]; [destruct m|]; cbn; split; intros H; try reflexivity; try discriminate H; try (exfalso; apply H; tauto);
    intros X; repeat (destruct X as [X|X]; [discriminate X|]); exact X.
Qed.
