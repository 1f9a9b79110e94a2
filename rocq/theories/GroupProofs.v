(** GroupProofs.v -- proofs about GroupModel.v. *)
From Verif Require Import Base StreamModel GroupModel GroupSpec.
From Coq Require Import Lia.

Scheme parses_mut := Induction for parses Sort Prop
  with parses_operand_mut := Induction for parses_operand Sort Prop.
Combined Scheme parses_both from parses_mut, parses_operand_mut.

Lemma prec_range b : 4 <= prec b <= 13. Proof. destruct b; cbn; lia. Qed.
Lemma quot_rem_unique x y q r : y <> 0%Z -> x = (q * y + r)%Z -> (Z.abs r < Z.abs y)%Z -> (0 <= r * x)%Z -> Z.quot x y = q /\ Z.rem x y = r.
Proof.
  intros Hy Hx Hr Hs. pose proof (Z.quot_rem' x y) as E. pose proof (Z.rem_bound_abs x y Hy) as B.
  pose proof (Z.rem_sign_mul x y Hy) as G. set (q' := Z.quot x y) in *. set (r' := Z.rem x y) in *. clearbody q' r'.
  assert (D : (y * (q' - q) = r - r')%Z) by lia.
  assert (N : (Z.abs (r - r') < Z.abs y)%Z).
  { destruct (Z.lt_trichotomy x 0) as [X|[X|X]].
    - assert (r <= 0)%Z by (clear - X Hs; nia). assert (r' <= 0)%Z by (clear - X G; nia). clear - B Hr H H0. lia.
    - assert (r = 0)%Z. { assert (Z.abs q * Z.abs y = Z.abs r)%Z by (rewrite <- Z.abs_mul; replace (q * y)%Z with (- r)%Z by lia; apply Z.abs_opp). 
      destruct (Z.eq_dec q 0) as [Q|Q]; [subst q; lia|]. assert (1 * Z.abs y <= Z.abs q * Z.abs y)%Z by (apply Z.mul_le_mono_nonneg_r; lia). lia. }
      lia.
    - assert (0 <= r)%Z by (clear - X Hs; nia). assert (0 <= r')%Z by (clear - X G; nia). clear - B Hr H H0. lia. }
  assert (Q : q' = q).
  { assert (A : (Z.abs y * Z.abs (q' - q) = Z.abs (r - r'))%Z) by (rewrite <- Z.abs_mul; now rewrite D).
    destruct (Z.eq_dec q' q) as [Q|Q]; [exact Q|]. assert (1 <= Z.abs (q' - q))%Z by lia.
    assert (Z.abs y * 1 <= Z.abs y * Z.abs (q' - q))%Z by (apply Z.mul_le_mono_nonneg_l; lia). lia. }
  split; [exact Q | subst q'; lia].
Qed.
Lemma levels b i : (exists p, nth_error productions i = Some p /\ In b p) <-> prec b + i = 13.
Proof.
  split.
  - intros (p & E & H). do 10 (destruct i as [|i]; [injection E as <-; cbn in H; decompose [or] H; try contradiction; subst b; reflexivity|]).
    destruct i; discriminate E.
  - intro H. destruct b; cbn [prec] in H;
      match type of H with ?n + i = 13 => assert (E : i = 13 - n) by lia; cbn in E end; subst i; eexists; (split; [reflexivity | cbn; tauto]).
Qed.
Lemma binop_and_or b : (b = OAnd \/ b = OOr) \/ (b <> OAnd /\ b <> OOr).
Proof. destruct b; auto; right; split; discriminate. Qed.
Lemma join_assoc c1 o c2 o' c3 : join (join c1 o c2) o' c3 = join c1 o (join c2 o' c3).
Proof. induction c1 as [a|a o1 c1 IH]; cbn; [reflexivity | now rewrite IH]. Qed.

(** ** the stack machine, one text at a time *)
(** the state after the operands and operators of [c] *)
Fixpoint run (c : chain) (st : stack) : stack * tree :=
  match c with
  | CLast a => (st, group_operand a)
  | CMore a o c' => let (st', cur) := settle (group_link o) st (group_operand a) in run c' ((cur, group_link o) :: st')
  end.
Lemma group_chain_run c st : group_chain c st = finish (fst (run c st)) (snd (run c st)).
Proof.
  revert st. induction c as [a|a o c IH]; intros st; cbn [group_chain run]; [reflexivity|].
  destruct (settle (group_link o) st (group_operand a)) as [st' cur]. apply IH.
Qed.
Lemma run_join c1 o c2 st :
  run (join c1 o c2) st =
  let (st1, cur1) := run c1 st in
  let (st', cur) := settle (group_link o) st1 cur1 in run c2 ((cur, group_link o) :: st').
Proof.
  revert st. induction c1 as [a|a o1 c1 IH]; intros st; cbn [join run]; [reflexivity|].
  destruct (settle (group_link o1) st (group_operand a)) as [st' cur]. apply IH.
Qed.

(** ** the machine finds the tree of the grammar *)
Definition top_below (n : nat) (st : stack) : Prop := match st with [] => True | (_, o) :: _ => rprec o < Nat.max n 4 end.
Definition all_at_least (n : nat) (st : stack) : Prop := forall l o, In (l, o) st -> n <= rprec o.
Lemma finish_app st st' cur : finish (st ++ st') cur = finish st' (finish st cur).
Proof. revert cur. induction st as [|[l o] st IH]; intros cur; cbn; [reflexivity | apply IH]. Qed.
Lemma settle_app o ext st cur :
  (forall l p, In (l, p) ext -> waits p o = false) ->
  match st with [] => True | (_, p) :: _ => waits p o = true end ->
  settle o (ext ++ st) cur = (st, finish ext cur).
Proof.
  intros H T. revert cur. induction ext as [|[l p] ext IH]; intros cur; cbn.
  - destruct st as [|[l p] st]; cbn; [reflexivity | now rewrite T].
  - rewrite (H l p (or_introl eq_refl)). apply IH. intros l' p' I. apply (H l' p'). now right.
Qed.
Lemma waits_bin p b : waits p (RBin b) = (rprec p <? prec b).
Proof. reflexivity. Qed.

Lemma machine_complete :
  (forall n c t, parses n c t -> forall st, top_below n st ->
     exists ext, fst (run c st) = ext ++ st /\ all_at_least n ext /\ finish ext (snd (run c st)) = t) /\
  (forall a t, parses_operand a t -> group_operand a = t).
Proof.
  apply parses_both.
  - intros a t _ IH st _. exists []. cbn. repeat split; [intros l o [] | exact IH].
  - intros n c t N _ IH st T.
    destruct (IH st) as (ext & E & A & F).
    { destruct st as [|[l o] st]; cbn in *; [exact I | lia]. }
    exists ext. repeat split; [exact E | | exact F]. intros l o I. specialize (A l o I). lia.
  - intros b c1 c2 t1 t2 _ IH1 _ IH2 st T. pose proof (prec_range b) as R.
    destruct (IH1 st T) as (ext1 & E1 & A1 & F1).
    rewrite run_join. destruct (run c1 st) as [st1 cur1]. cbn [fst snd] in E1, F1. subst st1.
    cbn [group_link]. rewrite settle_app.
    2:{ intros l p I. rewrite waits_bin. apply Nat.ltb_ge. exact (A1 l p I). }
    2:{ destruct st as [|[l p] st]; [exact I|]. cbn in T. rewrite waits_bin. apply Nat.ltb_lt. lia. }
    rewrite F1. destruct (IH2 ((t1, RBin b) :: st)) as (ext2 & E2 & A2 & F2); [cbn; lia|].
    exists (ext2 ++ [(t1, RBin b)]). repeat split.
    + rewrite E2, <- app_assoc. reflexivity.
    + intros l o I. apply in_app_or in I. destruct I as [I | [I | []]].
      * specialize (A2 l o I). lia.
      * injection I as <- <-. cbn. lia.
    + rewrite finish_app, F2. reflexivity.
  - intros c1 m c2 t1 tm t2 _ IH1 _ IHm _ IH2 st T.
    destruct (IH1 st) as (ext1 & E1 & A1 & F1).
    { destruct st as [|[l o] st]; cbn in *; [exact I | lia]. }
    destruct (IHm [] I) as (extm & Em & _ & Fm).
    rewrite run_join. destruct (run c1 st) as [st1 cur1]. cbn [fst snd] in E1, F1. subst st1.
    cbn [group_link]. replace (group_chain m []) with tm
      by (rewrite group_chain_run, Em, app_nil_r; symmetry; exact Fm).
    rewrite settle_app.
    2:{ intros l p I. cbn [waits]. apply Nat.leb_gt. specialize (A1 l p I). lia. }
    2:{ destruct st as [|[l p] st]; [exact I|]. cbn in T. cbn [waits]. apply Nat.leb_le. lia. }
    rewrite F1. destruct (IH2 ((t1, RCond tm) :: st)) as (ext2 & E2 & A2 & F2); [cbn; lia|].
    exists (ext2 ++ [(t1, RCond tm)]). repeat split.
    + rewrite E2, <- app_assoc. reflexivity.
    + intros l o I. apply in_app_or in I. destruct I as [I | [I | []]].
      * exact (A2 l o I).
      * injection I as <- <-. cbn. lia.
    + rewrite finish_app, F2. reflexivity.
  - reflexivity.
  - reflexivity.
  - reflexivity.
  - reflexivity.
  - intros c t _ IH. cbn [group_operand]. destruct (IH [] I) as (ext & E & _ & F).
    rewrite group_chain_run, E, app_nil_r. exact F.
  - intros c t _ IH. cbn [group_operand]. destruct (IH [] I) as (ext & E & _ & F).
    rewrite group_chain_run, E, app_nil_r. now rewrite F.
  - intros a t _ IH. cbn. now rewrite IH.
  - intros a t _ IH. cbn. now rewrite IH.
Qed.
Lemma reads_group c t : reads c t -> group c = t.
Proof.
  intros P. destruct (proj1 machine_complete 3 c t P [] I) as (ext & E & _ & F).
  unfold group. rewrite group_chain_run, E, app_nil_r. exact F.
Qed.

(** ** every text has a tree *)
Lemma parses_down n m c t : parses n c t -> 3 <= m <= n -> parses m c t.
Proof.
  intros P L. remember (n - m) as k eqn:K. revert m L K. induction k as [|k IH]; intros m L K.
  - replace m with n by lia. exact P.
  - apply P_tighter; [lia|]. apply IH; lia.
Qed.
(** a stack and a current tree stand for a text read so far: [pend st c] is the text of the waiting part *)
Definition left_level (o : opr) : nat := match o with RBin b => prec b | RCond _ => 4 end.
Definition right_level (o : opr) : nat := match o with RBin b => S (prec b) | RCond _ => 3 end.
Definition link_is (o : link) (r : opr) : Prop :=
  match o, r with LBin b, RBin b' => b = b' | LCond m, RCond t => parses 3 m t | _, _ => False end.
Lemma parses_apply o r c1 c2 t1 t2 :
  link_is o r -> parses (left_level r) c1 t1 -> parses (right_level r) c2 t2 -> parses (rprec r) (join c1 o c2) (apply_op r t1 t2).
Proof.
  destruct o as [b|m], r as [b'|tm]; cbn; try contradiction.
  - intros ->. apply P_bin.
  - intros Pm P1 P2. now apply P_cond.
Qed.
(** [read st c]: the stack is the reading of the text [c] that is left of the current operand *)
Inductive stacked : stack -> (chain -> chain) -> Prop :=
| S_nil : stacked [] (fun c => c)
| S_cons st f l r o cl : stacked st f -> link_is o r -> parses (left_level r) cl l ->
    match st with [] => True | (_, p) :: _ => right_level p <= rprec r end ->
    stacked ((l, r) :: st) (fun c => f (join cl o c)).
Definition need (st : stack) : nat := match st with [] => 3 | (_, p) :: _ => right_level p end.
Lemma rprec_range r : 3 <= rprec r <= 13. Proof. destruct r as [b|m]; cbn; [pose proof (prec_range b)|]; lia. Qed.
Lemma right_level_range r : 3 <= right_level r <= 14. Proof. destruct r as [b|m]; cbn; [pose proof (prec_range b)|]; lia. Qed.
Lemma waits_false p r : waits p r = false -> left_level r <= rprec p.
Proof.
  destruct r as [b|m]; cbn; intros W; [now apply Nat.ltb_ge in W | apply Nat.leb_gt in W; lia].
Qed.
Lemma waits_true p r : waits p r = true -> right_level p <= rprec r.
Proof.
  destruct r as [b|m]; cbn [waits rprec]; intros W.
  - apply Nat.ltb_lt in W. pose proof (prec_range b). destruct p as [b'|m']; cbn in *; lia.
  - apply Nat.leb_le in W. destruct p as [b'|m']; cbn in *; [pose proof (prec_range b') |]; lia.
Qed.
(** settling keeps the text; [cur] ends tight enough for the left of [r] *)
Lemma settle_sound r st f c cur n :
  stacked st f -> parses n c cur -> need st <= n -> left_level r <= n ->
  exists f' c', stacked (fst (settle r st cur)) f' /\
    (forall o d, f (join c o d) = f' (join c' o d)) /\
    parses (left_level r) c' (snd (settle r st cur)) /\
    match fst (settle r st cur) with [] => True | (_, p) :: _ => right_level p <= rprec r end.
Proof.
  intros S. revert c cur n. induction S as [|st f l p o cl S IH L P B]; intros c cur n Pc N R.
  - exists (fun c => c), c. cbn. split; [exact S_nil | split; [reflexivity | split; [|exact I]]].
    apply (parses_down n); [exact Pc|]. destruct r as [b|m]; cbn in *; [pose proof (prec_range b)|]; lia.
  - cbn [settle]. destruct (waits p r) eqn:W; cbn [fst snd].
    + exists (fun c => f (join cl o c)), c. split; [|split; [reflexivity | split]].
      * now apply S_cons.
      * apply (parses_down n); [exact Pc|]. destruct r as [b|m]; cbn in *; [pose proof (prec_range b)|]; lia.
      * now apply waits_true.
    + pose proof (rprec_range p) as Rp. cbn [need] in N.
      destruct (IH (join cl o c) (apply_op p l cur) (rprec p)) as (f' & c' & S' & E & P' & B').
      * apply parses_apply; [exact L | exact P|]. apply (parses_down n); [exact Pc|].
        pose proof (right_level_range p); lia.
      * destruct st as [|[l' p'] st]; cbn [need]; [lia | exact B].
      * now apply waits_false.
      * exists f', c'. split; [exact S' | split; [|split; [exact P' | exact B']]].
        intros o' d. rewrite <- E. now rewrite join_assoc.
Qed.
Lemma finish_sound st f c cur n :
  stacked st f -> parses n c cur -> need st <= n -> parses 3 (f c) (finish st cur).
Proof.
  intros S. revert c cur n. induction S as [|st f l p o cl S IH L P B]; intros c cur n Pc N.
  - cbn in *. now apply (parses_down n).
  - cbn [finish need] in *. apply (IH (join cl o c) _ (rprec p)).
    + apply parses_apply; [exact L | exact P|]. apply (parses_down n); [exact Pc|].
      pose proof (right_level_range p); lia.
    + destruct st as [|[l' p'] st]; cbn [need]; [pose proof (rprec_range p); lia | exact B].
Qed.
Scheme operand_mut := Induction for operand Sort Prop
  with chain_mut := Induction for chain Sort Prop
  with link_mut := Induction for link Sort Prop.
Combined Scheme text_mut from operand_mut, chain_mut, link_mut.
Lemma need_le st : need st <= 14.
Proof. destruct st as [|[l p] st]; cbn; [lia | apply right_level_range]. Qed.
Lemma machine_sound :
  (forall a, parses_operand a (group_operand a)) /\
  (forall c st f, stacked st f -> parses 3 (f c) (group_chain c st)) /\
  (forall o, link_is o (group_link o)).
Proof.
  apply text_mut.
  - intros z. constructor.
  - intros x. constructor.
  - intros t. constructor.
  - constructor.
  - intros c IH. cbn. constructor. exact (IH [] _ S_nil).
  - intros c IH. cbn. constructor. exact (IH [] _ S_nil).
  - intros a IH. cbn. now constructor.
  - intros a IH. cbn. now constructor.
  - intros a IH st f S. cbn [group_chain].
    apply (finish_sound st f (CLast a) (group_operand a) 14 S); [now constructor | apply need_le].
  - intros a IHa o IHo c IHc st f S. cbn [group_chain].
    assert (L : left_level (group_link o) <= 14) by (destruct (group_link o) as [b|m]; cbn; [pose proof (prec_range b)|]; lia).
    destruct (settle_sound (group_link o) st f (CLast a) (group_operand a) 14 S (P_operand _ _ IHa) (need_le st) L)
      as (f' & c' & S' & E & P' & B').
    destruct (settle (group_link o) st (group_operand a)) as [st' cur]. cbn [fst snd] in *.
    change (CMore a o c) with (join (CLast a) o c). rewrite E.
    exact (IHc ((cur, group_link o) :: st') _ (S_cons st' f' cur (group_link o) o c' S' IHo P' B')).
  - intros b. reflexivity.
  - intros m IH. cbn. exact (IH [] _ S_nil).
Qed.
Theorem grammar_sound : forall c t, reads c t <-> group c = t.
Proof.
  intros c t. split; [apply reads_group|]. intros <-. exact (proj1 (proj2 machine_sound) c [] _ S_nil).
Qed.

(** ** levels *)
Lemma at_least_join n c1 o c2 : at_least n (join c1 o c2) <-> at_least n c1 /\ n <= lprec o /\ at_least n c2.
Proof.
  induction c1 as [a|a o1 c1 IH]; cbn [join at_least]; unfold lprec in *; [|rewrite IH]; tauto.
Qed.
Lemma parses_up n c t : parses n c t -> forall m, 3 <= m <= 14 -> at_least m c -> parses m c t.
Proof.
  induction 1 as [a t P|n c t N P IH|b c1 c2 t1 t2 P1 IH1 P2 IH2|c1 mid c2 t1 tm t2 P1 IH1 Pm IHm P2 IH2]; intros m M A.
  - apply (parses_down 14); [now constructor | lia].
  - now apply IH.
  - apply at_least_join in A. cbn in A. apply (parses_down (prec b)); [now apply P_bin | lia].
  - apply at_least_join in A. cbn in A. apply (parses_down 3); [now apply P_cond | lia].
Qed.
Lemma at_level m c : 3 <= m <= 14 -> at_least m c -> parses m c (group c).
Proof. intros M A. apply (parses_up 3); [now apply grammar_sound | exact M | exact A]. Qed.
Lemma group_bin b c1 c2 : at_least (prec b) c1 -> at_least (S (prec b)) c2 ->
  group (join c1 (LBin b) c2) = TBin b (group c1) (group c2).
Proof.
  intros A1 A2. pose proof (prec_range b). apply grammar_sound. apply (parses_down (prec b)); [|lia].
  apply P_bin; apply at_level; (lia || assumption).
Qed.
Lemma group_cond c1 m c2 : at_least 4 c1 ->
  group (join c1 (LCond m) c2) = TCond (group c1) (group m) (group c2).
Proof.
  intros A1. apply grammar_sound. apply P_cond; [apply at_level; [lia | exact A1] | now apply grammar_sound | now apply grammar_sound].
Qed.
Lemma at_least_weaken n m c : m <= n -> at_least n c -> at_least m c.
Proof. intros L. induction c as [a|a o c IH]; cbn; [trivial|]. intros [H A]. split; [lia | now apply IH]. Qed.

Section Values.
  Context (pr : Z -> text) (env : nat -> Z).
  Local Notation has_value := (has_value pr env).
  Local Notation eval := (eval pr env).
  Lemma has_value_group c z : has_value c z -> typ (group c) = Some TyInt /\ forall s, eval (group c) s = Some (VInt z, s).
  Proof. intros (t & R & T & E). apply grammar_sound in R. subst t. now split. Qed.
  Lemma group_has_value c z : typ (group c) = Some TyInt -> (forall s, eval (group c) s = Some (VInt z, s)) -> has_value c z.
  Proof. intros T E. exists (group c). repeat split; [now apply grammar_sound | exact T | exact E]. Qed.
  Lemma int_value_of c z : has_value c z -> int_value pr env c = Some z.
  Proof. intros H. destruct (has_value_group _ _ H) as [T E]. unfold int_value. now rewrite T, E. Qed.

  Ltac known :=
    repeat match goal with
    | H : GroupSpec.has_value pr env ?c ?z |- _ =>
        let T := fresh "T" in let E := fresh "E" in destruct (has_value_group _ _ H) as [T E]; clear H
    end.
  Ltac go :=
    repeat progress (
      cbn [typ GroupModel.eval bindv arith arith_op truth apply_op];
      repeat match goal with
      | T : typ _ = _ |- _ => rewrite T
      | E : forall s, GroupModel.eval pr env _ s = _ |- _ => rewrite E
      end).

  Lemma error_value e x d : typ (group (join e (LBin OSub) x)) = Some TyInt ->
    (forall s, eval (group (join e (LBin OSub) x)) s = Some (VInt d, s)) ->
    int_value pr env (within_error e x) = Some (Z.abs d).
  Proof.
    intros T E. unfold int_value, within_error. change (group (CLast (AAbs ?c))) with (TAbs (group c)).
    cbn [typ GroupModel.eval]. now rewrite T, E.
  Qed.
  Lemma ok_value d tol z : typ (group (join (CLast (ANum d)) (LBin OLe) tol)) = Some TyInt ->
    (forall s, eval (group (join (CLast (ANum d)) (LBin OLe) tol)) s = Some (VInt z, s)) ->
    int_value pr env (within_ok d tol) = Some z.
  Proof.
    intros T E. unfold int_value, within_ok. change (group (CLast (APar ?c))) with (group c). now rewrite T, E.
  Qed.
  Lemma ok_plain d tol t : at_least 11 tol -> has_value tol t ->
    int_value pr env (within_ok d tol) = Some (b2z (d <=? t)%Z).
  Proof.
    intros A V. known. apply ok_value; rewrite group_bin by (exact I || exact A);
      change (group (CLast (ANum d))) with (TNum d); [|intros s]; go; reflexivity.
  Qed.
  Lemma b2z_true b : negb (b2z b =? 0)%Z = b. Proof. now destruct b. Qed.

  (** ** HELPER_TEST_WITHIN *)
  Theorem within_plain e x tol v1 v2 t :
    at_least 12 e -> at_least 13 x -> at_least 11 tol ->
    has_value e v1 -> has_value x v2 -> has_value tol t ->
    within_passes pr env e x tol = Some (within v1 v2 t).
  Proof.
    intros A1 A2 A3 V1 V2 V3. unfold within_passes.
    rewrite (error_value e x (v1 - v2)%Z).
    - rewrite (ok_plain _ tol t A3 V3), b2z_true. reflexivity.
    - known. rewrite group_bin by assumption. go. reflexivity.
    - intros s. known. rewrite group_bin by assumption. go. reflexivity.
  Qed.
  (** e - a - b *)
  Lemma group_minus_bin b e a c : prec b = 12 -> at_least 12 e -> at_least 13 a -> at_least 13 c ->
    group (join e (LBin OSub) (join a (LBin b) c)) = TBin b (TBin OSub (group e) (group a)) (group c).
  Proof.
    intros B A1 Aa Ac. rewrite <- join_assoc, group_bin.
    - now rewrite group_bin by assumption.
    - rewrite B. apply at_least_join. split; [exact A1 | split; [cbn; lia | now apply (at_least_weaken 13); [lia|]]].
    - now rewrite B.
  Qed.
  Lemma bin_value b a c va vc z : at_least (prec b) a -> at_least (S (prec b)) c -> b <> OAnd -> b <> OOr ->
    has_value a va -> has_value c vc -> arith_op b va vc = Some z -> has_value (join a (LBin b) c) z.
  Proof.
    intros Aa Ac N1 N2 Va Vc Z. apply group_has_value; [|intros s]; known; rewrite group_bin by assumption;
      destruct b; try contradiction; cbn [arith_op] in Z; go; try reflexivity;
      first [injection Z as <-; reflexivity | rewrite Z; reflexivity].
  Qed.
  Lemma says_b2z (P : Prop) b z : (b = true <-> P) -> says P z -> b2z b = z.
  Proof. intros E [[H ->]|[H ->]]; destruct b; cbn; try reflexivity; exfalso; [apply E in H; discriminate H | apply H, E; reflexivity]. Qed.
  Lemma op_arith b x y z : b <> OAnd -> b <> OOr -> op_value b x y z -> arith_op b x y = Some z.
  Proof.
    intros N1 N2 H. destruct b; try contradiction; cbn [op_value arith_op] in *.
    - now subst.
    - destruct H as (Hy & r & Hx & Hr & Hs). rewrite (proj2 (Z.eqb_neq y 0) Hy). f_equal.
      apply (quot_rem_unique x y z r Hy Hx Hr Hs).
    - destruct H as (Hy & q & Hx & Hr & Hs). rewrite (proj2 (Z.eqb_neq y 0) Hy). f_equal.
      apply (quot_rem_unique x y q z Hy Hx Hr Hs).
    - now subst.
    - f_equal. lia.
    - destruct H as [Hy ->]. rewrite (proj2 (Z.ltb_ge y 0) Hy). now rewrite Z.shiftl_mul_pow2.
    - destruct H as [Hy ->]. rewrite (proj2 (Z.ltb_ge y 0) Hy). now rewrite Z.shiftr_div_pow2.
    - f_equal. apply (says_b2z _ _ _ (Z.ltb_lt x y) H).
    - f_equal. apply (says_b2z _ _ _ (Z.leb_le x y) H).
    - f_equal. apply (says_b2z (x > y)%Z); [rewrite Z.ltb_lt; lia | exact H].
    - f_equal. apply (says_b2z (x >= y)%Z); [rewrite Z.leb_le; lia | exact H].
    - f_equal. apply (says_b2z _ _ _ (Z.eqb_eq x y) H).
    - f_equal. apply (says_b2z (x <> y)); [rewrite Bool.negb_true_iff; apply Z.eqb_neq | exact H].
    - f_equal. apply Z.bits_inj'. intros i Hi. now rewrite Z.land_spec, H.
    - f_equal. apply Z.bits_inj'. intros i Hi. now rewrite Z.lxor_spec, H.
    - f_equal. apply Z.bits_inj'. intros i Hi. now rewrite Z.lor_spec, H.
  Qed.
  Theorem values b a c va vc z : at_least (prec b) a -> at_least (S (prec b)) c ->
    has_value a va -> has_value c vc -> op_value b va vc z -> has_value (join a (LBin b) c) z.
  Proof.
    intros Aa Ac Va Vc H.
    destruct (binop_and_or b) as [[-> | ->]|[N1 N2]].
    - apply group_has_value; [|intros s]; known; rewrite group_bin by assumption; go; [reflexivity|].
      destruct H as [[[H1 H2] ->]|[H ->]].
      + apply Z.eqb_neq in H1, H2. rewrite H1. cbn [negb]. go. now rewrite H2.
      + destruct (va =? 0)%Z eqn:E1; cbn [negb]; [reflexivity|]. go. destruct (vc =? 0)%Z eqn:E2; [reflexivity|].
        apply Z.eqb_neq in E1, E2. now destruct H.
    - apply group_has_value; [|intros s]; known; rewrite group_bin by assumption; go; [reflexivity|].
      destruct H as [[H ->]|[H ->]].
      + destruct (va =? 0)%Z eqn:E1; cbn [negb]; [|reflexivity]. go. destruct (vc =? 0)%Z eqn:E2; [|reflexivity].
        apply Z.eqb_eq in E1, E2. destruct H; contradiction.
      + destruct (va =? 0)%Z eqn:E1; cbn [negb].
        * go. destruct (vc =? 0)%Z eqn:E2; [reflexivity|]. apply Z.eqb_neq in E2. destruct H. now right.
        * apply Z.eqb_neq in E1. destruct H. now left.
    - apply (bin_value b a c va vc z); try assumption. now apply op_arith.
  Qed.
  Theorem within_minus e a b tol v1 va vb t :
    at_least 12 e -> at_least 13 a -> at_least 13 b -> at_least 11 tol ->
    has_value e v1 -> has_value a va -> has_value b vb -> has_value tol t ->
    has_value (join a (LBin OSub) b) (va - vb) /\
    within_passes pr env e (join a (LBin OSub) b) tol = Some (within v1 (va + vb) t).
  Proof.
    intros A1 Aa Ab A3 V1 Va Vb V3. split.
    { apply (bin_value OSub a b va vb); try assumption; try discriminate; [|reflexivity].
      now apply (at_least_weaken 13); [cbn; lia|]. }
    unfold within_passes. rewrite (error_value _ _ (v1 - va - vb)%Z).
    - rewrite (ok_plain _ tol t A3 V3), b2z_true. unfold within. now replace (v1 - va - vb)%Z with (v1 - (va + vb))%Z by lia.
    - known. rewrite group_minus_bin by (reflexivity || assumption). go. reflexivity.
    - intros s. known. rewrite group_minus_bin by (reflexivity || assumption). go. reflexivity.
  Qed.
  Theorem within_plus e a b tol v1 va vb t :
    at_least 12 e -> at_least 13 a -> at_least 13 b -> at_least 11 tol ->
    has_value e v1 -> has_value a va -> has_value b vb -> has_value tol t ->
    has_value (join a (LBin OAdd) b) (va + vb) /\
    within_passes pr env e (join a (LBin OAdd) b) tol = Some (within v1 (va - vb) t).
  Proof.
    intros A1 Aa Ab A3 V1 Va Vb V3. split.
    { apply (bin_value OAdd a b va vb); try assumption; try discriminate; [|reflexivity].
      now apply (at_least_weaken 13); [cbn; lia|]. }
    unfold within_passes. rewrite (error_value _ _ (v1 - va + vb)%Z).
    - rewrite (ok_plain _ tol t A3 V3), b2z_true. unfold within. now replace (v1 - va + vb)%Z with (v1 - (va - vb))%Z by lia.
    - known. rewrite group_minus_bin by (reflexivity || assumption). go. reflexivity.
    - intros s. known. rewrite group_minus_bin by (reflexivity || assumption). go. reflexivity.
  Qed.
  Lemma cond_value c a b vc va vb : at_least 4 c -> has_value c vc -> has_value a va -> has_value b vb ->
    has_value (join c (LCond a) b) (if (vc =? 0)%Z then vb else va).
  Proof.
    intros A Vc Va Vb. apply group_has_value; [|intros s]; known; rewrite group_cond by assumption; go; [reflexivity|].
    now destruct (vc =? 0)%Z; cbn [negb].
  Qed.
  (** a tolerance c ? a : b *)
  Theorem within_cond_tolerance e x c a b v1 v2 vc va vb :
    at_least 12 e -> at_least 13 x -> at_least 11 c ->
    has_value e v1 -> has_value x v2 -> has_value c vc -> has_value a va -> has_value b vb ->
    has_value (join c (LCond a) b) (if (vc =? 0)%Z then vb else va) /\
    within_passes pr env e x (join c (LCond a) b) = Some (negb ((if within v1 v2 vc then va else vb) =? 0)%Z).
  Proof.
    intros A1 A2 Ac V1 V2 Vc Va Vb. split.
    { apply cond_value; try assumption. now apply (at_least_weaken 11); [lia|]. }
    unfold within_passes. rewrite (error_value e x (v1 - v2)%Z).
    - rewrite (ok_value _ _ (if within v1 v2 vc then va else vb)); [reflexivity | | intros s];
        rewrite <- join_assoc, group_cond
          by (apply at_least_join; split; [exact I | split; [cbn; lia | now apply (at_least_weaken 11); [lia|]]]);
        rewrite group_bin by (exact I || assumption); change (group (CLast (ANum ?d))) with (TNum d); known; go; [reflexivity|].
      unfold within. destruct (Z.abs (v1 - v2) <=? vc)%Z; cbn; now rewrite ?E, ?E0, ?E1.
    - known. rewrite group_bin by assumption. go. reflexivity.
    - intros s. known. rewrite group_bin by assumption. go. reflexivity.
  Qed.
  (** an expected value c ? a : b *)
  Theorem within_cond_expected e c a b tol v1 vc va vb t :
    at_least 12 e -> at_least 13 c -> at_least 11 tol ->
    has_value e v1 -> has_value c vc -> has_value a va -> has_value b vb -> has_value tol t ->
    has_value (join c (LCond a) b) (if (vc =? 0)%Z then vb else va) /\
    within_passes pr env e (join c (LCond a) b) tol = Some (within (if (v1 =? vc)%Z then vb else va) 0 t).
  Proof.
    intros A1 Ac A3 V1 Vc Va Vb V3. split.
    { apply cond_value; try assumption. now apply (at_least_weaken 13); [lia|]. }
    unfold within_passes. rewrite (error_value _ _ (if (v1 =? vc)%Z then vb else va)).
    - rewrite (ok_plain _ tol t A3 V3), b2z_true. unfold within. now rewrite Z.sub_0_r.
    - rewrite <- join_assoc, group_cond
        by (apply at_least_join; split; [now apply (at_least_weaken 12); [lia|] | split; [cbn; lia | now apply (at_least_weaken 13); [lia|]]]).
      rewrite group_bin by assumption. known. go. reflexivity.
    - intros s. rewrite <- join_assoc, group_cond
        by (apply at_least_join; split; [now apply (at_least_weaken 12); [lia|] | split; [cbn; lia | now apply (at_least_weaken 13); [lia|]]]).
      rewrite group_bin by assumption. known. go.
      destruct (Z.eqb_spec v1 vc) as [->|N]; [rewrite Z.sub_diag; cbn; now rewrite ?E, ?E0, ?E1, ?E2|].
      destruct (Z.eqb_spec (v1 - vc) 0) as [X|X]; [lia | cbn; now rewrite ?E, ?E0, ?E1, ?E2].
  Qed.

  (** ** messages *)
  Lemma at_least_inserted ts c : at_least 11 c -> at_least 11 (inserted c ts).
  Proof.
    revert c. induction ts as [|t ts IH]; intros c A; cbn [inserted]; [exact A|]. apply IH, at_least_join. cbn. repeat split; auto.
  Qed.
  Definition streams (c : chain) (s s' : text) : Prop :=
    at_least 11 c /\ typ (group c) = Some TyStream /\ eval (group c) s = Some (VStream, s').
  Lemma streams_text c s s' t : streams c s s' -> streams (join c (LBin OShl) (CLast (AStr t))) s (s' ++ t).
  Proof.
    intros (A & T & E). repeat split.
    - apply at_least_join. cbn. repeat split; auto.
    - rewrite group_bin by (exact I || exact A). cbn [typ]. rewrite T. reflexivity.
    - rewrite group_bin by (exact I || exact A). cbn [GroupModel.eval]. rewrite E. reflexivity.
  Qed.
  Lemma streams_int c s s' e v : streams c s s' -> at_least 12 e -> has_value e v -> streams (join c (LBin OShl) e) s (s' ++ pr v).
  Proof.
    intros (A & T & E) B V. destruct (has_value_group _ _ V) as [Te Ee]. repeat split.
    - apply at_least_join. cbn. repeat split; [exact A | lia | now apply (at_least_weaken 12); [lia|]].
    - rewrite group_bin by assumption. cbn [typ]. now rewrite T, Te.
    - rewrite group_bin by assumption. cbn [GroupModel.eval]. rewrite E. cbn [bindv]. now rewrite Ee.
  Qed.
  Lemma streams_inserted ts c s s' : streams c s s' -> streams (inserted c ts) s (s' ++ concat ts).
  Proof.
    revert c s'. induction ts as [|t ts IH]; intros c s' H; cbn [inserted concat]; [now rewrite app_nil_r|].
    rewrite app_assoc. apply IH. now apply streams_text.
  Qed.
  Lemma streams_into ts : streams (into_stream ts) [] (concat ts).
  Proof. apply (streams_inserted ts (CLast AStream) [] []). repeat split. Qed.
  Lemma write_streams c s' : streams c [] s' -> write pr env c = Written s'.
  Proof. intros (_ & T & E). unfold write. now rewrite T, E. Qed.

  Theorem equal_plain ts ne e1 e2 v1 v2 :
    at_least 12 e1 -> at_least 12 e2 -> has_value e1 v1 -> has_value e2 v2 ->
    write pr env (equal_message ts ne e1 e2) = Written (intended_message pr (concat ts) v1 ne v2).
  Proof.
    intros A1 A2 V1 V2. unfold equal_message, intended_message. rewrite !app_assoc. apply write_streams.
    apply streams_int; [|assumption|assumption]. apply streams_text. apply streams_int; [|assumption|assumption]. apply streams_into.
  Qed.
  Theorem error_plain ts e v : at_least 12 e -> has_value e v ->
    write pr env (error_message ts e) = Written (concat ts ++ pr v).
  Proof. intros A V. apply write_streams. apply streams_int; [apply streams_into | assumption | assumption]. Qed.

  (** the stream [c] is followed by p && q, p || q, p << q or p ? a : b *)
  Lemma loose_bin b c s p q : streams c [] s -> prec b < 11 -> at_least 12 p -> at_least 11 q ->
    group (join c (LBin OShl) (join p (LBin b) q)) = TBin b (group (join c (LBin OShl) p)) (group q).
  Proof.
    intros (A & _) B Ap Aq. rewrite <- join_assoc. apply group_bin.
    - apply at_least_join. repeat split.
      + apply (at_least_weaken 11); [lia | exact A].
      + cbn. lia.
      + apply (at_least_weaken 12); [lia | exact Ap].
    - apply (at_least_weaken 11); [lia | exact Aq].
  Qed.
  Lemma before_equal ts ne e1 v1 : at_least 12 e1 -> has_value e1 v1 ->
    streams (join (join (into_stream ts) (LBin OShl) e1) (LBin OShl) (CLast (AStr ne))) [] (concat ts ++ pr v1 ++ ne).
  Proof. intros A V. rewrite app_assoc. apply streams_text. now apply streams_int; [apply streams_into| |]. Qed.

  Lemma and_written c s p q vp vq : streams c [] s -> at_least 12 p -> at_least 11 q -> has_value p vp -> has_value q vq ->
    write pr env (join c (LBin OShl) (join p (LBin OAnd) q)) = Written (s ++ pr vp).
  Proof.
    intros H Ap Aq Vp Vq. destruct (streams_int _ _ _ _ _ H Ap Vp) as (_ & T & E). destruct (has_value_group _ _ Vq) as [Tq Eq].
    unfold write. rewrite (loose_bin OAnd c s p q H) by (cbn; (lia || assumption)).
    cbn [typ GroupModel.eval]. rewrite T, Tq, E. cbn [bindv truth]. rewrite Eq. reflexivity.
  Qed.
  Lemma or_written c s p q vp vq : streams c [] s -> at_least 12 p -> at_least 11 q -> has_value p vp -> has_value q vq ->
    write pr env (join c (LBin OShl) (join p (LBin OOr) q)) = Written (s ++ pr vp).
  Proof.
    intros H Ap Aq Vp Vq. destruct (streams_int _ _ _ _ _ H Ap Vp) as (_ & T & E). destruct (has_value_group _ _ Vq) as [Tq Eq].
    unfold write. rewrite (loose_bin OOr c s p q H) by (cbn; (lia || assumption)).
    cbn [typ GroupModel.eval]. rewrite T, Tq, E. reflexivity.
  Qed.
  Lemma shift_written c s p q vp vq : streams c [] s -> at_least 12 p -> at_least 12 q -> has_value p vp -> has_value q vq ->
    write pr env (join c (LBin OShl) (join p (LBin OShl) q)) = Written (s ++ pr vp ++ pr vq).
  Proof.
    intros H Ap Aq Vp Vq. rewrite <- join_assoc, app_assoc. apply write_streams. now repeat apply streams_int.
  Qed.
  Lemma cond_written c s p a b vp ta : streams c [] s -> at_least 12 p -> has_value p vp ->
    typ (group a) = Some ta -> typ (group b) = Some ta -> (exists v, forall s, eval (group a) s = Some (v, s)) ->
    write pr env (join c (LBin OShl) (join p (LCond a) b)) = Written (s ++ pr vp).
  Proof.
    intros H Ap Vp Ta Tb (v & Ea). destruct (streams_int _ _ _ _ _ H Ap Vp) as (A & T & E).
    unfold write. rewrite <- join_assoc, group_cond by (now apply (at_least_weaken 11); [lia|]).
    cbn [typ GroupModel.eval]. rewrite T, Ta, Tb, E. cbn [bindv truth]. rewrite Ea. now destruct ta.
  Qed.
  Lemma loose_not_compiling b c s p q vp vq : streams c [] s -> prec b < 11 -> b <> OAnd -> b <> OOr ->
    at_least 12 p -> at_least 11 q -> has_value p vp -> has_value q vq ->
    write pr env (join c (LBin OShl) (join p (LBin b) q)) = NoCompile.
  Proof.
    intros H B N1 N2 Ap Aq Vp Vq. destruct (streams_int _ _ _ _ _ H Ap Vp) as (_ & T & _).
    unfold write. rewrite (loose_bin b c s p q H) by assumption.
    destruct b; try contradiction; cbn in B; try lia; cbn [typ]; rewrite T; reflexivity.
  Qed.
  (** the first argument p o q, or p ? a : b, followed by a literal *)
  Lemma literal_after_int q ne e2 : at_least 12 q -> at_least 12 e2 -> typ (group q) = Some TyInt ->
    at_least 11 (join (join q (LBin OShl) (CLast (AStr ne))) (LBin OShl) e2) /\
    typ (group (join (join q (LBin OShl) (CLast (AStr ne))) (LBin OShl) e2)) = None.
  Proof.
    intros Aq A2 T.
    assert (A : at_least 11 (join q (LBin OShl) (CLast (AStr ne)))).
    { apply at_least_join. cbn. repeat split; [now apply (at_least_weaken 12); [lia|] | lia]. }
    split.
    - apply at_least_join. repeat split; [exact A | cbn; lia | now apply (at_least_weaken 12); [lia|]].
    - rewrite group_bin by assumption. rewrite group_bin by (exact I || now apply (at_least_weaken 12); [cbn; lia|]).
      change (group (CLast (AStr ne))) with (TStr ne). cbn [typ]. rewrite T. reflexivity.
  Qed.
  Lemma equal_first ts ne p o q e2 :
    equal_message ts ne (join p o q) e2 =
    join (join (into_stream ts) (LBin OShl) p) o (join (join q (LBin OShl) (CLast (AStr ne))) (LBin OShl) e2).
  Proof. unfold equal_message. now rewrite !join_assoc. Qed.
  Theorem first_loose b ts ne p q e2 vq : prec b < 11 -> at_least 12 p -> at_least 12 q -> at_least 12 e2 -> has_value q vq ->
    write pr env (equal_message ts ne (join p (LBin b) q) e2) = NoCompile.
  Proof.
    intros B Ap Aq A2 Vq. destruct (has_value_group _ _ Vq) as [Tq _].
    destruct (literal_after_int q ne e2 Aq A2 Tq) as [A T].
    destruct (streams_into ts) as (As & _). unfold write. rewrite equal_first, group_bin.
    - destruct b; cbn in B; try lia; cbn [typ]; rewrite T; unfold arith; destruct (typ (group (join (into_stream ts) _ p))) as [[]|]; reflexivity.
    - apply at_least_join. repeat split; [now apply (at_least_weaken 11); [lia|] | cbn; lia | now apply (at_least_weaken 12); [lia|]].
    - now apply (at_least_weaken 11); [lia|].
  Qed.
  Theorem first_cond ts ne p a q e2 vq : at_least 12 p -> at_least 12 q -> at_least 12 e2 -> has_value q vq ->
    write pr env (equal_message ts ne (join p (LCond a) q) e2) = NoCompile.
  Proof.
    intros Ap Aq A2 Vq. destruct (has_value_group _ _ Vq) as [Tq _].
    destruct (literal_after_int q ne e2 Aq A2 Tq) as [A T].
    destruct (streams_into ts) as (As & _). unfold write. rewrite equal_first, group_cond.
    - cbn [typ]. rewrite T. destruct (typ (group (join (into_stream ts) _ p))) as [[]|], (typ (group a)) as [[]|]; reflexivity.
    - apply at_least_join. repeat split; [now apply (at_least_weaken 11); [lia|] | cbn; lia | now apply (at_least_weaken 12); [lia|]].
  Qed.
  Theorem second_loose ts ne e1 v1 p q vp vq : at_least 12 e1 -> has_value e1 v1 ->
    at_least 12 p -> at_least 12 q -> has_value p vp -> has_value q vq ->
    let said := concat ts ++ pr v1 ++ ne in
    write pr env (equal_message ts ne e1 (join p (LBin OAnd) q)) = Written (said ++ pr vp) /\
    write pr env (equal_message ts ne e1 (join p (LBin OOr) q)) = Written (said ++ pr vp) /\
    write pr env (equal_message ts ne e1 (join p (LBin OShl) q)) = Written (said ++ pr vp ++ pr vq) /\
    (forall b, prec b < 11 -> b <> OAnd -> b <> OOr -> write pr env (equal_message ts ne e1 (join p (LBin b) q)) = NoCompile) /\
    (forall b vb, has_value b vb -> write pr env (equal_message ts ne e1 (join p (LCond q) b)) = Written (said ++ pr vp)).
  Proof.
    intros A1 V1 Ap Aq Vp Vq said. pose proof (before_equal ts ne e1 v1 A1 V1) as S.
    assert (Aq' : at_least 11 q) by (now apply (at_least_weaken 12); [lia|]).
    unfold equal_message. split; [|split; [|split; [|split]]].
    - now apply (and_written _ said p q vp vq).
    - now apply (or_written _ said p q vp vq).
    - now apply (shift_written _ said p q vp vq).
    - intros b B N1 N2. now apply (loose_not_compiling b _ said p q vp vq).
    - intros b vb Vb. destruct (has_value_group _ _ Vq) as [Tq Eq]. destruct (has_value_group _ _ Vb) as [Tb _].
      apply (cond_written _ said p q b vp TyInt); try assumption. now exists (VInt vq).
  Qed.
  (** a message chosen by a condition *)
  Theorem chosen_message ts p vp x y : at_least 12 p -> has_value p vp ->
    write pr env (error_message ts (join p (LCond (CLast (AStr x))) (CLast (AStr y)))) = Written (concat ts ++ pr vp).
  Proof.
    intros A V. apply (cond_written _ (concat ts) p _ _ vp TyText); try assumption; try reflexivity; [apply streams_into|].
    now exists (VText x).
  Qed.
  (** a message put together with << *)
  Lemma streams_parts ps c s s' xs : streams c s s' -> Forall2 (part_text pr env) ps xs ->
    streams (fold_left (fun c p => join c (LBin OShl) (part_chain p)) ps c) s (s' ++ concat xs).
  Proof.
    intros S F. revert c s' S. induction F as [|p x ps xs P F IH]; intros c s' S; cbn [fold_left concat]; [now rewrite app_nil_r|].
    rewrite app_assoc. apply IH. destruct p as [t|e]; cbn [part_chain part_text] in *.
    - subst x. now apply streams_text.
    - destruct P as (v & A & V & ->). now apply streams_int.
  Qed.
  Lemma join_parts ps c o d : join c o (fold_left (fun c p => join c (LBin OShl) (part_chain p)) ps d) =
    fold_left (fun c p => join c (LBin OShl) (part_chain p)) ps (join c o d).
  Proof. revert d. induction ps as [|p ps IH]; intros d; cbn [fold_left]; [reflexivity|]. now rewrite IH, join_assoc. Qed.
  Theorem parts_message ts p ps xs : Forall2 (part_text pr env) (p :: ps) xs ->
    write pr env (error_message ts (parts_chain p ps)) = Written (concat ts ++ concat xs).
  Proof.
    intros F. unfold error_message, parts_chain. rewrite join_parts. apply write_streams.
    exact (streams_parts (p :: ps) (into_stream ts) [] (concat ts) xs (streams_into ts) F).
  Qed.
End Values.
Lemma unary pr env a v : has_value pr env (CLast a) v ->
  has_value pr env (CLast (ANeg a)) (- v)%Z /\ (forall z, says (v = 0%Z) z -> has_value pr env (CLast (ANot a)) z).
Proof.
  intros (t & R & T & E). apply grammar_sound in R. cbn in R. split.
  - exists (TNeg t). split; [apply grammar_sound; cbn; now rewrite R|]. cbn. rewrite T. split; [reflexivity|]. intros s. now rewrite E.
  - intros z S. exists (TNot t). split; [apply grammar_sound; cbn; now rewrite R|]. cbn. rewrite T. split; [reflexivity|]. intros s. rewrite E. cbn.
    destruct S as [[-> ->]|[N ->]]; [reflexivity|]. destruct (Z.eqb_spec v 0); [contradiction|reflexivity].
Qed.
Lemma enclosed pr env c v : has_value pr env c v ->
  has_value pr env (CLast (APar c)) v /\ has_value pr env (CLast (AAbs c)) (Z.abs v).
Proof.
  intros (t & R & T & E). apply grammar_sound in R. unfold group in R. split.
  - exists t. split; [apply grammar_sound; exact R|]. split; [exact T|exact E].
  - exists (TAbs t). split; [apply grammar_sound; unfold group in *; cbn; now rewrite R|]. cbn. rewrite T. split; [reflexivity|]. intros s. now rewrite E.
Qed.
Lemma not_text pr env t : has_value pr env (CLast (ANot (AStr t))) 0%Z /\ has_value pr env (CLast (ANot AStream)) 0%Z.
Proof. split; (eexists; split; [apply grammar_sound; reflexivity|split; reflexivity]). Qed.
Lemma unary_values pr env a c t v w : has_value pr env (CLast a) v -> has_value pr env c w ->
  has_value pr env (CLast (ANeg a)) (- v)%Z /\ (forall z, says (v = 0%Z) z -> has_value pr env (CLast (ANot a)) z) /\
  has_value pr env (CLast (APar c)) w /\ has_value pr env (CLast (AAbs c)) (Z.abs w) /\
  has_value pr env (CLast (ANot (AStr t))) 0%Z /\ has_value pr env (CLast (ANot AStream)) 0%Z.
Proof.
  intros H1 H2. destruct (unary pr env a v H1), (enclosed pr env c w H2), (not_text pr env t). auto 10.
Qed.
