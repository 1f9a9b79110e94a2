(** UniqueProofs.v -- proofs for C158. *)
From Verif Require Import Base StreamModel StlioModel StlioSpec StlioProofs WordModel UniqueSpec.

Scheme shape_ind2 := Induction for shape Sort Prop with shapes_ind2 := Induction for shapes Sort Prop.
Combined Scheme shape_shapes_ind from shape_ind2, shapes_ind2.

Definition stops (r : text) : Prop := match r with [] => True | c :: _ => ends_item c = true end.
Lemma span_unique (p : ascii -> bool) a b r1 r2 :
  forallb p a = true -> forallb p b = true -> (match r1 with [] => True | c :: _ => p c = false end) -> (match r2 with [] => True | c :: _ => p c = false end) ->
  a ++ r1 = b ++ r2 -> a = b /\ r1 = r2.
Proof.
  revert b. induction a as [|x a IH]; intros [|y b]; cbn [app forallb]; intros Ha Hb H1 H2 E.
  - split; [reflexivity|exact E].
  - apply andb_true_iff in Hb as [Hb _]. subst r1. congruence.
  - apply andb_true_iff in Ha as [Ha _]. subst r2. congruence.
  - injection E as -> E. apply andb_true_iff in Ha as [_ Ha]. apply andb_true_iff in Hb as [_ Hb].
    destruct (IH b Ha Hb H1 H2 E) as [-> ->]. split; reflexivity.
Qed.
Lemma ends_not_digit c : ends_item c = true -> is_digit c = false.
Proof. unfold ends_item. repeat rewrite orb_true_iff. rewrite !Ascii.eqb_eq. intros [[[[[H|H]|H]|H]|H]|H]; subst c; reflexivity. Qed.
Lemma stops_digit r : stops r -> match r with [] => True | c :: _ => is_digit c = false end.
Proof. destruct r; [exact (fun _ => I)|]. apply ends_not_digit. Qed.
Lemma stops_string r : stops r -> match r with [] => True | c :: _ => negb (ends_item c) = false end.
Proof. destruct r; cbn; [exact (fun _ => I)|]. intros ->. reflexivity. Qed.

Lemma int_unique z1 z2 r1 r2 : stops r1 -> stops r2 -> int_text z1 ++ r1 = int_text z2 ++ r2 -> z1 = z2 /\ r1 = r2.
Proof.
  intros S1 S2 E. destruct (int_text_ok z1) as (g1 & d1 & E1 & N1 & D1 & V1). destruct (int_text_ok z2) as (g2 & d2 & E2 & N2 & D2 & V2).
  rewrite E1, E2, <- !app_assoc in E.
  assert (forall d, d <> [] -> forallb is_digit d = true -> exists c d', d = c :: d' /\ is_digit c = true) as Hd.
  { intros [|c d'] Hn Hf; [congruence|]. cbn in Hf. apply andb_true_iff in Hf as [Hf _]. eexists _, _. split; [reflexivity|exact Hf]. }
  destruct (Hd d1 N1 D1) as (c1 & e1 & F1 & G1). destruct (Hd d2 N2 D2) as (c2 & e2 & F2 & G2).
  destruct V1 as [[-> V1]|[-> V1]], V2 as [[-> V2]|[-> V2]]; cbn [app chars] in E.
  - destruct (span_unique is_digit d1 d2 r1 r2 D1 D2 (stops_digit _ S1) (stops_digit _ S2) E) as [-> ->]. split; [congruence|reflexivity].
  - exfalso. rewrite F1 in E. cbn in E. injection E as -> _. discriminate G1.
  - exfalso. rewrite F2 in E. cbn in E. injection E as E _. rewrite <- E in G2. discriminate G2.
  - cbn in E. injection E as E. destruct (span_unique is_digit d1 d2 r1 r2 D1 D2 (stops_digit _ S1) (stops_digit _ S2) E) as [-> ->]. split; [lia|reflexivity].
Qed.


(** printing appends something that begins with a character that does not end an item *)
Definition begins {T} (pr : T -> ostream -> ostream) (ok : T -> Prop) : Prop :=
  forall x o, ok x -> exists c t, o_text (pr x o) = o_text o ++ c :: t /\ ends_item c = false.
(** printing two values to the same stream tells them apart, whatever follows *)
Definition unique {T} (pr : T -> ostream -> ostream) (ok : T -> Prop) : Prop :=
  forall x y o r1 r2, ok x -> ok y -> stops r1 -> stops r2 -> o_text (pr x o) ++ r1 = o_text (pr y o) ++ r2 -> x = y /\ r1 = r2.
Lemma text_put t o : o_text (put_text t o) = o_text o ++ t.
Proof. reflexivity. Qed.

(** ** the loop of the operators of container.hpp *)
Section Loop.
  Context {T : Type} (pr : T -> ostream -> ostream) (ok : T -> Prop) (HU : unique pr ok) (HB : begins pr ok).
  Context (op sep : text) (sc cc : ascii) (cl : text) (Hs : ends_item sc = true) (Hc : ends_item cc = true) (Hne : sc <> cc).
  Lemma loop_appends l : Forall ok l -> forall o, exists t, o_text (snd (print_loop pr op (sc :: sep) false l o)) = o_text o ++ t /\ (l = [] /\ t = [] \/ l <> [] /\ exists t', t = sc :: t').
  Proof using HB.
    induction 1 as [|x l Hx Hl IH]; intros o.
    - exists []. split; [cbn; rewrite app_nil_r; reflexivity|left; split; reflexivity].
    - cbn [print_loop]. destruct (IH (pr x (put_text (sc :: sep) o))) as (t & Et & _). destruct (HB x (put_text (sc :: sep) o) Hx) as (c & u & Eu & _).
      eexists. split; [rewrite Et, Eu, text_put, <- !app_assoc; reflexivity|]. right. split; [discriminate|]. eexists. reflexivity.
  Qed.
  Lemma loop_unique l1 : Forall ok l1 -> forall l2 o r1 r2, Forall ok l2 ->
    o_text (snd (print_loop pr op (sc :: sep) false l1 o)) ++ (cc :: cl) ++ r1 = o_text (snd (print_loop pr op (sc :: sep) false l2 o)) ++ (cc :: cl) ++ r2 ->
    l1 = l2 /\ r1 = r2.
  Proof using HB HU Hs Hc Hne.
    induction 1 as [|x l1 Hx H1 IH]; intros [|y l2] o r1 r2 H2 E.
    - cbn [print_loop snd] in E. apply app_inv_head in E. apply app_inv_head in E. split; [reflexivity|exact E].
    - exfalso. destruct (loop_appends _ H2 o) as (t & Et & [[K _]|[_ (t' & ->)]]); [discriminate|]. rewrite Et in E. cbn [print_loop snd] in E.
      rewrite <- !app_assoc in E. apply app_inv_head in E. cbn in E. injection E as E _. congruence.
    - exfalso. destruct (loop_appends _ (Forall_cons x Hx H1) o) as (t & Et & [[K _]|[_ (t' & ->)]]); [discriminate|]. rewrite Et in E. cbn [print_loop snd] in E.
      rewrite <- !app_assoc in E. apply app_inv_head in E. cbn in E. injection E as E _. congruence.
    - inversion H2 as [|? ? Hy H2']; subst. cbn [print_loop] in E.
      pose proof E as E0. set (o1 := put_text (sc :: sep) o) in *.
      assert (forall z l r, Forall ok l -> exists r', o_text (snd (print_loop pr op (sc :: sep) false l (pr z o1))) ++ (cc :: cl) ++ r = o_text (pr z o1) ++ r' /\ stops r') as Hst.
      { intros z l r Hl. destruct (loop_appends l Hl (pr z o1)) as (t & -> & [[_ ->]|[_ (t' & ->)]]); eexists; (split; [rewrite <- app_assoc; reflexivity|]); cbn; assumption. }
      destruct (Hst x l1 r1 H1) as (q1 & F1 & S1). destruct (Hst y l2 r2 H2') as (q2 & F2 & S2). rewrite F1, F2 in E.
      destruct (HU x y o1 q1 q2 Hx Hy S1 S2 E) as [-> _]. destruct (IH l2 (pr y o1) r1 r2 H2' E0) as [-> ->]. split; reflexivity.
  Qed.
  Lemma with_unique op' : op' = op \/ (op = op' ++ [cc] /\ exists d u, cl = d :: u /\ ends_item d = true) ->
    forall l1 l2 o r1 r2, Forall ok l1 -> Forall ok l2 ->
    o_text (print_with pr op (sc :: sep) op' (cc :: cl) l1 o) ++ r1 = o_text (print_with pr op (sc :: sep) op' (cc :: cl) l2 o) ++ r2 -> l1 = l2 /\ r1 = r2.
  Proof using HB HU Hs Hc Hne.
    intros Hop l1 l2 o r1 r2 H1 H2. unfold print_with.
    assert (forall l o1, fst (print_loop pr op (sc :: sep) false l o1) = false) as Hf by (intros l; induction l; intros; cbn [print_loop fst]; auto).
    assert (forall x l r, ok x -> Forall ok l -> exists c t, ends_item c = false /\
      o_text (put_text (cc :: cl) (snd (print_loop pr op (sc :: sep) false l (pr x (put_text op o))))) ++ r = (o_text o ++ op) ++ c :: t) as Hne0.
    { intros x l r Hx Hl. destruct (loop_appends l Hl (pr x (put_text op o))) as (t & Et & _). destruct (HB x (put_text op o) Hx) as (c & u & Eu & Hcc).
      eexists c, _. split; [exact Hcc|]. rewrite text_put, Et, Eu, text_put, <- !app_assoc. reflexivity. }
    assert (forall x l r, ok x -> Forall ok l -> o_text (put_text (cc :: cl) (put_text op' o)) ++ r =
      o_text (put_text (cc :: cl) (snd (print_loop pr op (sc :: sep) false l (pr x (put_text op o))))) ++ r2 \/
      o_text (put_text (cc :: cl) (put_text op' o)) ++ r = o_text (put_text (cc :: cl) (snd (print_loop pr op (sc :: sep) false l (pr x (put_text op o))))) ++ r1 -> False) as Hmix.
    { intros x l r Hx Hl E.
      assert (exists q, o_text (put_text (cc :: cl) (put_text op' o)) ++ r = o_text (put_text (cc :: cl) (snd (print_loop pr op (sc :: sep) false l (pr x (put_text op o))))) ++ q) as [q Eq]
        by (destruct E; eexists; eassumption).
      destruct (Hne0 x l q Hx Hl) as (c & t & Hcc & Ec). rewrite Ec, !text_put, <- !app_assoc in Eq. apply app_inv_head in Eq.
      destruct Hop as [->|(-> & d & u & -> & Hd)].
      - apply app_inv_head in Eq. cbn in Eq. injection Eq as Eq _. congruence.
      - rewrite <- !app_assoc in Eq. apply app_inv_head in Eq. cbn in Eq. injection Eq as Eq _. congruence. }
    destruct l1 as [|x l1], l2 as [|y l2]; cbn [print_loop].
    - intros E. rewrite !text_put in E. apply app_inv_head in E. split; [reflexivity|exact E].
    - inversion H2; subst. specialize (Hf l2 (pr y (put_text op o))). destruct (print_loop pr op (sc :: sep) false l2 (pr y (put_text op o))) as [f o2] eqn:Eo. cbn in Hf. subst f.
      intros E. exfalso. apply (Hmix y l2 r1); try assumption. left. rewrite Eo. exact E.
    - inversion H1; subst. specialize (Hf l1 (pr x (put_text op o))). destruct (print_loop pr op (sc :: sep) false l1 (pr x (put_text op o))) as [f o2] eqn:Eo. cbn in Hf. subst f.
      intros E. exfalso. apply (Hmix x l1 r2); try assumption. right. rewrite Eo. symmetry. exact E.
    - inversion H1 as [|? ? Hx H1']; inversion H2 as [|? ? Hy H2']; subst.
      pose proof (Hf l1 (pr x (put_text op o))) as G1. pose proof (Hf l2 (pr y (put_text op o))) as G2.
      destruct (print_loop pr op (sc :: sep) false l1 (pr x (put_text op o))) as [f1 o1] eqn:E1. destruct (print_loop pr op (sc :: sep) false l2 (pr y (put_text op o))) as [f2 o2] eqn:E2.
      cbn in G1, G2. subst f1 f2. intros E. rewrite !text_put, <- !app_assoc in E.
      assert (forall z l r o', snd (print_loop pr op (sc :: sep) false l (pr z (put_text op o))) = o' -> Forall ok l ->
        exists r', o_text o' ++ (cc :: cl) ++ r = o_text (pr z (put_text op o)) ++ r' /\ stops r') as Hst.
      { intros z l r o' <- Hl. destruct (loop_appends l Hl (pr z (put_text op o))) as (t & -> & [[_ ->]|[_ (t' & ->)]]); eexists; (split; [rewrite <- app_assoc; reflexivity|]); cbn; assumption. }
      destruct (Hst x l1 r1 o1 ltac:(rewrite E1; reflexivity) H1') as (q1 & F1 & S1). destruct (Hst y l2 r2 o2 ltac:(rewrite E2; reflexivity) H2') as (q2 & F2 & S2).
      pose proof E as E0. rewrite F1, F2 in E. destruct (HU x y _ q1 q2 Hx Hy S1 S2 E) as [-> _].
      destruct (loop_unique l1 H1' l2 (pr y (put_text op o)) r1 r2 H2') as [-> ->]; [|split; reflexivity]. rewrite E1, E2. exact E0.
  Qed.
  Lemma with_begins op' c0 : (exists u, op = c0 :: u) -> (exists u, op' = c0 :: u) -> ends_item c0 = false ->
    forall l o, Forall ok l -> exists t, o_text (print_with pr op (sc :: sep) op' (cc :: cl) l o) = o_text o ++ c0 :: t.
  Proof using HB.
    intros [u ->] [u' ->] Hc0 l o Hl. unfold print_with. destruct Hl as [|x l Hx Hl]; cbn [print_loop].
    - eexists. rewrite !text_put, <- !app_assoc. reflexivity.
    - revert HB. intros HB. destruct (print_loop pr (c0 :: u) (sc :: sep) false l (pr x (put_text (c0 :: u) o))) as [f o2] eqn:Eo.
      assert (o_text o2 = o_text o ++ c0 :: skipn (S (length (o_text o))) (o_text o2)) as E2.
      { assert (forall l0, Forall ok l0 -> forall o0, exists t, o_text (snd (print_loop pr (c0 :: u) (sc :: sep) false l0 o0)) = o_text o0 ++ t) as Happ.
        { clear - HB. induction 1 as [|z l0 Hz Hl0 IH]; intros o0; [exists []; cbn; rewrite app_nil_r; reflexivity|]. cbn [print_loop].
          destruct (IH (pr z (put_text (sc :: sep) o0))) as (t & ->). destruct (HB z (put_text (sc :: sep) o0) Hz) as (c & v & -> & _).
          eexists. rewrite text_put, <- !app_assoc. reflexivity. }
        destruct (Happ l Hl (pr x (put_text (c0 :: u) o))) as (t & Et). destruct (HB x (put_text (c0 :: u) o) Hx) as (c & v & Ev & _).
        rewrite Eo in Et. cbn [snd] in Et. rewrite Ev, text_put, <- !app_assoc in Et. rewrite Et. f_equal.
        replace (S (length (o_text o))) with (length (o_text o) + 1) by lia. rewrite skipn_app, skipn_all2 by lia.
        replace (length (o_text o) + 1 - length (o_text o)) with 1 by lia. reflexivity. }
      destruct f; eexists; rewrite ?text_put; rewrite E2 at 1; rewrite <- !app_assoc; reflexivity.
  Qed.

  (** ** the loop of write_sequence *)
  Lemma write_appends l : Forall ok l -> forall o, exists t, o_text (write_loop pr sc l o) = o_text o ++ t /\
    (l = [] /\ t = [] \/ l <> [] /\ exists c t', t = c :: t' /\ ends_item c = false).
  Proof using HB.
    induction 1 as [|x l Hx Hl IH]; intros o.
    - exists []. split; [cbn; rewrite app_nil_r; reflexivity|left; split; reflexivity].
    - cbn [write_loop]. destruct (HB x o Hx) as (c & u & Eu & Hcu).
      destruct (IH (match l with [] => pr x o | _ => put_text [sc] (pr x o) end)) as (t & Et & _). rewrite Et.
      destruct l as [|y l]; eexists; (split; [rewrite ?text_put, Eu, <- ?app_assoc; reflexivity|]); right; (split; [discriminate|]); eexists _, _; (split; [reflexivity|exact Hcu]).
  Qed.
  Lemma write_unique l1 : Forall ok l1 -> forall l2 o r1 r2, Forall ok l2 ->
    o_text (write_loop pr sc l1 o) ++ (cc :: cl) ++ r1 = o_text (write_loop pr sc l2 o) ++ (cc :: cl) ++ r2 -> l1 = l2 /\ r1 = r2.
  Proof using HB HU Hs Hc Hne.
    induction 1 as [|x l1 Hx H1 IH]; intros [|y l2] o r1 r2 H2 E.
    - cbn [write_loop] in E. apply app_inv_head in E. apply app_inv_head in E. split; [reflexivity|exact E].
    - exfalso. destruct (write_appends _ H2 o) as (t & Et & [[K _]|[_ (c & t' & -> & Hct)]]); [discriminate|]. rewrite Et in E. cbn [write_loop] in E.
      rewrite <- !app_assoc in E. apply app_inv_head in E. cbn in E. injection E as E _. congruence.
    - exfalso. destruct (write_appends _ (Forall_cons x Hx H1) o) as (t & Et & [[K _]|[_ (c & t' & -> & Hct)]]); [discriminate|]. rewrite Et in E. cbn [write_loop] in E.
      rewrite <- !app_assoc in E. apply app_inv_head in E. cbn in E. injection E as E _. congruence.
    - inversion H2 as [|? ? Hy H2']; subst. cbn [write_loop] in E.
      assert (forall z l r, Forall ok l -> exists r', o_text (write_loop pr sc l (match l with [] => pr z o | _ => put_text [sc] (pr z o) end)) ++ (cc :: cl) ++ r = o_text (pr z o) ++ r' /\ stops r' /\
        (l = [] /\ r' = (cc :: cl) ++ r \/ l <> [] /\ exists q, r' = sc :: q)) as Hst.
      { intros z l r Hl. destruct l as [|w l].
        - eexists. split; [reflexivity|]. split; [exact Hc|left; split; reflexivity].
        - destruct (write_appends _ Hl (put_text [sc] (pr z o))) as (t & -> & _). eexists. rewrite text_put, <- !app_assoc. split; [reflexivity|]. split; [exact Hs|].
          right. split; [discriminate|]. eexists. reflexivity. }
      destruct (Hst x l1 r1 H1) as (q1 & F1 & S1 & D1). destruct (Hst y l2 r2 H2') as (q2 & F2 & S2 & D2). pose proof E as E0. rewrite F1, F2 in E.
      destruct (HU x y o q1 q2 Hx Hy S1 S2 E) as [-> Eq].
      destruct D1 as [[-> ->]|[N1 (w1 & ->)]], D2 as [[-> ->]|[N2 (w2 & ->)]].
      + apply app_inv_head in Eq. split; [reflexivity|exact Eq].
      + exfalso. cbn in Eq. injection Eq as Eq _. congruence.
      + exfalso. cbn in Eq. injection Eq as Eq _. congruence.
      + destruct l1 as [|u1 l1]; [congruence|]. destruct l2 as [|u2 l2]; [congruence|].
        destruct (IH (u2 :: l2) (put_text [sc] (pr y o)) r1 r2 H2' E0) as [-> ->]. split; reflexivity.
  Qed.
End Loop.

Lemma digit_not_end c : is_digit c = true -> ends_item c = false.
Proof. intros H. destruct (ends_item c) eqn:E; [|reflexivity]. rewrite (ends_not_digit c E) in H. discriminate. Qed.

(** ** words *)
Lemma bits_text w o : o_boolalpha o = false -> fold_left (fun o b => print_bool b o) w o = put_text (map bit_char w) o.
Proof.
  revert o. induction w as [|b w IH]; intros o Ho; cbn [fold_left map].
  - unfold put_text. rewrite app_nil_r. destruct o. reflexivity.
  - rewrite IH by (unfold print_bool; exact Ho). unfold print_bool, put_text. cbn. rewrite Ho, <- app_assoc. destruct b; reflexivity.
Qed.
Lemma word_text w o : o_text (print_word w o) = o_text o ++ match w with [] => chars "e" | _ => map bit_char w end.
Proof. destruct w as [|b w]; [reflexivity|]. unfold print_word. rewrite bits_text by reflexivity. reflexivity. Qed.
Lemma bits_digits w : forallb is_digit (map bit_char w) = true.
Proof. induction w as [|[] w IH]; cbn; auto. Qed.
Lemma bits_injective w : forall v, map bit_char w = map bit_char v -> w = v.
Proof. induction w as [|b w IH]; intros [|c v] E; try discriminate; [reflexivity|]. cbn in E. injection E as E1 E2. rewrite (IH v E2). destruct b, c; try discriminate; reflexivity. Qed.
Lemma word_unique (x y : word) r1 r2 : stops r1 -> stops r2 ->
  match x with [] => chars "e" | _ => map bit_char x end ++ r1 = match y with [] => chars "e" | _ => map bit_char y end ++ r2 -> x = y /\ r1 = r2.
Proof.
  intros S1 S2 E. destruct x as [|b x], y as [|c y].
  - apply app_inv_head in E. split; [reflexivity|exact E].
  - exfalso. cbn in E. injection E as E _. destruct c; discriminate E.
  - exfalso. cbn in E. injection E as E _. destruct b; discriminate E.
  - destruct (span_unique is_digit _ _ r1 r2 (bits_digits (b :: x)) (bits_digits (c :: y)) (stops_digit _ S1) (stops_digit _ S2) E) as [E1 ->].
    split; [exact (bits_injective _ _ E1)|reflexivity].
Qed.

(** ** tuples: write_tuple from the left *)
Fixpoint tuple_from (fs : list (ostream -> ostream)) (o : ostream) : ostream :=
  match fs with [] => o | f :: fs' => tuple_from fs' (f (put_text (chars ",") o)) end.
Lemma tuple_from_app fs f o : tuple_from (fs ++ [f]) o = f (put_text (chars ",") (tuple_from fs o)).
Proof. revert o. induction fs as [|g fs IH]; intros o; cbn [app tuple_from]; [reflexivity|]. apply IH. Qed.
Lemma write_tuple_take f fs m : m <= length fs -> forall o, write_tuple (f :: fs) (S m) o = Some (tuple_from (firstn m fs) (f o)).
Proof.
  induction m as [|m IH]; intros Hm o; [reflexivity|].
  change (write_tuple (f :: fs) (S (S m)) o) with
    (match write_tuple (f :: fs) (S m) o with Some o1 => option_map (fun g : ostream -> ostream => g (put_text (chars ",") o1)) (nth_error (f :: fs) (S m)) | None => None end).
  rewrite IH by lia. cbn [nth_error]. destruct (nth_error fs m) as [g|] eqn:Eg; [|apply nth_error_None in Eg; lia].
  cbn [option_map]. f_equal. rewrite <- tuple_from_app. f_equal.
  clear -Eg. revert m Eg. induction fs as [|h fs IH]; intros [|m] Eg; try discriminate; cbn in *; [injection Eg as ->; reflexivity|]. f_equal. apply IH, Eg.
Qed.
Lemma print_some_cons f fs o : print_some (f :: fs) o = put_text (chars ")") (tuple_from fs (f (put_text (chars "(") o))).
Proof.
  unfold print_some, print_tuple. cbn [length]. rewrite write_tuple_take by lia. rewrite firstn_all. reflexivity.
Qed.
(** the components of a tuple with commas between them *)
Fixpoint items (l : shapes) : vals l -> ostream -> ostream :=
  match l with POne a => print a | PMore a l => fun t o => items l (snd t) (put_text (chars ",") (print a (fst t) o)) end.
Lemma items_from l : forall t, exists f fs, printers l t = f :: fs /\ forall o, items l t o = tuple_from fs (f o).
Proof.
  induction l as [a|a l IH]; intros t; cbn [printers items].
  - eexists _, _. split; reflexivity.
  - destruct (IH (snd t)) as (f & fs & -> & E). eexists _, _. split; [reflexivity|]. intros o. rewrite E. reflexivity.
Qed.
Lemma tuple_items l t o : print (PTuple l) t o = put_text (chars ")") (items l t (put_text (chars "(") o)).
Proof. cbn [print]. destruct (items_from l t) as (f & fs & -> & E). rewrite print_some_cons, E. reflexivity. Qed.

(** ** every shape *)
Lemma text_begins : (forall s, begins (print s) (tidy s)) /\
  (forall l, begins (items l) (all_tidy l)).
Proof.
  apply shape_shapes_ind.
  - intros x o _. destruct (int_text_ok x) as (g & d & E & N & D & V). destruct d as [|c d]; [congruence|]. cbn in D. apply andb_true_iff in D as [D _].
    cbn [print]. unfold print_int. rewrite text_put, E. destruct V as [[-> _]|[-> _]]; cbn; eexists _, _; (split; [reflexivity|]); [apply digit_not_end; exact D|reflexivity].
  - intros x o _. cbn [print]. unfold print_bool. rewrite text_put. destruct (o_boolalpha o), x; cbn; eexists _, _; split; reflexivity.
  - intros x o Hx. destruct Hx as [N F]. destruct x as [|c t]; [congruence|]. cbn in F. apply andb_true_iff in F as [F _]. cbn [print]. unfold print_string. rewrite text_put.
    eexists _, _. split; [reflexivity|]. destruct (ends_item c); [discriminate|reflexivity].
  - intros x o _. cbn [print]. rewrite word_text. destruct x as [|[] x]; cbn; eexists _, _; split; reflexivity.
  - intros k s IH x o Hx. cbn [print tidy] in *. destruct k; cbn [print_seq]; unfold print_array, print_shared_array, print_vector, print_set, print_list.
    1,2,3: destruct (with_begins (print s) (tidy s) IH (chars "[") [] "," "]" [] (chars "[") "[" ltac:(eexists; reflexivity) ltac:(eexists; reflexivity) eq_refl x o Hx) as (t & Et);
      eexists _, _; (split; [exact Et|reflexivity]).
    + unfold write_sequence. destruct (write_appends (print s) (tidy s) IH "," x Hx (put_text ["["%char] o)) as (t & Et & _). eexists _, _. rewrite text_put, Et, text_put, <- !app_assoc. split; reflexivity.
    + destruct (with_begins (print s) (tidy s) IH (chars "{") [] "," "}" [] (chars "{") "{" ltac:(eexists; reflexivity) ltac:(eexists; reflexivity) eq_refl x o Hx) as (t & Et).
      eexists _, _. split; [exact Et|reflexivity].
  - intros k IHk v IHv x o Hx. cbn [print tidy] in *. unfold print_map.
    assert (begins (print_item (print k) (print v) (chars ":")) (fun e => tidy k (fst e) /\ tidy v (snd e))) as HB.
    { intros [a b] o1 [Ha Hb]. unfold print_item. cbn [fst snd] in *. destruct (IHk a o1 Ha) as (c & t & E & Hc).
      destruct (IHv b (put_text (chars ":") (print k a o1)) Hb) as (d & u & F & _). eexists _, _. rewrite F, text_put, E, <- !app_assoc. split; [reflexivity|exact Hc]. }
    destruct (with_begins _ _ HB (chars "{ ") (chars " ") "," " " (chars "}") (chars "{") "{" ltac:(eexists; reflexivity) ltac:(eexists; reflexivity) eq_refl x o Hx) as (t & Et).
    eexists _, _. split; [exact Et|reflexivity].
  - intros a IHa b IHb [x y] o [Hx Hy]. cbn [print tidy fst snd] in *. unfold print_pair. cbn [fst snd].
    destruct (IHa x (put_text (chars "(") o) Hx) as (c & t & E & _). destruct (IHb y (put_text (chars ",") (print a x (put_text (chars "(") o))) Hy) as (d & u & F & _).
    eexists _, _. rewrite text_put, F, text_put, E, text_put, <- !app_assoc. split; reflexivity.
  - intros l IH t o Ht. rewrite tuple_items. cbn [tidy] in *. destruct (IH t (put_text (chars "(") o) Ht) as (c & u & E & _).
    eexists _, _. rewrite text_put, E, text_put, <- !app_assoc. split; reflexivity.
  - intros a IH. exact IH.
  - intros a IHa l IHl [x t] o [Hx Ht]. cbn [items all_tidy fst snd] in *. destruct (IHa x o Hx) as (c & u & E & Hc).
    destruct (IHl t (put_text (chars ",") (print a x o)) Ht) as (d & v & F & _). eexists _, _. rewrite F, text_put, E, <- !app_assoc. split; [reflexivity|exact Hc].
Qed.
Lemma text_unique : (forall s, unique (print s) (tidy s)) /\ (forall l, unique (items l) (all_tidy l)).
Proof.
  destruct text_begins as [HB HBl]. apply shape_shapes_ind.
  - intros x y o r1 r2 _ _ S1 S2 E. cbn [print] in E. unfold print_int in E. rewrite !text_put, <- !app_assoc in E. apply app_inv_head in E. exact (int_unique x y r1 r2 S1 S2 E).
  - intros x y o r1 r2 _ _ S1 S2 E. cbn [print] in E. unfold print_bool in E. rewrite !text_put, <- !app_assoc in E. apply app_inv_head in E.
    destruct (o_boolalpha o), x, y; cbn in E; try discriminate; injection E as E; split; (reflexivity || exact E).
  - intros x y o r1 r2 [_ Hx] [_ Hy] S1 S2 E. cbn [print] in E. unfold print_string in E. rewrite !text_put, <- !app_assoc in E. apply app_inv_head in E.
    exact (span_unique (fun c => negb (ends_item c)) x y r1 r2 Hx Hy (stops_string _ S1) (stops_string _ S2) E).
  - intros x y o r1 r2 _ _ S1 S2 E. cbn [print] in E. rewrite !word_text, <- !app_assoc in E. apply app_inv_head in E. exact (word_unique x y r1 r2 S1 S2 E).
  - intros k s IH x y o r1 r2 Hx Hy S1 S2 E. cbn [print tidy] in *. destruct k; cbn [print_seq] in E; unfold print_array, print_shared_array, print_vector, print_set, print_list in E.
    1,2,3: refine (with_unique (print s) (tidy s) IH (HB s) (chars "[") [] "," "]" [] eq_refl eq_refl _ _ _ x y o r1 r2 Hx Hy E); [discriminate|left; reflexivity].
    + unfold write_sequence in E. rewrite !text_put, <- !app_assoc in E.
      refine (write_unique (print s) (tidy s) IH (HB s) "," "]" [] eq_refl eq_refl _ x Hx y _ r1 r2 Hy E). discriminate.
    + refine (with_unique (print s) (tidy s) IH (HB s) (chars "{") [] "," "}" [] eq_refl eq_refl _ _ _ x y o r1 r2 Hx Hy E); [discriminate|left; reflexivity].
  - intros k IHk v IHv x y o r1 r2 Hx Hy S1 S2 E. cbn [print tidy] in *. unfold print_map in E.
    set (item := print_item (print k) (print v) (chars ":")) in *.
    assert (begins item (fun e => tidy k (fst e) /\ tidy v (snd e))) as HBi.
    { intros [a b] o1 [Ha Hb]. unfold item, print_item. cbn [fst snd] in *. destruct (HB k a o1 Ha) as (c & t & E1 & Hc).
      destruct (HB v b (put_text (chars ":") (print k a o1)) Hb) as (d & u & F & _). eexists _, _. rewrite F, text_put, E1, <- !app_assoc. split; [reflexivity|exact Hc]. }
    assert (unique item (fun e => tidy k (fst e) /\ tidy v (snd e))) as HUi.
    { intros [k1 v1] [k2 v2] o1 q1 q2 [Hk1 Hv1] [Hk2 Hv2] Q1 Q2 F. unfold item, print_item in F. cbn [fst snd] in *. pose proof F as F0.
      destruct (HB v v1 (put_text (chars ":") (print k k1 o1)) Hv1) as (d1 & u1 & G1 & _). destruct (HB v v2 (put_text (chars ":") (print k k2 o1)) Hv2) as (d2 & u2 & G2 & _).
      rewrite G1, G2, !text_put, <- !app_assoc in F.
      destruct (IHk k1 k2 o1 _ _ Hk1 Hk2 (eq_refl : stops (chars ":" ++ _)) (eq_refl : stops (chars ":" ++ _)) F) as [-> _].
      destruct (IHv v1 v2 _ q1 q2 Hv1 Hv2 Q1 Q2 F0) as [-> ->]. split; reflexivity. }
    refine (with_unique item _ HUi HBi (chars "{ ") (chars " ") "," " " (chars "}") eq_refl eq_refl _ _ _ x y o r1 r2 Hx Hy E); [discriminate|].
    right. split; [reflexivity|]. eexists _, _. split; reflexivity.
  - intros a IHa b IHb [a1 b1] [a2 b2] o r1 r2 [Hx1 Hx2] [Hy1 Hy2] S1 S2 E. cbn [print tidy fst snd] in *. unfold print_pair in E. cbn [fst snd] in E.
    set (o1 := put_text (chars "(") o) in *. rewrite !text_put, <- !app_assoc in E. pose proof E as E0.
    destruct (HB b b1 (put_text (chars ",") (print a a1 o1)) Hx2) as (d1 & u1 & G1 & _). destruct (HB b b2 (put_text (chars ",") (print a a2 o1)) Hy2) as (d2 & u2 & G2 & _).
    rewrite G1, G2, !text_put, <- !app_assoc in E.
    destruct (IHa a1 a2 o1 _ _ Hx1 Hy1 (eq_refl : stops (chars "," ++ _)) (eq_refl : stops (chars "," ++ _)) E) as [-> _].
    destruct (IHb b1 b2 _ _ _ Hx2 Hy2 (eq_refl : stops (chars ")" ++ _)) (eq_refl : stops (chars ")" ++ _)) E0) as [-> E2]. apply app_inv_head in E2.
    split; [reflexivity|exact E2].
  - intros l IH x y o r1 r2 Hx Hy S1 S2 E. rewrite !tuple_items, !text_put, <- !app_assoc in E. cbn [tidy] in *.
    destruct (IH x y _ _ _ Hx Hy (eq_refl : stops (chars ")" ++ _)) (eq_refl : stops (chars ")" ++ _)) E) as [-> E2]. apply app_inv_head in E2. split; [reflexivity|exact E2].
  - intros a IH. exact IH.
  - intros a IHa l IHl [a1 t1] [a2 t2] o r1 r2 [Hx1 Hx2] [Hy1 Hy2] S1 S2 E. cbn [items all_tidy fst snd] in *. pose proof E as E0.
    destruct (HBl l t1 (put_text (chars ",") (print a a1 o)) Hx2) as (d1 & u1 & G1 & _). destruct (HBl l t2 (put_text (chars ",") (print a a2 o)) Hy2) as (d2 & u2 & G2 & _).
    rewrite G1, G2, !text_put, <- !app_assoc in E.
    destruct (IHa a1 a2 o _ _ Hx1 Hy1 (eq_refl : stops (chars "," ++ _)) (eq_refl : stops (chars "," ++ _)) E) as [-> _].
    destruct (IHl t1 t2 _ r1 r2 Hx2 Hy2 S1 S2 E0) as [-> ->]. split; reflexivity.
Qed.
Lemma no_strings_tidy : (forall s, no_strings s = true -> forall x, tidy s x) /\ (forall l, none_strings l = true -> forall t, all_tidy l t).
Proof.
  apply shape_shapes_ind; cbn [no_strings none_strings tidy all_tidy]; intros; try exact I; try discriminate; auto.
  - apply Forall_forall. intros e _. auto.
  - apply andb_true_iff in H1 as [H1 H2]. apply Forall_forall. intros e _. auto.
  - apply andb_true_iff in H1 as [H1 H2]. auto.
  - apply andb_true_iff in H1 as [H1 H2]. auto.
Qed.
Lemma print_unique s x y o : tidy s x -> tidy s y -> o_text (print s x o) = o_text (print s y o) -> x = y.
Proof. intros Hx Hy E. apply (proj1 text_unique s x y o [] [] Hx Hy I I). rewrite !app_nil_r. exact E. Qed.
Lemma print_unique_numbers s x y o : no_strings s = true -> o_text (print s x o) = o_text (print s y o) -> x = y.
Proof. intros H. apply print_unique; apply (proj1 no_strings_tidy), H. Qed.
(** one printed after the other, something that ends an item in between *)
Lemma print_sequence s x y o c o1 o2 : tidy s x -> tidy s y -> ends_item c = true ->
  o_text (put_text o1 (put_text [c] (print s x o))) = o_text (put_text o2 (put_text [c] (print s y o))) -> x = y /\ o1 = o2.
Proof.
  intros Hx Hy Hc E. rewrite !text_put, <- !app_assoc in E.
  destruct (proj1 text_unique s x y o ([c] ++ o1) ([c] ++ o2) Hx Hy Hc Hc E) as [-> F]. injection F as F. split; [reflexivity|exact F].
Qed.
Lemma strings_alike k : (forall a b o, print (PSeq k PStr) [a ++ chars "," ++ b] o = print (PSeq k PStr) [a; b] o) /\
  (forall o, print (PSeq k PStr) [[]] o = print (PSeq k PStr) [] o).
Proof.
  split; intros; destruct k; cbn [print print_seq]; unfold print_array, print_shared_array, print_vector, print_set, print_list, write_sequence, print_with, print_string, put_text; cbn;
    rewrite <- ?app_assoc; reflexivity.
Qed.
