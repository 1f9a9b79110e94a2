(** StringProofs.v -- proofs about StringModel. *)
From Verif Require Import Base StreamModel StlioModel StlioSpec StlioProofs WordModel WordSpec WordProofs StringModel StringSpec.
From Coq Require Import Lia.

(** ** Printing *)
Fixpoint alpha_after (a : bool) (ps : list piece) : bool :=
  match ps with
  | [] => a
  | Bits (_ :: _) :: ps' => alpha_after true ps'
  | _ :: ps' => alpha_after a ps'
  end.
Definition emits (f : ostream -> ostream) (ps : list piece) : Prop :=
  forall o, f o = mkO (o_text o ++ text_of (o_boolalpha o) ps) (alpha_after (o_boolalpha o) ps).

Lemma text_of_app : forall ps qs a, text_of a (ps ++ qs) = text_of a ps ++ text_of (alpha_after a ps) qs.
Proof.
  induction ps as [|[t|b|[|c w]] ps IH]; intros qs a; cbn [app text_of alpha_after]; try rewrite IH; rewrite ?app_assoc; reflexivity.
Qed.
Lemma alpha_after_app : forall ps qs a, alpha_after a (ps ++ qs) = alpha_after (alpha_after a ps) qs.
Proof. induction ps as [|[t|b|[|c w]] ps IH]; intros qs a; cbn [app alpha_after]; try rewrite IH; reflexivity. Qed.
Lemma emits_seq : forall f g ps qs, emits f ps -> emits g qs -> emits (fun o => g (f o)) (ps ++ qs).
Proof.
  intros f g ps qs Hf Hg o. rewrite Hg, Hf. cbn [o_text o_boolalpha]. rewrite text_of_app, alpha_after_app, app_assoc. reflexivity.
Qed.
Lemma emits_text : forall t, emits (put_text t) [Chars t].
Proof. intros t o. cbn. rewrite app_nil_r. reflexivity. Qed.
Lemma emits_word : forall w, emits (print_word w) [Bits w].
Proof.
  intros w o. rewrite print_word_text. destruct w as [|b w]; cbn [text_of alpha_after]; [reflexivity|].
  rewrite app_nil_r. f_equal.
Qed.
Lemma emits_nil : forall f, emits f [] -> forall o, f o = o.
Proof. intros f H o. rewrite H. cbn. rewrite app_nil_r. destruct o. reflexivity. Qed.
Lemma emits_ext : forall f g ps, emits f ps -> (forall o, g o = f o) -> emits g ps.
Proof. intros f g ps H E o. rewrite E. apply H. Qed.

Section Sequences.
  Context {T : Type} (pr : T -> ostream -> ostream) (ps : T -> list piece).
  Lemma emits_print_tail : forall op sep l, Forall (fun x => emits (pr x) (ps x)) l ->
    emits (fun o => snd (print_loop pr op sep false l o)) (concat (map (fun q => Chars sep :: q) (map ps l))).
  Proof.
    intros op sep l H. induction H as [|x l Hx Hl IH].
    - intros o. cbn. rewrite app_nil_r. destruct o. reflexivity.
    - cbn [map concat print_loop]. exact (emits_seq _ _ _ _ (emits_seq _ _ _ _ (emits_text sep) Hx) IH).
  Qed.
  Lemma emits_print_with : forall op sep op' cl l, Forall (fun x => emits (pr x) (ps x)) l ->
    emits (print_with pr op sep op' cl l)
      (Chars (match l with [] => op' | _ => op end) :: joined sep (map ps l) ++ [Chars cl]).
  Proof.
    intros op sep op' cl l H. destruct H as [|x l Hx Hl].
    - exact (emits_seq _ _ _ _ (emits_text op') (emits_text cl)).
    - cbn [map joined].
      change (Chars op :: (ps x ++ concat (map (fun q => Chars sep :: q) (map ps l))) ++ [Chars cl]) with
             (([Chars op] ++ (ps x ++ concat (map (fun q => Chars sep :: q) (map ps l)))) ++ [Chars cl]).
      eapply emits_ext.
      + exact (emits_seq _ _ _ _ (emits_seq _ _ _ _ (emits_text op) (emits_seq _ _ _ _ Hx (emits_print_tail op sep l Hl))) (emits_text cl)).
      + intros o. unfold print_with. cbn [print_loop].
        assert (E : forall l o, fst (print_loop pr op sep false l o) = false).
        { induction l0 as [|y l0 IH]; intros o0; [reflexivity|apply IH]. }
        specialize (E l (pr x (put_text op o))). destruct (print_loop pr op sep false l (pr x (put_text op o))) as [b o1].
        cbn in E. subst b. reflexivity.
  Qed.
End Sequences.

Section ValueInd.
  Variable P : value -> Prop.
  Hypothesis Hint : forall z, P (VInt z).
  Hypothesis Hbool : forall b, P (VBool b).
  Hypothesis Htext : forall t, P (VText t).
  Hypothesis Hword : forall w, P (VWord w).
  Hypothesis Hvec : forall l, Forall P l -> P (VVector l).
  Hypothesis Hlink : forall l, Forall P l -> P (VLinked l).
  Hypothesis Hset : forall l, Forall P l -> P (VSet l).
  Hypothesis Hmap : forall m, Forall (fun e => P (fst e) /\ P (snd e)) m -> P (VMap m).
  Hypothesis Hpair : forall x y, P x -> P y -> P (VPair x y).
  Fixpoint value_induct (v : value) : P v :=
    let all := fix all (l : list value) : Forall P l :=
      match l with [] => Forall_nil _ | x :: l' => Forall_cons _ (value_induct x) (all l') end in
    match v with
    | VInt z => Hint z | VBool b => Hbool b | VText t => Htext t | VWord w => Hword w
    | VVector l => Hvec l (all l) | VLinked l => Hlink l (all l) | VSet l => Hset l (all l)
    | VMap m => Hmap m ((fix alle (m : list (value * value)) : Forall (fun e => P (fst e) /\ P (snd e)) m :=
                           match m with
                           | [] => Forall_nil _
                           | (x, y) :: m' => Forall_cons (x, y) (conj (value_induct x) (value_induct y)) (alle m')
                           end) m)
    | VPair x y => Hpair x y (value_induct x) (value_induct y)
    end.
End ValueInd.
Lemma print_emits : forall v, emits (print v) (pieces v).
Proof.
  apply value_induct.
  - intros z. apply emits_text.
  - intros b o. cbn. rewrite app_nil_r. destruct (o_boolalpha o) eqn:E; unfold print_bool, put_text, bool_text; rewrite E; reflexivity.
  - intros t. apply emits_text.
  - apply emits_word.
  - intros l H. cbn [print pieces]. eapply emits_ext; [|reflexivity].
    pose proof (emits_print_with print pieces (chars "[") (chars ",") (chars "[") (chars "]") l H) as E. destruct l; exact E.
  - intros l H. cbn [print pieces]. unfold print_list.
    pose proof (emits_print_with print pieces (chars "[") (chars ",") (chars "[") (chars "]") l H) as E.
    eapply emits_ext; [destruct l; exact E|]. intros o. apply write_sequence_is_print.
  - intros l H. cbn [print pieces].
    pose proof (emits_print_with print pieces (chars "{") (chars ",") (chars "{") (chars "}") l H) as E. destruct l; exact E.
  - intros m H. cbn [print pieces]. unfold print_map.
    apply (emits_print_with (print_item print print (chars ":"))
             (fun e => pieces (fst e) ++ Chars (chars ":") :: pieces (snd e))).
    apply Forall_forall. intros e He. rewrite Forall_forall in H. destruct (H e He) as [H1 H2].
    exact (emits_seq _ _ [Chars _] _ (emits_seq _ _ _ _ H1 (emits_text (chars ":"))) H2) ||
    (change (Chars (chars ":") :: pieces (snd e)) with ([Chars (chars ":")] ++ pieces (snd e)); rewrite app_assoc;
     exact (emits_seq _ _ _ _ (emits_seq _ _ _ _ H1 (emits_text (chars ":"))) H2)).
  - intros x y Hx Hy. cbn [print pieces joined map concat]. rewrite app_nil_r.
    change (Chars (chars "(") :: (pieces x ++ Chars (chars ",") :: pieces y) ++ [Chars (chars ")")]) with
           (([Chars (chars "(")] ++ (pieces x ++ ([Chars (chars ",")] ++ pieces y))) ++ [Chars (chars ")")]).
    exact (emits_seq _ _ _ _ (emits_seq _ _ _ _ (emits_text (chars "("))
             (emits_seq _ _ _ _ Hx (emits_seq _ _ _ _ (emits_text (chars ",")) Hy))) (emits_text (chars ")"))).
Qed.

(** ** Which texts depend on the flag *)
Lemma exposes_dec : forall ps, exposes_bool ps \/ ~ exposes_bool ps.
Proof.
  induction ps as [|[t|b|[|c w]] ps IH].
  - right. intros H. inversion H.
  - destruct IH as [H|H]; [left; constructor; exact H | right; intros E; inversion E; auto].
  - left. constructor.
  - destruct IH as [H|H]; [left; constructor; exact H | right; intros E; inversion E; auto].
  - right. intros E. inversion E.
Qed.
Lemma text_differs : forall ps tl tl', exposes_bool ps -> text_of true ps ++ tl <> text_of false ps ++ tl'.
Proof.
  intros ps tl tl' H. induction H as [b ps|t ps H IH|ps H IH]; cbn [text_of]; intros E.
  - destruct b; discriminate.
  - rewrite <- !app_assoc in E. apply app_inv_head in E. exact (IH E).
  - rewrite <- !app_assoc in E. apply app_inv_head in E. exact (IH E).
Qed.
Lemma text_same : forall ps, ~ exposes_bool ps -> forall a, text_of a ps = text_of false ps.
Proof.
  induction ps as [|[t|b|[|c w]] ps IH]; intros H a; cbn [text_of]; try reflexivity.
  - rewrite IH; [reflexivity|]. intros E. apply H. constructor. exact E.
  - destruct H. constructor.
  - rewrite IH; [reflexivity|]. intros E. apply H. constructor. exact E.
Qed.
Lemma alpha_word : forall ps, alpha_after false ps = true <-> prints_word ps.
Proof.
  induction ps as [|[t|b|[|c w]] ps IH]; cbn [alpha_after].
  - split; [discriminate|]. intros (w & _ & []).
  - rewrite IH. split; intros (w & Hw & Hi); exists w; (split; [exact Hw|]); [right; exact Hi|].
    destruct Hi as [Hi|Hi]; [discriminate|exact Hi].
  - rewrite IH. split; intros (w & Hw & Hi); exists w; (split; [exact Hw|]); [right; exact Hi|].
    destruct Hi as [Hi|Hi]; [discriminate|exact Hi].
  - rewrite IH. split; intros (w & Hw & Hi); exists w; (split; [exact Hw|]); [right; exact Hi|].
    destruct Hi as [Hi|Hi]; [congruence|exact Hi].
  - split; [intros _; exists (c :: w); split; [discriminate|left; reflexivity]|]. intros _.
    clear. induction ps as [|[t|b|[|c w]] ps IH]; cbn; auto.
Qed.
Lemma to_string_text : forall v, to_string v = text_of false (pieces v).
Proof. intros v. unfold to_string. rewrite print_emits. reflexivity. Qed.
Lemma printed_text : forall v o, o_text (print v o) = o_text o ++ text_of (o_boolalpha o) (pieces v).
Proof. intros v o. rewrite print_emits. reflexivity. Qed.

Lemma insert_refuted : forall v o, exposes_bool (pieces v) -> o_boolalpha o = true ->
  o_text (print v o) <> o_text o ++ to_string v.
Proof.
  intros v o H A E. rewrite printed_text, to_string_text, A in E. apply app_inv_head in E.
  apply (text_differs _ [] [] H). rewrite !app_nil_r. exact E.
Qed.
Lemma insert_ok : forall v o, ~ exposes_bool (pieces v) \/ o_boolalpha o = false ->
  o_text (print v o) = o_text o ++ to_string v.
Proof.
  intros v o H. rewrite printed_text, to_string_text. destruct H as [H|H]; [rewrite (text_same _ H); reflexivity | rewrite H; reflexivity].
Qed.

Lemma pair_text : forall x y, to_string (VPair x y) =
  chars "(" ++ to_string x ++ chars "," ++ text_of (alpha_after false (pieces x)) (pieces y) ++ chars ")".
Proof.
  intros x y. rewrite !to_string_text. cbn [pieces joined map concat]. rewrite app_nil_r. cbn [text_of].
  rewrite <- app_assoc, text_of_app. cbn [app text_of]. rewrite text_of_app. reflexivity.
Qed.
Lemma pair_refuted : forall x y, prints_word (pieces x) -> exposes_bool (pieces y) ->
  to_string (VPair x y) <> chars "(" ++ to_string x ++ chars "," ++ to_string y ++ chars ")".
Proof.
  intros x y W B E. rewrite pair_text in E. apply alpha_word in W. rewrite W in E.
  apply app_inv_head in E. apply app_inv_head in E. apply app_inv_head in E. rewrite (to_string_text y) in E.
  exact (text_differs _ _ _ B E).
Qed.
Lemma pair_ok : forall x y, ~ prints_word (pieces x) \/ ~ exposes_bool (pieces y) ->
  to_string (VPair x y) = chars "(" ++ to_string x ++ chars "," ++ to_string y ++ chars ")".
Proof.
  intros x y H. rewrite pair_text, (to_string_text y). destruct H as [H|H].
  - destruct (alpha_after false (pieces x)) eqn:E; [apply alpha_word in E; contradiction | reflexivity].
  - rewrite (text_same _ H). reflexivity.
Qed.
(** lists whose items print no bool after a word *)
Lemma list_ok : forall l, Forall (fun v => ~ prints_word (pieces v)) l \/ Forall (fun v => ~ exposes_bool (pieces v)) l ->
  to_string (VVector l) = chars "[" ++ separated (chars ",") (map to_string l) ++ chars "]" /\
  to_string (VLinked l) = chars "[" ++ separated (chars ",") (map to_string l) ++ chars "]" /\
  to_string (VSet l) = chars "{" ++ separated (chars ",") (map to_string l) ++ chars "}".
Proof.
  intros l H.
  assert (K : forall cl, text_of false (joined (chars ",") (map pieces l) ++ [Chars cl]) =
              separated (chars ",") (map to_string l) ++ cl).
  { intros cl. destruct l as [|v l]; [cbn; apply app_nil_r|]. cbn [map joined].
    rewrite separated_cons.
    assert (R : forall l a, (a = false /\ Forall (fun v => ~ prints_word (pieces v)) l) \/ Forall (fun v => ~ exposes_bool (pieces v)) l ->
      text_of a (concat (map (fun q => Chars (chars ",") :: q) (map pieces l)) ++ [Chars cl]) =
      concat (map (fun y => chars "," ++ y) (map to_string l)) ++ cl).
    { induction l0 as [|x l0 IH]; intros a Ha; [cbn; apply app_nil_r|]. cbn [map concat app text_of].
      rewrite <- !app_assoc, text_of_app. f_equal. f_equal.
      - destruct Ha as [[-> _]|Ha]; [symmetry; apply to_string_text|]. inversion Ha; subst.
        rewrite to_string_text. apply text_same. assumption.
      - apply IH. destruct Ha as [[-> Ha]|Ha]; inversion Ha; subst; [left|right; assumption]. split; [|assumption].
        destruct (alpha_after false (pieces x)) eqn:E; [apply alpha_word in E; contradiction | reflexivity]. }
    rewrite <- !app_assoc, text_of_app, to_string_text. f_equal. apply R.
    destruct H as [H|H]; inversion H; subst; [left|right; assumption]. split; [|assumption].
    destruct (alpha_after false (pieces v)) eqn:E; [apply alpha_word in E; contradiction | reflexivity]. }
  rewrite !to_string_text. cbn [pieces text_of]. rewrite !K. auto.
Qed.

(** ** Pointers *)
Lemma crun_app : forall p q s l s', crun p s = Ret l s' ->
  crun (p ++ q) s = match crun q s' with
                    | Ret l' s'' => Ret (l ++ l') s''
                    | Exc e s'' => Exc e s'' | Ub r => Ub r | Abort => Abort | Fuel => Fuel
                    end.
Proof.
  induction p as [|o p IH]; intros q s l s' H.
  - cbn in H. injection H as <- <-. cbn [app]. destruct (crun q s); reflexivity.
  - cbn [crun app] in *. destruct (cstep o s) as [x s1| | | |]; try discriminate.
    destruct (crun p s1) as [l1 s2| | | |] eqn:E; try discriminate. injection H as <- <-.
    rewrite (IH q _ _ _ E). destruct (crun q s2); reflexivity.
Qed.
Lemma crun_prefix : forall p q s l s', crun (p ++ q) s = Ret l s' -> exists l1 s1 l2, crun p s = Ret l1 s1 /\ crun q s1 = Ret l2 s'.
Proof.
  induction p as [|o p IH]; intros q s l s' H; [exists [], s, l; split; [reflexivity|exact H]|].
  cbn [crun app] in *. destruct (cstep o s) as [x s1| | | |]; try discriminate.
  destruct (crun (p ++ q) s1) as [l1 s2| | | |] eqn:E; try discriminate. injection H as <- <-.
  destruct (IH _ _ _ _ E) as (l3 & s3 & l4 & E3 & E4). rewrite E3. eauto.
Qed.
Lemma cstep_keeps : forall o k s x s', ~ disturbs k o -> cstep o s = Ret x s' -> c_strings s' k = c_strings s k.
Proof.
  intros o k s x s' N. destruct o as [j c t|j t|j|q j|q v|j|v|q]; cbn [cstep disturbs] in *; intros H.
  - injection H as _ <-. cbn. unfold set_var. destruct (Nat.eqb k j) eqn:E; [apply Nat.eqb_eq in E; congruence|reflexivity].
  - destruct (c_strings s j) as [[[c u] n]|]; [|discriminate]. injection H as _ <-. cbn. unfold set_var.
    destruct (Nat.eqb k j) eqn:E; [apply Nat.eqb_eq in E; congruence|reflexivity].
  - destruct (c_strings s j) as [[[c u] n]|]; [|discriminate]. injection H as _ <-. cbn. unfold set_var.
    destruct (Nat.eqb k j) eqn:E; [apply Nat.eqb_eq in E; congruence|reflexivity].
  - destruct (c_str j s) as [y s1| | | |]; try discriminate. injection H as _ <-. reflexivity.
  - injection H as _ <-. reflexivity.
  - destruct (c_strings s j) as [[[c u] n]|]; [|discriminate]. injection H as _ <-. reflexivity.
  - injection H as _ <-. reflexivity.
  - destruct (c_pointers s q) as [[j n|]|]; try discriminate. destruct (c_strings s j) as [[[c u] m]|]; [|discriminate].
    destruct (Nat.eqb n m); [|discriminate]. injection H as _ <-. reflexivity.
Qed.
Lemma cstep_pointer : forall o p s x s', ~ rebinds p o -> cstep o s = Ret x s' -> c_pointers s' p = c_pointers s p.
Proof.
  intros o p s x s' N. destruct o as [j c t|j t|j|q j|q v|j|v|q]; cbn [cstep rebinds] in *; intros H.
  - injection H as _ <-. reflexivity.
  - destruct (c_strings s j) as [[[c u] n]|]; [|discriminate]. injection H as _ <-. reflexivity.
  - destruct (c_strings s j) as [[[c u] n]|]; [|discriminate]. injection H as _ <-. reflexivity.
  - destruct (c_str j s) as [y s1| | | |]; try discriminate. injection H as _ <-. cbn. unfold set_var.
    destruct (Nat.eqb p q) eqn:E; [apply Nat.eqb_eq in E; congruence|reflexivity].
  - injection H as _ <-. cbn. unfold set_var. destruct (Nat.eqb p q) eqn:E; [apply Nat.eqb_eq in E; congruence|reflexivity].
  - destruct (c_strings s j) as [[[c u] n]|]; [|discriminate]. injection H as _ <-. reflexivity.
  - injection H as _ <-. reflexivity.
  - destruct (c_pointers s q) as [[j n|]|]; try discriminate. destruct (c_strings s j) as [[[c u] m]|]; [|discriminate].
    destruct (Nat.eqb n m); [|discriminate]. injection H as _ <-. reflexivity.
Qed.
Lemma crun_one : forall o s l s', crun [o] s = Ret l s' -> exists x, cstep o s = Ret x s' /\ l = [x].
Proof.
  intros o s l s' H. cbn [crun] in H. destruct (cstep o s) as [x s1| | | |]; try discriminate. injection H as <- <-. eauto.
Qed.
Lemma crun_keeps : forall q k s l s', (forall o, In o q -> ~ disturbs k o) -> crun q s = Ret l s' -> c_strings s' k = c_strings s k.
Proof.
  induction q as [|o q IH]; intros k s l s' N H; [cbn in H; injection H as _ <-; reflexivity|].
  change (o :: q) with ([o] ++ q) in H. destruct (crun_prefix _ _ _ _ _ H) as (l1 & s1 & l2 & E1 & E2).
  apply crun_one in E1. destruct E1 as (x & E1 & _).
  rewrite (IH k s1 l2 s'); [|intros o' H'; apply N; right; exact H'|exact E2].
  apply (cstep_keeps o k s x s1); [apply N; left; reflexivity|exact E1].
Qed.
Lemma crun_pointer : forall q p s l s', (forall o, In o q -> ~ rebinds p o) -> crun q s = Ret l s' -> c_pointers s' p = c_pointers s p.
Proof.
  induction q as [|o q IH]; intros p s l s' N H; [cbn in H; injection H as _ <-; reflexivity|].
  change (o :: q) with ([o] ++ q) in H. destruct (crun_prefix _ _ _ _ _ H) as (l1 & s1 & l2 & E1 & E2).
  apply crun_one in E1. destruct E1 as (x & E1 & _).
  rewrite (IH p s1 l2 s'); [|intros o' H'; apply N; right; exact H'|exact E2].
  apply (cstep_pointer o p s x s1); [apply N; left; reflexivity|exact E1].
Qed.
Lemma holds_state : forall k p c t, holds k p c t -> forall s0 l s, crun p s0 = Ret l s -> exists n, c_strings s k = Some (c, t, n).
Proof.
  induction 1 as [p c t|p c t t' H IH|p c t o H IH N]; intros s0 l s E; destruct (crun_prefix _ _ _ _ _ E) as (l1 & s1 & l2 & E1 & E2);
    apply crun_one in E2; destruct E2 as (x & E2 & _).
  - cbn in E2. injection E2 as _ <-. cbn. unfold set_var. rewrite Nat.eqb_refl. eauto.
  - destruct (IH _ _ _ E1) as (n & Hn). cbn in E2. rewrite Hn in E2. injection E2 as _ <-. cbn. unfold set_var.
    rewrite Nat.eqb_refl. eauto.
  - destruct (IH _ _ _ E1) as (n & Hn). exists n. rewrite (cstep_keeps o k s1 x s N E2). exact Hn.
Qed.
Lemma bound_then : forall p b q s0 l s, (forall o, In o q -> ~ rebinds p o) -> crun (b :: q) s0 = Ret l s ->
  exists s1 x, cstep b s0 = Ret x s1 /\ c_pointers s p = c_pointers s1 p /\ exists l2, crun q s1 = Ret l2 s.
Proof.
  intros p b q s0 l s N H. change (b :: q) with ([b] ++ q) in H.
  destruct (crun_prefix _ _ _ _ _ H) as (l1 & s1 & l2 & E1 & E2). apply crun_one in E1. destruct E1 as (x & E1 & _).
  exists s1, x. split; [exact E1|]. split; [apply (crun_pointer q p s1 l2 s N E2)|eauto].
Qed.
Lemma pointer_valid : forall pre p k t q l s, holds k pre HelperString t ->
  (forall o, In o q -> ~ disturbs k o /\ ~ rebinds p o) ->
  crun (pre ++ CBind p k :: q) cinit = Ret l s ->
  crun ((pre ++ CBind p k :: q) ++ [CRead p]) cinit = Ret (l ++ [Some (until_nul t)]) s.
Proof.
  intros pre p k t q l s H N E. rewrite (crun_app _ [CRead p] _ _ _ E).
  destruct (crun_prefix _ _ _ _ _ E) as (l1 & s1 & l2 & E1 & E2).
  destruct (holds_state k pre HelperString t H _ _ _ E1) as (n & Hn).
  destruct (bound_then p _ q s1 l2 s (fun o Ho => proj2 (N o Ho)) E2) as (s2 & x & B & P & l3 & E3).
  cbn [cstep] in B. unfold c_str in B. rewrite Hn in B. injection B as _ <-. cbn in P. unfold set_var in P.
  rewrite Nat.eqb_refl in P.
  assert (K := crun_keeps q k _ l3 s (fun o Ho => proj1 (N o Ho)) E3). cbn in K. rewrite Hn in K.
  cbn [crun cstep]. rewrite P, K, Nat.eqb_refl. reflexivity.
Qed.
Lemma pointer_std : forall pre p k t q l s, holds k pre StdString t -> (forall o, In o q -> ~ rebinds p o) ->
  crun (pre ++ CBind p k :: q) cinit = Ret l s ->
  crun ((pre ++ CBind p k :: q) ++ [CRead p]) cinit = Ub UbDangling.
Proof.
  intros pre p k t q l s H N E. rewrite (crun_app _ [CRead p] _ _ _ E).
  destruct (crun_prefix _ _ _ _ _ E) as (l1 & s1 & l2 & E1 & E2).
  destruct (holds_state k pre StdString t H _ _ _ E1) as (n & Hn).
  destruct (bound_then p _ q s1 l2 s N E2) as (s2 & x & B & P & l3 & E3).
  cbn [cstep] in B. unfold c_str in B. rewrite Hn in B. injection B as _ <-. cbn in P. unfold set_var in P.
  rewrite Nat.eqb_refl in P. cbn [crun cstep]. rewrite P. reflexivity.
Qed.
Lemma pointer_value : forall pre p v q l s, (forall o, In o q -> ~ rebinds p o) ->
  crun (pre ++ CBindValue p v :: q) cinit = Ret l s ->
  crun ((pre ++ CBindValue p v :: q) ++ [CRead p]) cinit = Ub UbDangling.
Proof.
  intros pre p v q l s N E. rewrite (crun_app _ [CRead p] _ _ _ E).
  destruct (crun_prefix _ _ _ _ _ E) as (l1 & s1 & l2 & E1 & E2).
  destruct (bound_then p _ q s1 l2 s N E2) as (s2 & x & B & P & l3 & E3).
  cbn [cstep] in B. injection B as _ <-. cbn in P. unfold set_var in P.
  rewrite Nat.eqb_refl in P. cbn [crun cstep]. rewrite P. reflexivity.
Qed.
Lemma used_at_once : forall pre k c t l s, holds k pre c t -> crun pre cinit = Ret l s ->
  crun (pre ++ [CUse k]) cinit = Ret (l ++ [Some (until_nul t)]) s.
Proof.
  intros pre k c t l s H E. rewrite (crun_app _ [CUse k] _ _ _ E). destruct (holds_state k pre c t H _ _ _ E) as (n & Hn).
  cbn [crun cstep]. rewrite Hn. reflexivity.
Qed.
Lemma value_used_at_once : forall pre v l s, crun pre cinit = Ret l s ->
  crun (pre ++ [CUseValue v]) cinit = Ret (l ++ [Some (until_nul (to_string v))]) s.
Proof. intros pre v l s E. rewrite (crun_app _ _ _ _ _ E). reflexivity. Qed.
Lemma until_nul_all : forall t, nul_free t -> until_nul t = t.
Proof.
  induction 1 as [|c t Hc Ht IH]; [reflexivity|]. cbn. destruct (Nat.eqb (nat_of_ascii c) 0) eqn:E.
  - apply Nat.eqb_eq in E. contradiction.
  - rewrite IH. reflexivity.
Qed.

(** ** Reading back *)
Lemma print_loop_map : forall {A B} (f : A -> B) (pr : B -> ostream -> ostream) op sep l first o,
  print_loop pr op sep first (map f l) o = print_loop (fun x => pr (f x)) op sep first l o.
Proof. induction l as [|x l IH]; intros first o; [reflexivity|]. cbn [map print_loop]. apply IH. Qed.
Lemma strings_read_back : forall lo hi v s rest, Forall (fun z => lo <= z <= hi)%Z v ->
  i_good s = true -> i_boolalpha s = false -> i_after s = to_string (VVector (map VInt v)) ++ rest ->
  exists s', read_vector (read_int lo hi) s = Ret v s' /\ i_good s' = true /\ i_after s' = rest.
Proof.
  intros lo hi v s rest H G A E. apply (printed_ints_read_back lo hi v false H s rest G A).
  rewrite E. f_equal. unfold to_string. cbn [print]. unfold print_vector, print_with.
  rewrite print_loop_map. reflexivity.
Qed.
Lemma to_str_same (v : value) : to_str v = to_string v.
Proof. reflexivity. Qed.
