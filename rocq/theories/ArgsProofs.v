(** ArgsProofs.v -- lemmas for ArgsProps.v *)
From Verif Require Import Base ArgsModel ArgsSpec.
From Coq Require Import String.
Local Open Scope string_scope.
Open Scope list_scope.
Open Scope nat_scope.
Notation len := Datatypes.length.

Lemma cexpr_induction (P : cexpr -> Prop) :
  (forall s, P (CAtom s)) -> (forall e, P e -> P (CParen e)) -> (forall op a b, P a -> P b -> P (CBinary op a b)) ->
  (forall f args, P f -> Forall P args -> P (CCall f args)) -> (forall t args, P t -> Forall P args -> P (CBraces t args)) ->
  (forall f args, Forall P args -> P (CTemplate f args)) -> (forall a i, P a -> P i -> P (CIndex a i)) ->
  (forall e, P e -> P (CDefined e)) -> forall e, P e.
Proof.
  intros H1 H2 H3 H4 H5 H6 H7 H8. fix IH 1. intros [s|e|op a b|f args|t args|f args|a i|e].
  - apply H1.
  - apply H2, IH.
  - apply H3; apply IH.
  - apply H4; [apply IH|]. induction args; constructor; [apply IH|assumption].
  - apply H5; [apply IH|]. induction args; constructor; [apply IH|assumption].
  - apply H6. induction args; constructor; [apply IH|assumption].
  - apply H7; apply IH.
  - apply H8, IH.
Qed.

(** ** token lists with matching parentheses and [n] commas outside *)
Definition before (pre : list (list token)) (r : option (list (list token) * list token)) :=
  match r with Some (args, rest) => Some (pre ++ args, rest) | None => None end.
Definition shape (l : list token) (n : nat) : Prop :=
  (forall d cur rest, collect (S d) cur (l ++ rest) = collect (S d) (rev l ++ cur) rest) /\
  (forall cur, exists cur' pre, len pre = n /\ (n = 0 -> cur' = rev l ++ cur) /\
     forall rest, collect 0 cur (l ++ rest) = before pre (collect 0 cur' rest)).
Lemma before_nil r : before [] r = r.
Proof. destruct r as [[a b]|]; reflexivity. Qed.
Lemma before_app p q r : before p (before q r) = before (p ++ q) r.
Proof. destruct r as [[a b]|]; [|reflexivity]. cbn. now rewrite app_assoc. Qed.

Lemma shape_nil : shape [] 0.
Proof. split; [reflexivity|]. intros cur. exists cur, []. repeat split. intros rest. now rewrite before_nil. Qed.
Lemma shape_word s : shape [TWord s] 0.
Proof. split; [reflexivity|]. intros cur. exists (TWord s :: cur), []. repeat split. intros rest. now rewrite before_nil. Qed.
Lemma shape_macro b : shape [TMacro b] 0.
Proof. split; [reflexivity|]. intros cur. exists (TMacro b :: cur), []. repeat split. intros rest. now rewrite before_nil. Qed.
Lemma shape_comma : shape [TComma] 1.
Proof.
  split; [reflexivity|]. intros cur. exists [], [rev cur]. split; [reflexivity|]. split; [discriminate|].
  intros rest. cbn. destruct (collect 0 [] rest) as [[a r]|]; reflexivity.
Qed.
Lemma shape_app a b n k : shape a n -> shape b k -> shape (a ++ b) (n + k).
Proof.
  intros [A1 A2] [B1 B2]. split.
  - intros d cur rest. rewrite <- app_assoc, A1, B1, rev_app_distr, app_assoc. reflexivity.
  - intros cur. destruct (A2 cur) as (c1 & p1 & L1 & E1 & R1). destruct (B2 c1) as (c2 & p2 & L2 & E2 & R2).
    exists c2, (p1 ++ p2). split; [rewrite app_length; lia|]. split.
    + intros Z. rewrite E2, E1 by lia. now rewrite rev_app_distr, app_assoc.
    + intros rest. rewrite <- app_assoc, R1, R2, before_app. reflexivity.
Qed.
Lemma shape_cons_word s l n : shape l n -> shape (TWord s :: l) n.
Proof. intros H. exact (shape_app [TWord s] l 0 n (shape_word s) H). Qed.
Lemma shape_parens l n : shape l n -> shape (TOpen :: l ++ [TClose]) 0.
Proof.
  intros [A1 _].
  assert (G : forall d cur rest, collect d cur ((TOpen :: l ++ [TClose]) ++ rest) = collect d (rev (TOpen :: l ++ [TClose]) ++ cur) rest).
  { intros d cur rest. cbn [app collect]. rewrite <- app_assoc, A1. cbn [app collect]. f_equal.
    cbn [rev]. rewrite rev_app_distr. cbn. rewrite <- app_assoc. reflexivity. }
  split; [intros; apply G|]. intros cur. eexists _, []. split; [reflexivity|]. split; [reflexivity|].
  intros rest. now rewrite before_nil, G.
Qed.
Lemma shape_separated ls ns : Forall2 shape ls ns -> shape (separated ls) (total ns + (len ls - 1)).
Proof.
  induction 1 as [|l n ls ns H HF IH]; [exact shape_nil|]. destruct HF as [|l' n' ls ns H' HF].
  - cbn. rewrite !Nat.add_0_r. exact H.
  - change (separated (l :: l' :: ls)) with (l ++ [TComma] ++ separated (l' :: ls)).
    replace (total (n :: n' :: ns) + (len (l :: l' :: ls) - 1)) with (n + (1 + (total (n' :: ns) + (len (l' :: ls) - 1)))) by (cbn; lia).
    apply shape_app; [exact H|]. apply shape_app; [exact shape_comma|]. exact IH.
Qed.
Lemma shape_map (f : cexpr -> list token) (g : cexpr -> nat) args : Forall (fun e => shape (f e) (g e)) args ->
  shape (separated (map f args)) (total (map g args) + (len args - 1)).
Proof.
  intros H. rewrite <- (map_length f args). apply shape_separated. induction H; constructor; assumption.
Qed.

Lemma print_expanded_shape e : shape (print_expanded e) (exposed_expanded e).
Proof.
  induction e as [s|e IH|op a b IHa IHb|f args IHf IH|t args IHt IH|f args IH|a i IHa IHi|e IH] using cexpr_induction; cbn.
  - apply shape_word.
  - eapply shape_parens, IH.
  - change (?x :: ?y) with ([x] ++ y).
    replace (_ + _) with (exposed_expanded a + ((if op =? "," then 1 else 0)%string + exposed_expanded b)) by lia.
    apply shape_app; [exact IHa|]. apply (shape_app [_]); [|exact IHb]. destruct (op =? ",")%string; [apply shape_comma|apply shape_word].
  - replace (exposed_expanded f) with (exposed_expanded f + 0) by lia. apply shape_app; [exact IHf|]. eapply shape_parens, shape_map, IH.
  - rewrite <- Nat.add_assoc. apply shape_app; [exact IHt|]. apply shape_cons_word. rewrite <- (Nat.add_0_r (_ + _)).
    apply shape_app; [|apply shape_word]. apply shape_map, IH.
  - apply shape_cons_word, shape_cons_word. rewrite <- (Nat.add_0_r (_ + _)). apply shape_app; [|apply shape_word]. apply shape_map, IH.
  - apply shape_app; [exact IHa|]. apply shape_cons_word. rewrite <- (Nat.add_0_r (exposed_expanded i)). apply shape_app; [exact IHi|apply shape_word].
  - exact IH.
Qed.
Lemma print_shape e : shape (print e) (exposed e).
Proof.
  induction e as [s|e IH|op a b IHa IHb|f args IHf IH|t args IHt IH|f args IH|a i IHa IHi|e IH] using cexpr_induction; cbn.
  - apply shape_word.
  - eapply shape_parens, IH.
  - replace (_ + _) with (exposed a + ((if op =? "," then 1 else 0)%string + exposed b)) by lia.
    apply shape_app; [exact IHa|]. apply (shape_app [_]); [|exact IHb]. destruct (op =? ",")%string; [apply shape_comma|apply shape_word].
  - replace (exposed f) with (exposed f + 0) by lia. apply shape_app; [exact IHf|]. eapply shape_parens, shape_map, IH.
  - rewrite <- Nat.add_assoc. apply shape_app; [exact IHt|]. apply shape_cons_word. rewrite <- (Nat.add_0_r (_ + _)).
    apply shape_app; [|apply shape_word]. apply shape_map, IH.
  - apply shape_cons_word, shape_cons_word. rewrite <- (Nat.add_0_r (_ + _)). apply shape_app; [|apply shape_word]. apply shape_map, IH.
  - apply shape_app; [exact IHa|]. apply shape_cons_word. rewrite <- (Nat.add_0_r (exposed i)). apply shape_app; [exact IHi|apply shape_word].
  - apply shape_macro.
Qed.

(** ** expansion of arguments *)
Lemma expand_app a b : expand (a ++ b) = expand a ++ expand b.
Proof. apply flat_map_app. Qed.
Lemma expand_cons t l : expand (t :: l) = expand1 t ++ expand l.
Proof. reflexivity. Qed.
Lemma expand_separated ls : expand (separated ls) = separated (map expand ls).
Proof.
  induction ls as [|l ls IH]; [reflexivity|]. destruct ls as [|l' ls]; [reflexivity|].
  change (separated (l :: l' :: ls)) with (l ++ TComma :: separated (l' :: ls)). rewrite expand_app.
  change (expand (TComma :: separated (l' :: ls))) with (TComma :: expand (separated (l' :: ls))). rewrite IH. reflexivity.
Qed.
Lemma expand_maps args : Forall (fun e => expand (print e) = print_expanded e) args -> map expand (map print args) = map print_expanded args.
Proof. induction 1; cbn; congruence. Qed.
Lemma expand_print e : expand (print e) = print_expanded e.
Proof.
  induction e as [s|e IH|op a b IHa IHb|f args IHf IH|t args IHt IH|f args IH|a i IHa IHi|e IH] using cexpr_induction; cbn [print print_expanded].
  - reflexivity.
  - change (expand (TOpen :: ?l)) with (TOpen :: expand l). now rewrite expand_app, IH.
  - rewrite expand_app, IHa. f_equal. rewrite expand_cons, IHb. destruct (op =? ",")%string; reflexivity.
  - rewrite expand_app, IHf. change (expand (TOpen :: ?l)) with (TOpen :: expand l). rewrite expand_app, expand_separated, expand_maps by exact IH. reflexivity.
  - rewrite expand_app, IHt. change (expand (TWord ?s :: ?l)) with (TWord s :: expand l). rewrite expand_app, expand_separated, expand_maps by exact IH. reflexivity.
  - change (expand (TWord ?s :: TWord ?s' :: ?l)) with (TWord s :: TWord s' :: expand l). rewrite expand_app, expand_separated, expand_maps by exact IH. reflexivity.
  - rewrite expand_app, IHa. change (expand (TWord ?s :: ?l)) with (TWord s :: expand l). now rewrite expand_app, IHi.
  - cbn. apply app_nil_r.
Qed.

(** ** calls *)
Lemma arguments_count ls ns : Forall2 shape ls ns -> ls <> [] ->
  exists args, arguments (call_tokens ls) = Some (args, []) /\ len args = len ls + total ns.
Proof.
  intros H Hne. destruct (shape_separated ls ns H) as [_ S]. destruct (S []) as (cur & pre & L & _ & R).
  cbn [arguments call_tokens]. unfold call_tokens. cbn [arguments]. rewrite R. cbn. eexists. split; [reflexivity|].
  rewrite app_length. cbn. destruct ls; [congruence|]. cbn in *. lia.
Qed.
Lemma collect_exact ls : Forall (fun l => shape l 0) ls -> ls <> [] -> collect 0 [] (separated ls ++ [TClose]) = Some (ls, []).
Proof.
  induction ls as [|l ls IH]; intros H Hne; [congruence|]. inversion H as [|x xs Hl Hls]; subst.
  destruct (proj2 Hl []) as (cur & pre & L & E & R). specialize (E eq_refl). rewrite app_nil_r in E. subst cur.
  destruct pre; [|discriminate L]. destruct ls as [|l' ls].
  - cbn [separated]. rewrite R. cbn. now rewrite rev_involutive.
  - change (separated (l :: l' :: ls)) with (l ++ TComma :: separated (l' :: ls)). rewrite <- app_assoc, R, before_nil.
    cbn [app collect]. rewrite IH by (assumption || discriminate). now rewrite rev_involutive.
Qed.
Lemma arguments_exact ls : Forall (fun l => shape l 0) ls -> ls <> [] -> arguments (call_tokens ls) = Some (ls, []).
Proof. intros H Hne. apply collect_exact; assumption. Qed.
Lemma collect_text l : forall d cur args rest, collect d cur l = Some (args, rest) -> args <> [] /\ separated args ++ TClose :: rest = rev cur ++ l.
Proof.
  induction l as [|t l IH]; intros d cur args rest H; [discriminate|]. destruct t; cbn [collect] in H.
  - apply IH in H. destruct H as [H1 H2]. split; [exact H1|]. rewrite H2. cbn. now rewrite <- app_assoc.
  - destruct d.
    + inversion H; subst. split; [discriminate|]. reflexivity.
    + apply IH in H. destruct H as [H1 H2]. split; [exact H1|]. rewrite H2. cbn. now rewrite <- app_assoc.
  - destruct d.
    + destruct (collect 0 [] l) as [[a r]|] eqn:E; [|discriminate]. inversion H; subst. apply IH in E. destruct E as [E1 E2].
      split; [discriminate|]. destruct a as [|b a]; [congruence|].
      change (separated (rev cur :: b :: a)) with (rev cur ++ TComma :: separated (b :: a)). rewrite <- app_assoc. cbn [app]. now rewrite E2.
    + apply IH in H. destruct H as [H1 H2]. split; [exact H1|]. rewrite H2. cbn. now rewrite <- app_assoc.
  - apply IH in H. destruct H as [H1 H2]. split; [exact H1|]. rewrite H2. cbn. now rewrite <- app_assoc.
  - apply IH in H. destruct H as [H1 H2]. split; [exact H1|]. rewrite H2. cbn. now rewrite <- app_assoc.
Qed.

Lemma total_zero es : total (map exposed es) = 0 <-> forall e, In e es -> exposed e = 0.
Proof.
  induction es as [|e es IH]; cbn; [split; [intros _ e []|reflexivity]|]. split.
  - intros H x [<-|Hx]; [lia|]. apply IH; [lia|exact Hx].
  - intros H. rewrite (H e) by now left. apply IH. intros x Hx. apply H. now right.
Qed.
Lemma client_shapes es : Forall2 shape (map print es) (map exposed es).
Proof. induction es; constructor; [apply print_shape|assumption]. Qed.
Lemma take_client m n es : parameters m = Some n -> len es = n -> n <> 0 ->
  take m (client_call es) = if total (map exposed es) =? 0 then Taken (map print es) else NotTaken.
Proof.
  intros Hp Hl Hn. unfold client_call, take. destruct (total (map exposed es) =? 0) eqn:E.
  - apply Nat.eqb_eq in E. rewrite arguments_exact.
    + rewrite Hp, map_length, Hl, Nat.eqb_refl. reflexivity.
    + apply Forall_forall. intros x Hx. apply in_map_iff in Hx as (e & <- & He). rewrite <- (proj1 (total_zero es) E e He). apply print_shape.
    + intros H. apply map_eq_nil in H. subst es. cbn in Hl. congruence.
  - apply Nat.eqb_neq in E. destruct (arguments_count (map print es) (map exposed es) (client_shapes es)) as (args & -> & L).
    + intros H. apply map_eq_nil in H. subst es. cbn in Hl. congruence.
    + rewrite Hp, L, map_length. replace (len es + _ =? n) with false; [reflexivity|]. symmetry. apply Nat.eqb_neq. lia.
Qed.
Lemma take_shapes m n ls ns : parameters m = Some n -> len ls = n -> n <> 0 -> Forall2 shape ls ns ->
  take m (call_tokens ls) = if total ns =? 0 then Taken ls else NotTaken.
Proof.
  intros Hp Hl Hn HF. unfold take. destruct (total ns =? 0) eqn:E.
  - apply Nat.eqb_eq in E. rewrite arguments_exact.
    + rewrite Hp, Hl, Nat.eqb_refl. reflexivity.
    + clear - HF E. induction HF; constructor; cbn in E; [replace y with 0 in H by lia; exact H|apply IHHF; lia].
    + intros ->. cbn in Hl. congruence.
  - apply Nat.eqb_neq in E. destruct (arguments_count ls ns HF) as (args & -> & L).
    + intros ->. cbn in Hl. congruence.
    + rewrite Hp, L. replace (len ls + _ =? n) with false; [reflexivity|]. symmetry. apply Nat.eqb_neq. lia.
Qed.
Lemma words_shape l : shape (map TWord l) 0.
Proof. induction l as [|s l IH]; cbn; [exact shape_nil|now apply shape_cons_word]. Qed.
Lemma throw_taken nd msg n : shape msg n ->
  (let '(m1, args1) := throw_ msg in
   match take m1 (call_tokens args1) with
   | NotTaken => false
   | Taken args2 => forallb (fun '(m2, args3) => is_taken (take m2 (call_tokens args3))) (calls nd m1 args2)
   end) = (n =? 0).
Proof.
  intros H. unfold throw_. match goal with |- context [take ?m (call_tokens ?ls)] => rewrite (take_shapes m 3 ls [0; 0; n] eq_refl eq_refl) end.
  - cbn [total]. rewrite Nat.add_0_r. cbn [Nat.add]. destruct (n =? 0); reflexivity.
  - discriminate.
  - constructor; [apply shape_word|]. constructor; [apply words_shape|]. constructor; [apply shape_cons_word, H|constructor].
Qed.
Lemma catch_taken nd str : shape str 0 ->
  (let '(m1, args1) := (TEST_CATCH, [str]) in
   match take m1 (call_tokens args1) with
   | NotTaken => false
   | Taken args2 => forallb (fun '(m2, args3) => is_taken (take m2 (call_tokens args3))) (calls nd m1 args2)
   end) = true.
Proof.
  intros H. cbn beta iota. match goal with |- context [take ?m (call_tokens ?ls)] => rewrite (take_shapes m 1 ls [0] eq_refl eq_refl) end; [reflexivity|discriminate|]. constructor; [exact H|constructor].
Qed.
Lemma comment_taken nd str : shape str 0 ->
  (let '(m1, args1) := (PRINT_TEST_COMMENT, [str]) in
   match take m1 (call_tokens args1) with
   | NotTaken => false
   | Taken args2 => forallb (fun '(m2, args3) => is_taken (take m2 (call_tokens args3))) (calls nd m1 args2)
   end) = true.
Proof.
  intros H. cbn beta iota. match goal with |- context [take ?m (call_tokens ?ls)] => rewrite (take_shapes m 1 ls [0] eq_refl eq_refl) end; [reflexivity|discriminate|]. constructor; [exact H|constructor].
Qed.
Lemma compare_taken nd a b c n : shape a n ->
  (let '(m1, args1) := (TEST_COMPARE, [[TOpen; TWord "*"] ++ a ++ [TWord b; TWord c; TWord "]"; TClose]; [TWord "=="];
                       [TOpen; TWord "*"; TWord "it"; TClose]]) in
   match take m1 (call_tokens args1) with
   | NotTaken => false
   | Taken args2 => forallb (fun '(m2, args3) => is_taken (take m2 (call_tokens args3))) (calls nd m1 args2)
   end) = true.
Proof.
  intros H. cbn beta iota. match goal with |- context [take ?m (call_tokens ?ls)] => rewrite (take_shapes m 3 ls [0; 0; 0] eq_refl eq_refl) end; [reflexivity|discriminate|].
  constructor; [|constructor; [apply shape_word|constructor; [|constructor]]].
  - replace ([TOpen; TWord "*"] ++ a ++ [TWord b; TWord c; TWord "]"; TClose])
      with (TOpen :: (TWord "*" :: a ++ [TWord b; TWord c; TWord "]"]) ++ [TClose]) by (cbn; now rewrite <- app_assoc).
    eapply shape_parens, shape_cons_word, shape_app; [exact H|]. apply (words_shape [b; c; "]"]).
  - apply (shape_parens [TWord "*"; TWord "it"] 0). apply (words_shape ["*"; "it"]).
Qed.
Lemma equal_taken nd a n : shape a n ->
  (let '(m1, args1) := (TEST_EQUAL, [[TWord "elements_count"]; a]) in
   match take m1 (call_tokens args1) with
   | NotTaken => false
   | Taken args2 => forallb (fun '(m2, args3) => is_taken (take m2 (call_tokens args3))) (calls nd m1 args2)
   end) = (n =? 0).
Proof.
  intros H. cbn beta iota. match goal with |- context [take ?m (call_tokens ?ls)] => rewrite (take_shapes m 2 ls [0; n] eq_refl eq_refl) end.
  - cbn [total]. rewrite Nat.add_0_r. cbn [Nat.add]. destruct (n =? 0); reflexivity.
  - discriminate.
  - constructor; [apply shape_word|]. constructor; [exact H|constructor].
Qed.

Definition handed_commas (nd : bool) (m : macro) (es : list cexpr) : nat :=
  total (map (fun i => match nth_error es i with Some e => exposed_expanded e | None => 0 end) (handed_on nd m)).
Lemma str_shape : shape [TWord "#expression"] 0.
Proof. apply shape_word. Qed.
Lemma str_with a n : shape a n -> shape ([TWord "#expression"] ++ TWord "<<" :: a) n.
Proof. intros H. apply shape_cons_word, shape_cons_word, H. Qed.
Lemma nested nd m n es : parameters m = Some n -> len es = n ->
  forallb (fun '(m1, args1) => match take m1 (call_tokens args1) with
                               | NotTaken => false
                               | Taken args2 => forallb (fun '(m2, args3) => is_taken (take m2 (call_tokens args3))) (calls nd m1 args2)
                               end) (calls nd m (map print es)) = (handed_commas nd m es =? 0).
Proof.
  intros Hp Hl. unfold handed_commas.
  destruct m; try discriminate Hp; injection Hp as <-; cbn [calls handed_on];
  try match goal with |- context [if nd then _ else _] => destruct nd end;
  match goal with |- forallb _ [] = _ => reflexivity | _ => idtac end;
  match goal with |- forallb _ [throw_ [TWord _]] = _ => cbn [forallb map total]; rewrite (throw_taken _ _ 0) by apply str_shape; reflexivity
  | |- forallb _ [(TEST_CATCH, _)] = _ => cbn [forallb map total]; rewrite (catch_taken _ _) by apply str_shape; reflexivity | _ => idtac end;
  (destruct es as [|e1 es]; [discriminate Hl|]); (destruct es as [|e2 es]; [try discriminate Hl|]);
  cbn [nth_error forallb map total nth]; rewrite ?andb_true_r, ?expand_print.
  - erewrite throw_taken by apply str_with, print_expanded_shape. now rewrite Nat.add_0_r.
  - erewrite throw_taken by apply str_with, print_expanded_shape. now rewrite Nat.add_0_r.
  - erewrite throw_taken by apply shape_cons_word, print_expanded_shape. now rewrite Nat.add_0_r.
  - discriminate Hl.
  - erewrite throw_taken by apply str_with, print_expanded_shape. now rewrite Nat.add_0_r.
  - erewrite throw_taken.
    2: { apply str_with. apply shape_app; [apply print_expanded_shape|]. apply shape_app; [apply (words_shape ["<<"; "!="; "<<"])|].
         apply print_expanded_shape. }
    f_equal. lia.
  - destruct es as [|e3 es]; [discriminate Hl|]. cbn [map nth]. rewrite expand_print.
    pose proof (comment_taken nd _ str_shape) as E1. pose proof (compare_taken nd _ "[" "elements_count" _ (print_expanded_shape e1)) as E2.
    pose proof (equal_taken nd _ _ (print_expanded_shape e3)) as E3. cbn beta iota in E1, E2, E3.
    rewrite E1, E2, E3. cbn [andb]. now rewrite Nat.add_0_r.
Qed.
Lemma total_map_zero (g : nat -> nat) l : total (map g l) = 0 <-> forall i, In i l -> g i = 0.
Proof.
  induction l as [|a l IH]; cbn; [split; [intros _ i []|reflexivity]|]. split.
  - intros H i [<-|Hi]; [lia|]. apply IH; [lia|exact Hi].
  - intros H. rewrite (H a) by now left. apply IH. intros i Hi. apply H. now right.
Qed.
Lemma handed_zero nd m es : handed_commas nd m es = 0 <-> forall i e, In i (handed_on nd m) -> nth_error es i = Some e -> exposed_expanded e = 0.
Proof.
  unfold handed_commas. rewrite total_map_zero. split.
  - intros H i e Hi He. specialize (H i Hi). cbn beta in H. rewrite He in H. exact H.
  - intros H i Hi. destruct (nth_error es i) as [e|] eqn:E; [|reflexivity]. exact (H i e Hi E).
Qed.
Lemma parameters_positive m n : parameters m = Some n -> n <> 0.
Proof. destruct m; intros H; inversion H; discriminate. Qed.

Lemma accepted_iff nd m n es : parameters m = Some n -> len es = n -> (accepted nd m (client_call es) = true <-> separable nd m es).
Proof.
  intros Hp Hl. unfold accepted, separable. rewrite (take_client m n es Hp Hl (parameters_positive m n Hp)).
  rewrite <- total_zero, <- handed_zero. destruct (total (map exposed es) =? 0) eqn:E.
  - rewrite (nested nd m n es Hp Hl). apply Nat.eqb_eq in E. rewrite Nat.eqb_eq. tauto.
  - apply Nat.eqb_neq in E. split; [discriminate|tauto].
Qed.
Lemma taken_arguments nd m n es : parameters m = Some n -> len es = n -> separable nd m es -> take m (client_call es) = Taken (map print es).
Proof.
  intros Hp Hl [H _]. rewrite (take_client m n es Hp Hl (parameters_positive m n Hp)). apply total_zero in H. now rewrite H.
Qed.
Lemma variadic_taken nd m es : parameters m = None -> es <> [] ->
  take m (client_call es) = Taken [separated (map print es)] /\ accepted nd m (client_call es) = true.
Proof.
  intros Hp Hne.
  assert (T : take m (client_call es) = Taken [separated (map print es)]).
  { unfold take, client_call. destruct (arguments_count (map print es) (map exposed es) (client_shapes es)) as (args & E & _).
    { intros H. apply map_eq_nil in H. congruence. }
    rewrite E, Hp. unfold call_tokens in E. cbn [arguments] in E. apply collect_text in E as [_ E]. cbn [rev app] in E.
    apply app_inj_tail in E as [E _]. now rewrite E. }
  split; [exact T|]. unfold accepted. rewrite T. destruct m; try discriminate Hp; reflexivity.
Qed.
Lemma exposed_rejected nd m n es e : parameters m = Some n -> len es = n -> In e es -> exposed e <> 0 -> accepted nd m (client_call es) = false.
Proof.
  intros Hp Hl Hi He. destruct (accepted nd m (client_call es)) eqn:A; [|reflexivity].
  apply (accepted_iff nd m n es Hp Hl) in A. destruct A as [A _]. now rewrite (A e Hi) in He.
Qed.
Lemma template_exposed f a b l : exposed (CTemplate f (a :: b :: l)) <> 0.
Proof. cbn. lia. Qed.
Lemma braces_exposed t a b l : exposed (CBraces t (a :: b :: l)) <> 0.
Proof. cbn. lia. Qed.
Lemma template_rejected nd m n es f a b l : parameters m = Some n -> len es = n -> In (CTemplate f (a :: b :: l)) es ->
  accepted nd m (client_call es) = false.
Proof. intros. eapply exposed_rejected; eauto. apply template_exposed. Qed.
Lemma braces_rejected nd m n es t a b l : parameters m = Some n -> len es = n -> In (CBraces t (a :: b :: l)) es ->
  accepted nd m (client_call es) = false.
Proof. intros. eapply exposed_rejected; eauto. apply braces_exposed. Qed.
Lemma handed_rejected nd m n es i e : parameters m = Some n -> len es = n -> In i (handed_on nd m) -> nth_error es i = Some (CDefined e) ->
  exposed_expanded e <> 0 -> accepted nd m (client_call es) = false.
Proof.
  intros Hp Hl Hi Hn He. destruct (accepted nd m (client_call es)) eqn:A; [|reflexivity].
  apply (accepted_iff nd m n es Hp Hl) in A. destruct A as [_ A]. elim He. exact (A i _ Hi Hn).
Qed.
Lemma parens_accepted nd m n es : parameters m = Some n -> len es = n -> (forall e, In e es -> exists e', e = CParen e') ->
  accepted nd m (client_call es) = true.
Proof.
  intros Hp Hl H. apply (accepted_iff nd m n es Hp Hl). split.
  - intros e He. destruct (H e He) as [e' ->]. reflexivity.
  - intros i e _ He. apply nth_error_In in He. destruct (H e He) as [e' ->]. reflexivity.
Qed.
