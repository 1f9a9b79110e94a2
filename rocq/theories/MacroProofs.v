(** MacroProofs.v -- proofs about MacroModel. *)
From Verif Require Import Base StreamModel MacroModel MacroSpec.
From Coq Require Import String.
Open Scope list_scope.
Open Scope Z_scope.

(** ** Inserting a scope *)
Fixpoint ins (k : nat) (f : frame) (l : list frame) : list frame :=
  match k, l with
  | O, _ => f :: l
  | S k', g :: l' => g :: ins k' f l'
  | S _, [] => [f]
  end.

Lemma lookup_ins k f l x : find_in x f = None -> lookup x (ins k f l) = lookup x l.
Proof.
  intros H. revert l. induction k as [|k IH]; intros [|g l]; cbn.
  - now rewrite H.
  - now rewrite H.
  - now rewrite H.
  - now rewrite IH.
Qed.
Lemma assign_ins k f l x c : find_in x f = None -> assign x c (ins k f l) = ins k f (assign x c l).
Proof.
  intros H. revert l. induction k as [|k IH]; intros [|g l]; cbn; rewrite ?H; try reflexivity.
  destruct (find_in x g); cbn; [reflexivity | now rewrite IH].
Qed.
Lemma assign_length x c l : List.length (assign x c l) = List.length l.
Proof. induction l as [|f l IH]; cbn; [reflexivity|]. destruct (find_in x f); cbn; congruence. Qed.
Lemma ins_tl k f l : l <> [] -> tl (ins (S k) f l) = ins k f (tl l).
Proof. destruct l; [easy|reflexivity]. Qed.
Lemma find_set_in x c f : find_in x f <> None -> find_in x (set_in x c f) = Some c.
Proof.
  induction f as [|[y d] f IH]; cbn; [easy|]. destruct (String.eqb x y) eqn:E; cbn; rewrite E; auto.
Qed.
Lemma find_set_in_other x y c f : x <> y -> find_in y (set_in x c f) = find_in y f.
Proof.
  intros H. induction f as [|[z d] f IH]; cbn; [reflexivity|].
  destruct (String.eqb x z) eqn:E; cbn.
  - apply String.eqb_eq in E as <-. destruct (String.eqb y x) eqn:E2; [|reflexivity].
    apply String.eqb_eq in E2. congruence.
  - now rewrite IH.
Qed.
Lemma lookup_assign x c l : lookup x l <> None -> lookup x (assign x c l) = Some c.
Proof.
  induction l as [|f l IH]; cbn; [easy|]. destruct (find_in x f) eqn:E; intros H; cbn.
  - rewrite find_set_in by congruence. reflexivity.
  - rewrite E. auto.
Qed.
Lemma lookup_assign_other x y c l : x <> y -> lookup y (assign x c l) = lookup y l.
Proof.
  intros H. induction l as [|f l IH]; cbn; [reflexivity|]. destruct (find_in x f) eqn:E; cbn.
  - now rewrite find_set_in_other.
  - destruct (find_in y f); auto.
Qed.

Definition avoids {A} (P : name -> A -> bool) (a : A) (f : frame) : Prop :=
  forall x, P x a = true -> find_in x f = None.

Section Ins.
Context {W : Type} (call : nat -> list Z -> W -> callres W) (ltr : bool).
Notation St := (st W).
Notation eval := (eval call ltr).
Notation exec := (exec call ltr).
Notation insert := (insert call ltr).
Notation render := (render call ltr).

Definition insS (k : nat) (f : frame) (s : St) : St := with_frames (ins k f (s_frames s)) s.
Definition omap {A} (g : St -> St) (m : outc St A) : outc St A :=
  match m with Norm a s => Norm a (g s) | Thrown x s => Thrown x (g s) | Undef r => Undef r | Ill => Ill end.

Lemma insS_0 f s : insS 0 f s = push f s.
Proof. reflexivity. Qed.
Lemma omap_obind {A B} g (m : outc St A) (k k' : A -> St -> outc St B) :
  (forall a s, m = Norm a s -> k' a (g s) = omap g (k a s)) -> obind (omap g m) k' = omap g (obind m k).
Proof. destruct m; cbn; auto. Qed.

Lemma read_var_ins k f x s : find_in x f = None -> read_var x (insS k f s) = omap (insS k f) (read_var x s).
Proof.
  intros H. unfold read_var, insS; cbn. rewrite lookup_ins by exact H.
  destruct (lookup x (s_frames s)) as [[]|]; cbn; try reflexivity.
  destruct (s_statics s site); reflexivity.
Qed.
Lemma write_var_ins k f x z s : find_in x f = None -> write_var x z (insS k f s) = omap (insS k f) (write_var x z s).
Proof.
  intros H. unfold write_var, insS; cbn. rewrite lookup_ins by exact H.
  destruct (lookup x (s_frames s)) as [[]|]; cbn; try reflexivity.
  - rewrite assign_ins by exact H. reflexivity.
  - rewrite assign_ins by exact H. reflexivity.
Qed.
Lemma do_call_ins k f n l s : do_call call n l (insS k f s) = omap (insS k f) (do_call call n l s).
Proof. unfold do_call; cbn. destruct (call n l (s_world s)); reflexivity. Qed.
Lemma both_ins {A} k f (m1 m2 : St -> outc St Z) (c : Z -> Z -> St -> outc St A) :
  (forall s, m1 (insS k f s) = omap (insS k f) (m1 s)) -> (forall s, m2 (insS k f s) = omap (insS k f) (m2 s)) ->
  (forall a b s, c a b (insS k f s) = omap (insS k f) (c a b s)) ->
  forall s, both ltr m1 m2 c (insS k f s) = omap (insS k f) (both ltr m1 m2 c s).
Proof.
  intros H1 H2 Hc s. unfold both. destruct ltr.
  - rewrite H1. apply omap_obind. intros a s1 _. rewrite H2. apply omap_obind. intros; apply Hc.
  - rewrite H2. apply omap_obind. intros a s1 _. rewrite H1. apply omap_obind. intros; apply Hc.
Qed.

Lemma avoids_l (P1 P2 : name -> bool) f :
  (forall x, P1 x || P2 x = true -> find_in x f = None) -> forall x, P1 x = true -> find_in x f = None.
Proof. intros H x Hx. apply H. now rewrite Hx. Qed.
Lemma avoids_r (P1 P2 : name -> bool) f :
  (forall x, P1 x || P2 x = true -> find_in x f = None) -> forall x, P2 x = true -> find_in x f = None.
Proof. intros H x Hx. apply H. rewrite Hx. apply orb_true_r. Qed.

Lemma eval_ins k f e : avoids mentions e f -> forall s, eval e (insS k f s) = omap (insS k f) (eval e s).
Proof.
  unfold avoids. induction e; cbn [mentions]; intros H s; cbn [MacroModel.eval].
  - reflexivity.
  - apply read_var_ins. apply H. apply String.eqb_refl.
  - rewrite IHe by assumption. apply omap_obind. reflexivity.
  - rewrite IHe by assumption. apply omap_obind. reflexivity.
  - rewrite IHe1 by exact (avoids_l _ _ _ H). apply omap_obind. intros a s1 _. destruct (truth a); [|reflexivity].
    rewrite IHe2 by exact (avoids_r _ _ _ H). apply omap_obind. reflexivity.
  - apply both_ins; [apply IHe1; exact (avoids_l _ _ _ H) | apply IHe2; exact (avoids_r _ _ _ H) | reflexivity].
  - apply both_ins; [apply IHe1; exact (avoids_l _ _ _ H) | apply IHe2; exact (avoids_r _ _ _ H) | reflexivity].
  - rewrite IHe by assumption. apply omap_obind. reflexivity.
  - rewrite IHe by assumption. apply omap_obind. intros. apply do_call_ins.
  - apply both_ins; [apply IHe1; exact (avoids_l _ _ _ H) | apply IHe2; exact (avoids_r _ _ _ H) | ].
    intros; apply do_call_ins.
  - rewrite IHe by exact (avoids_r _ _ _ H). apply omap_obind. intros. apply write_var_ins.
    apply H. now rewrite String.eqb_refl.
  - assert (Hx : find_in x f = None) by (apply H, String.eqb_refl).
    rewrite read_var_ins by exact Hx. apply omap_obind. intros a s1 _.
    destruct (a + 1 <? 2 ^ 31); [|reflexivity]. now apply write_var_ins.
  - apply both_ins; [apply IHe1; exact (avoids_l _ _ _ H) | apply IHe2; exact (avoids_r _ _ _ H) | reflexivity].
Qed.
Lemma what_of_ins k f x s : find_in x f = None -> what_of x (insS k f s) = omap (insS k f) (what_of x s).
Proof.
  intros H. unfold what_of, insS; cbn. rewrite lookup_ins by exact H.
  destruct (lookup x (s_frames s)) as [[| | | | |[]]|]; reflexivity.
Qed.
Lemma render_ins k f ps : avoids msg_mentions ps f -> forall s, render ps (insS k f s) = omap (insS k f) (render ps s).
Proof.
  unfold avoids, msg_mentions. induction ps as [|p ps IH]; cbn [existsb]; intros H s; [reflexivity|].
  destruct p as [t|e|x]; cbn [MacroSpec.render].
  - rewrite IH by exact (avoids_r _ _ _ H). apply omap_obind. reflexivity.
  - rewrite eval_ins by exact (avoids_l _ _ _ H). apply omap_obind. intros z s1 _.
    rewrite IH by exact (avoids_r _ _ _ H). apply omap_obind. reflexivity.
  - rewrite what_of_ins by (apply H; cbn; now rewrite String.eqb_refl).
    apply omap_obind. intros z s1 _.
    rewrite IH by exact (avoids_r _ _ _ H). apply omap_obind. reflexivity.
Qed.

(** ** Scopes of one name *)
Lemma avoids_one {A} (P : name -> A -> bool) a x c : P x a = false -> avoids P a [(x, c)].
Proof.
  intros H y Hy. cbn. destruct (String.eqb y x) eqn:E; [|reflexivity].
  apply String.eqb_eq in E as ->. congruence.
Qed.
Lemma avoids_nil {A} (P : name -> A -> bool) a : avoids P a [].
Proof. intros y Hy. reflexivity. Qed.
Lemma pop_push f (s : St) : pop (push f s) = s.
Proof. destruct s; reflexivity. Qed.
Lemma leave_push {A} f (m : outc St A) : leave (omap (push f) m) = m.
Proof. destruct m; cbn; rewrite ?pop_push; reflexivity. Qed.
Lemma push_define f x c z (s : St) : define x z (push ((x, c) :: f) s) = push ((x, CVal z) :: f) s.
Proof. unfold define, push, with_frames; cbn. rewrite String.eqb_refl. reflexivity. Qed.

(** ** HELPER_THROW *)
Lemma throw_loop ps : msg_mentions "ss" ps = false -> forall t s,
  leave (obind (insert (Into "ss") ps (push [("ss"%string, CStream t)] s)) (fun _ s' => exec (SThrow runtime_error "ss") s'))
  = match render ps s with
    | Norm u s' => Thrown (XStd runtime_error (t ++ u)) s'
    | Thrown x s' => Thrown x s' | Undef r => Undef r | Ill => Ill
    end.
Proof.
  unfold msg_mentions. induction ps as [|p ps IH]; cbn [existsb]; intros H t s.
  - cbn. rewrite app_nil_r. unfold pop, push, with_frames; cbn. destruct s; reflexivity.
  - apply orb_false_iff in H as [Hp H]. destruct p as [u|e|x]; cbn [part_mentions] in Hp;
      cbn [MacroModel.insert MacroSpec.render].
    + cbn. change (with_frames (((_, CStream (t ++ u)) :: nil) :: s_frames s) (push [("ss"%string, CStream t)] s))
        with (push [("ss"%string, CStream (t ++ u))] s).
      specialize (IH H (t ++ u) s). cbn in IH. rewrite IH. clear IH.
      destruct (render ps s); cbn; try reflexivity. now rewrite app_assoc.
    + rewrite <- insS_0, eval_ins by (now apply avoids_one).
      destruct (eval e s) as [z s1|x s1|r|]; cbn; try reflexivity.
      * specialize (IH H (t ++ int_text z) s1). cbn in IH.
        change (with_frames _ _) with (push [("ss"%string, CStream (t ++ int_text z))] s1).
        rewrite IH. destruct (render ps s1); cbn; try reflexivity. now rewrite app_assoc.
      * rewrite insS_0, pop_push. reflexivity.
    + rewrite <- insS_0, what_of_ins.
      2:{ cbn. rewrite (String.eqb_sym x "ss"), Hp. reflexivity. }
      destruct (what_of x s) as [u s1|y s1|r|]; cbn; try reflexivity.
      * specialize (IH H (t ++ u) s1). cbn in IH.
        change (with_frames _ _) with (push [("ss"%string, CStream (t ++ u))] s1).
        rewrite IH. destruct (render ps s1); cbn; try reflexivity. now rewrite app_assoc.
      * rewrite insS_0, pop_push. reflexivity.
Qed.
Lemma HELPER_THROW_ok func msg s :
  msg_mentions "ss" (func ++ msg) = false ->
  exec (HELPER_THROW func msg) s
  = match render ([lit "std::runtime_error in "] ++ func ++ [lit ": "] ++ msg) s with
    | Norm u s' => Thrown (XStd runtime_error u) s'
    | Thrown x s' => Thrown x s' | Undef r => Undef r | Ill => Ill
    end.
Proof.
  intros H. set (ps := [lit "std::runtime_error in "] ++ func ++ [lit ": "] ++ msg).
  assert (Hps : msg_mentions "ss" ps = false).
  { unfold ps, msg_mentions in *. rewrite !existsb_app in *. cbn.
    apply orb_false_iff in H as [-> ->]. reflexivity. }
  exact (throw_loop ps Hps [] s).
Qed.

Lemma render_app ps qs s : render (ps ++ qs) s
  = obind (render ps s) (fun t s1 => obind (render qs s1) (fun u s2 => Norm (t ++ u) s2)).
Proof.
  revert s. induction ps as [|p ps IH]; intros s; cbn.
  - destruct (render qs s); reflexivity.
  - destruct p; cbn.
    + rewrite IH. destruct (render ps s); cbn; try reflexivity.
      destruct (render qs s0); cbn; try reflexivity. now rewrite app_assoc.
    + destruct (eval e s) as [z s1|x s1|r|]; cbn; try reflexivity. rewrite IH.
      destruct (render ps s1) as [t s2| | |]; cbn; try reflexivity.
      destruct (render qs s2); cbn; try reflexivity. now rewrite app_assoc.
    + destruct (what_of x s) as [z s1|y s1|r|]; cbn; try reflexivity. rewrite IH.
      destruct (render ps s1) as [t s2| | |]; cbn; try reflexivity.
      destruct (render qs s2); cbn; try reflexivity. now rewrite app_assoc.
Qed.
Lemma render_loc l s : render (p_loc l) s =
  Norm (l_file l ++ chars ":" ++ int_text (l_line l) ++ chars ": " ++ l_func l ++ []) s.
Proof. reflexivity. Qed.

(** ** The assertion macros *)
Lemma assertion_exec local cond l msg s :
  mentions local cond = false -> msg_mentions local msg = false -> msg_mentions "ss" msg = false ->
  exec (assertion local cond l msg) s =
  match eval cond s with
  | Norm v s1 =>
      if v =? 0 then
        match render ([lit "std::runtime_error in "] ++ p_loc l ++ [lit ": "] ++ msg) s1 with
        | Norm t s2 => Thrown (XStd runtime_error t) s2
        | Thrown x s2 => Thrown x s2 | Undef r => Undef r | Ill => Ill
        end
      else Norm tt s1
  | Thrown x s1 => Thrown x s1 | Undef r => Undef r | Ill => Ill
  end.
Proof.
  intros Hc Hm Hss. set (all := [lit "std::runtime_error in "] ++ p_loc l ++ [lit ": "] ++ msg).
  assert (Hall : msg_mentions local all = false).
  { unfold all, msg_mentions in *. rewrite !existsb_app. cbn. exact Hm. }
  unfold assertion, brace. cbn [seqs MacroModel.exec obind].
  replace (declare local CIndet (push [] s)) with (Norm tt (push [(local, CIndet)] s) : outc St unit) by reflexivity.
  cbn [obind MacroModel.eval].
  rewrite <- insS_0, eval_ins by (now apply avoids_one).
  destruct (eval cond s) as [v s1|x s1|r|]; cbn [omap obind leave]; try reflexivity.
  2:{ rewrite insS_0, pop_push. reflexivity. }
  rewrite insS_0, push_define.
  replace (read_var local (push [(local, CVal (b2z (truth v)))] s1))
    with (Norm (b2z (truth v)) (push [(local, CVal (b2z (truth v)))] s1) : outc St Z)
    by (unfold read_var; cbn; now rewrite String.eqb_refl).
  cbn [obind]. unfold truth at 1 3. destruct (v =? 0) eqn:Ev; cbn [negb b2z].
  - unfold truth. cbn [Z.eqb negb b2z]. cbn [obind].
    rewrite HELPER_THROW_ok by (unfold msg_mentions in *; rewrite existsb_app; cbn; exact Hss).
    fold all. rewrite <- (insS_0 [] (push _ _)), render_ins by apply avoids_nil.
    rewrite <- (insS_0 [(local, _)]), render_ins by (now apply avoids_one).
    destruct (render all s1); cbn; try reflexivity.
    + now rewrite !insS_0, !pop_push.
    + now rewrite !insS_0, !pop_push.
  - unfold truth. cbn. now rewrite !pop_push.
Qed.

Lemma asserts_plain local cond l kind txt :
  mentions local cond = false ->
  asserts call ltr (assertion local cond l [lit (kind ++ " `")%string; PStr txt; lit "' failed."]) cond (report l kind txt) [].
Proof.
  intros H s. rewrite assertion_exec by (try exact H; reflexivity).
  destruct (eval cond s) as [v s1|x s1|r|]; try reflexivity.
  destruct (v =? 0); [|reflexivity]. cbn. do 2 f_equal. unfold report.
  rewrite !app_nil_r. unfold chars. rewrite <- ?app_assoc.
  assert (E : String.list_ascii_of_string (kind ++ " `")%string = String.list_ascii_of_string kind ++ String.list_ascii_of_string " `").
  { clear. induction kind as [|c k IH]; cbn; [reflexivity|]. now rewrite IH. }
  rewrite E, <- ?app_assoc. reflexivity.
Qed.
Lemma asserts_msg local cond l kind txt error :
  mentions local cond = false -> msg_mentions local error = false -> msg_mentions "ss" error = false ->
  asserts call ltr (assertion local cond l ([lit (kind ++ " `")%string; PStr txt; PStr (chars "' failed." ++ newline); lit "  "] ++ error))
    cond (report_msg l kind txt) error.
Proof.
  intros H Hm Hss s. rewrite assertion_exec by (first [exact H | exact Hm | exact Hss]).
  destruct (eval cond s) as [v s1|x s1|r|]; try reflexivity.
  destruct (v =? 0); [|reflexivity]. cbn. destruct (render error s1); cbn; try reflexivity.
  do 2 f_equal. unfold report_msg, report, chars. rewrite <- ?app_assoc.
  assert (E : String.list_ascii_of_string (kind ++ " `")%string = String.list_ascii_of_string kind ++ String.list_ascii_of_string " `").
  { clear. induction kind as [|c k IH]; cbn; [reflexivity|]. now rewrite IH. }
  rewrite E. repeat (rewrite <- app_assoc; cbn). reflexivity.
Qed.

(** the local variable of the macro captured by the condition *)
Lemma assertion_captured local l msg s : exec (assertion local (EVar local) l msg) s = Undef UbUninit.
Proof. unfold assertion, brace; cbn. unfold read_var; cbn. now rewrite String.eqb_refl. Qed.

(** ** Reporting once *)
Definition fired_first (site : nat) (t : nat -> option Z) : nat -> option Z :=
  upd_static site 0 (upd_static site 1 t).
Lemma fired_first_spec site t i : fired_first site t i = upd_static site 0 t i.
Proof. unfold fired_first, upd_static. destruct (Nat.eqb i site); reflexivity. Qed.

(** the common shape of 149-154 and 166-171 *)
Definition once (site : nat) (ps : list part) : stmt :=
  SBlock (SSeq (SStatic "first_time" site 1)
       (SIf (EVar "first_time") (SSeq (SExpr (EAssign "first_time" (ELit 0))) (SInsert Cerr ps)) SSkip)).
Lemma insert_ins k f snk ps : avoids msg_mentions ps f ->
  (match snk with Into x => find_in x f = None | _ => True end) ->
  forall s, insert snk ps (insS k f s) = omap (insS k f) (insert snk ps s).
Proof.
  intros H Hs.
  assert (Hput : forall t s, put snk t (insS k f s) = omap (insS k f) (put snk t s)).
  { intros t s. destruct snk; try reflexivity. cbn. rewrite lookup_ins by exact Hs.
    destruct (lookup x (s_frames s)) as [[]|]; try reflexivity. cbn.
    unfold insS, with_frames; cbn. now rewrite assign_ins. }
  revert H. unfold avoids, msg_mentions. induction ps as [|p ps IH]; cbn [existsb]; intros H s; [reflexivity|].
  destruct p as [t|e|x]; cbn [MacroModel.insert].
  - rewrite Hput. apply omap_obind. intros [] s1 _. apply IH. exact (avoids_r _ _ _ H).
  - rewrite eval_ins by exact (avoids_l _ _ _ H). apply omap_obind. intros z s1 _.
    rewrite Hput. apply omap_obind. intros [] s2 _. apply IH. exact (avoids_r _ _ _ H).
  - rewrite what_of_ins by (apply H; cbn; now rewrite String.eqb_refl). apply omap_obind. intros z s1 _.
    rewrite Hput. apply omap_obind. intros [] s2 _. apply IH. exact (avoids_r _ _ _ H).
Qed.
Lemma once_new site ps s : s_statics s site = None -> msg_mentions "first_time" ps = false ->
  exec (once site ps) s = insert Cerr ps (with_statics (fired_first site (s_statics s)) s).
Proof.
  intros H Hps. unfold once. cbn [MacroModel.exec obind].
  cbn [declare push s_frames with_frames find_in obind s_statics]. rewrite H.
  cbn [obind MacroModel.eval]. unfold read_var at 1. cbn [with_statics s_frames with_frames push lookup find_in String.eqb Ascii.eqb Bool.eqb s_statics].
  unfold upd_static at 1. rewrite Nat.eqb_refl. cbn [obind truth Z.eqb negb].
  unfold write_var. cbn -[MacroModel.insert].
  match goal with |- context [insert Cerr ps ?s1] =>
    replace s1 with (insS 0 [] (insS 0 [("first_time"%string, CStatic site)] (with_statics (fired_first site (s_statics s)) s)))
      by (unfold fired_first; destruct s; reflexivity)
  end.
  rewrite insert_ins by (try exact I; apply avoids_nil).
  rewrite insert_ins by (try exact I; now apply avoids_one).
  destruct (insert Cerr ps _); cbn; rewrite ?insS_0, ?pop_push; try reflexivity.
Qed.
Lemma once_again site ps s : s_statics s site = Some 0 -> exec (once site ps) s = Norm tt s.
Proof.
  intros H. unfold once. cbn [MacroModel.exec obind].
  cbn [declare push s_frames with_frames find_in obind s_statics]. rewrite H.
  cbn [obind MacroModel.eval]. unfold read_var at 1. cbn [with_statics s_frames with_frames push lookup find_in String.eqb Ascii.eqb Bool.eqb s_statics].
  rewrite H. cbn. destruct s; reflexivity.
Qed.
Lemma insert_texts_err ts s : insert Cerr (map PStr ts) s = Norm tt (add_err (List.concat ts) s).
Proof.
  revert s. induction ts as [|t ts IH]; intros s; cbn.
  - unfold add_err. rewrite app_nil_r. destruct s; reflexivity.
  - rewrite IH. unfold add_err; cbn. now rewrite app_assoc.
Qed.

Lemma occurrence_exec o s :
  (s_statics s (site_of o) = Some 0 -> exec (occurrence_stmt o) s = Norm tt s) /\
  (s_statics s (site_of o) = None ->
   exec (occurrence_stmt o) s = Norm tt (add_err (line_of o) (with_statics (fired_first (site_of o) (s_statics s)) s))).
Proof.
  destruct o as [i msg|i fn msg]; cbn [site_of]; split; intros H.
  - change (occurrence_stmt (OWarn i msg)) with (once i (map PStr [chars "WARNING: "; msg; []; newline])). now apply once_again.
  - change (occurrence_stmt (OWarn i msg)) with (once i (map PStr [chars "WARNING: "; msg; []; newline])).
    rewrite once_new by (try exact H; reflexivity). rewrite insert_texts_err. cbn [List.concat line_of app]. now rewrite app_nil_r.
  - change (occurrence_stmt (ODeprecated i fn msg)) with
      (once i (map PStr [chars "DEPRECATED: Function "; fn; chars " is deprecated. "; msg; newline])). now apply once_again.
  - change (occurrence_stmt (ODeprecated i fn msg)) with
      (once i (map PStr [chars "DEPRECATED: Function "; fn; chars " is deprecated. "; msg; newline])).
    rewrite once_new by (try exact H; reflexivity). rewrite insert_texts_err. cbn [List.concat line_of]. now rewrite app_nil_r.
Qed.
Lemma exec_seqs_cons c l s : exec (seqs (c :: l)) s = obind (exec c s) (fun _ s' => exec (seqs l) s').
Proof.
  destruct l as [|d l]; [|reflexivity]. cbn. destruct (exec c s) as [[]| | |]; reflexivity.
Qed.
Lemma existsb_eqb_In i l : existsb (Nat.eqb i) l = true <-> In i l.
Proof.
  rewrite existsb_exists. split.
  - intros (j & Hj & E). apply Nat.eqb_eq in E. now subst.
  - intros H. exists i. split; [exact H|apply Nat.eqb_refl].
Qed.
Lemma trace_exec tr : forall before s,
  (forall i, s_statics s i = if existsb (Nat.eqb i) before then Some 0 else None) ->
  exists t, exec (trace_stmt tr) s = Norm tt (add_err (List.concat (reported before tr)) (with_statics t s)).
Proof.
  induction tr as [|o tr IH]; intros before s H.
  - exists (s_statics s). cbn. unfold add_err. rewrite app_nil_r. destruct s; reflexivity.
  - unfold trace_stmt. cbn [map]. rewrite exec_seqs_cons. fold (trace_stmt tr).
    destruct (occurrence_exec o s) as [H0 H1]. cbn [reported].
    rewrite (H (site_of o)) in H0, H1. destruct (existsb (Nat.eqb (site_of o)) before) eqn:E.
    + rewrite H0 by reflexivity. cbn [obind app].
      apply IH. intros i. rewrite H. cbn [existsb]. destruct (Nat.eqb i (site_of o)) eqn:Ei; [|reflexivity].
      apply Nat.eqb_eq in Ei as ->. now rewrite E.
    + rewrite H1 by reflexivity. cbn [obind app List.concat].
      destruct (IH (site_of o :: before) (add_err (line_of o) (with_statics (fired_first (site_of o) (s_statics s)) s))) as (t & Ht).
      * intros i. cbn [s_statics add_err with_statics existsb]. rewrite fired_first_spec. unfold upd_static.
        destruct (Nat.eqb i (site_of o)); [reflexivity|]. apply H.
      * exists t. rewrite Ht. unfold add_err, with_statics; cbn. now rewrite app_assoc.
Qed.

(** ** if(c) HELPER_WARN_ONCE(msg); *)
Lemma if_warn_once_ill c site msg s : mentions "first_time" c = false -> lookup "first_time" (s_frames s) = None ->
  forall v s1, eval c s = Norm v s1 -> lookup "first_time" (s_frames s1) = None ->
  exec (if_warn_once c site msg) s = Ill.
Proof.
  intros _ _ v s1 E H1. unfold if_warn_once. cbn [seqs MacroModel.exec]. rewrite E. cbn [obind].
  assert (Hr : forall t, read_var "first_time" (with_statics t s1) = Ill).
  { intros t. unfold read_var; cbn. now rewrite H1. }
  destruct (truth v); cbn [MacroModel.exec warn_once_decl].
  - cbn [declare push s_frames with_frames find_in obind s_statics].
    destruct (s_statics s1 site); cbn [leave obind MacroModel.exec warn_once_rest MacroModel.eval].
    + change (pop _) with (pop (push [("first_time"%string, CStatic site)] s1)). rewrite pop_push.
      unfold read_var. now rewrite H1.
    + match goal with |- context [pop ?x] => change (pop x) with (pop (push [("first_time"%string, CStatic site)] (with_statics (upd_static site 1 (s_statics s1)) s1))) end.
      rewrite pop_push, Hr. reflexivity.
  - cbn [leave obind MacroModel.exec warn_once_rest MacroModel.eval]. rewrite pop_push. unfold read_var. now rewrite H1.
Qed.
Lemma if_deprecated_ill c site fn msg s : lookup "first_time" (s_frames s) = None ->
  forall v s1, eval c s = Norm v s1 -> lookup "first_time" (s_frames s1) = None ->
  exec (if_deprecated c site fn msg) s = Ill.
Proof.
  intros _ v s1 E H1. unfold if_deprecated. cbn [seqs MacroModel.exec]. rewrite E. cbn [obind].
  assert (Hr : forall t, read_var "first_time" (with_statics t s1) = Ill).
  { intros t. unfold read_var; cbn. now rewrite H1. }
  destruct (truth v); cbn [MacroModel.exec].
  - cbn [declare push s_frames with_frames find_in obind s_statics].
    destruct (s_statics s1 site); cbn [leave obind MacroModel.exec MacroModel.eval].
    + change (pop _) with (pop (push [("first_time"%string, CStatic site)] s1)). rewrite pop_push.
      unfold read_var. now rewrite H1.
    + match goal with |- context [pop ?x] => change (pop x) with (pop (push [("first_time"%string, CStatic site)] (with_statics (upd_static site 1 (s_statics s1)) s1))) end.
      rewrite pop_push, Hr. reflexivity.
  - cbn [leave obind MacroModel.exec MacroModel.eval]. rewrite pop_push. unfold read_var. now rewrite H1.
Qed.
(** a false guard before the macros, a variable first_time visible *)
Lemma if_once_false c site fn txt m s s1 n : eval c s = Norm 0 s1 -> lookup "first_time" (s_frames s1) = Some (CVal n) ->
  let report t := Norm tt (if truth n then add_err t (with_frames (assign "first_time" (CVal 0) (s_frames s1)) s1) else s1) in
  exec (if_warn_once c site [PStr m]) s = report (chars "WARNING: " ++ m ++ newline) /\
  exec (if_deprecated c site fn txt) s = report (chars "DEPRECATED: Function " ++ fn ++ chars " is deprecated. " ++ txt ++ newline).
Proof.
  intros E H report. unfold if_warn_once, if_deprecated, warn_once_rest, warn_once_decl, report. cbn [seqs MacroModel.exec]. rewrite E. cbn [obind truth negb Z.eqb MacroModel.exec leave].
  rewrite pop_push. cbn [MacroModel.eval]. unfold read_var. rewrite H. cbn [obind]. destruct (truth n); cbn [MacroModel.exec leave obind MacroModel.eval].
  - unfold write_var. cbn [push with_frames s_frames lookup find_in]. rewrite H. cbn [obind assign find_in s_frames with_frames].
    split; cbn; unfold pop, add_err, with_frames; cbn; rewrite <- !app_assoc; reflexivity.
  - rewrite pop_push. split; reflexivity.
Qed.
Lemma braced_if_false c body s s1 : eval c s = Norm 0 s1 -> exec (SIf c body SSkip) s = Norm tt s1.
Proof. intros E. cbn [MacroModel.exec]. rewrite E. cbn. now rewrite pop_push. Qed.
End Ins.

Section Equal.
Context {W : Type} (call : nat -> list Z -> W -> callres W) (ltr : bool).
Notation St := (st W).

Definition equal_extra (e1 e2 : expr) : list part := [PExp e1; lit " != "; PExp e2].
Lemma msg_mentions_equal x e1 e2 : mentions x e1 = false -> mentions x e2 = false ->
  msg_mentions x (equal_extra e1 e2) = false.
Proof. intros H1 H2. cbn. now rewrite H1, H2. Qed.
(** the condition is evaluated once; on failure the message evaluates both operands once more *)
Lemma assert_equal_exact l t1 t2 e1 e2 :
  mentions "assertion_result" e1 = false -> mentions "assertion_result" e2 = false ->
  mentions "ss" e1 = false -> mentions "ss" e2 = false ->
  asserts call ltr (HELPER_ASSERT_EQUAL l t1 t2 e1 e2) (ECmp CEq e1 e2)
    (report_msg l "Assertion" (t1 ++ chars "==" ++ t2)) (equal_extra e1 e2).
Proof.
  intros H1 H2 H3 H4 s.
  unfold HELPER_ASSERT_EQUAL. rewrite assertion_exec.
  2:{ cbn. now rewrite H1, H2. }
  2:{ cbn. now rewrite H1, H2. }
  2:{ cbn. now rewrite H3, H4. }
  destruct (eval call ltr (ECmp CEq e1 e2) s) as [v s1|x s1|r|]; try reflexivity.
  destruct (v =? 0); [|reflexivity]. cbn.
  destruct (eval call ltr e1 s1) as [a s2|x s2|r|]; cbn; try reflexivity.
  destruct (eval call ltr e2 s2) as [b s3|x s3|r|]; cbn; try reflexivity.
  do 2 f_equal. unfold report_msg, report, chars. cbn. repeat (rewrite <- app_assoc; cbn). reflexivity.
Qed.
Lemma assert_equal_pure l t1 t2 e1 e2 s a b :
  mentions "assertion_result" e1 = false -> mentions "assertion_result" e2 = false ->
  mentions "ss" e1 = false -> mentions "ss" e2 = false ->
  eval call ltr e1 s = Norm a s -> eval call ltr e2 s = Norm b s ->
  exec call ltr (HELPER_ASSERT_EQUAL l t1 t2 e1 e2) s
  = if a =? b then Norm tt s
    else Thrown (XStd runtime_error (report_msg l "Assertion" (t1 ++ chars "==" ++ t2) ++ int_text a ++ chars " != " ++ int_text b)) s.
Proof.
  intros H1 H2 H3 H4 E1 E2. rewrite (assert_equal_exact l t1 t2 e1 e2 H1 H2 H3 H4 s).
  assert (E : eval call ltr (ECmp CEq e1 e2) s = Norm (b2z (a =? b)) s).
  { cbn. unfold both. destruct ltr; rewrite ?E1, ?E2; cbn; rewrite ?E1, ?E2; reflexivity. }
  rewrite E. destruct (a =? b); cbn; [reflexivity|]. rewrite E1. cbn. rewrite E2. cbn. now rewrite app_nil_r.
Qed.

Lemma once_first site msg (s : St) : s_statics s site = None -> msg_mentions "first_time" msg = false ->
  exists t, (forall i, t i = if Nat.eqb i site then Some 0 else s_statics s i) /\
  exec call ltr (SBlock (HELPER_WARN_ONCE site msg)) s = exec call ltr (HELPER_WARN msg) (with_statics t s).
Proof.
  intros H Hm. exists (fired_first site (s_statics s)). split; [intros i; apply fired_first_spec|].
  change (SBlock (HELPER_WARN_ONCE site msg)) with (once site ([lit "WARNING: "] ++ msg ++ [lit ""; endl])).
  rewrite once_new; [|exact H|].
  2:{ unfold msg_mentions in *. cbn. rewrite existsb_app, Hm. reflexivity. }
  unfold HELPER_WARN, brace. cbn [seqs exec]. rewrite <- (insS_0 []).
  rewrite insert_ins by (try exact I; apply avoids_nil).
  now rewrite (leave_push (W:=W) []).
Qed.
Lemma once_later site msg (s : St) : s_statics s site = Some 0 ->
  exec call ltr (SBlock (HELPER_WARN_ONCE site msg)) s = Norm tt s.
Proof. apply once_again. Qed.

Lemma fail_msg_exec l error (s : St) : msg_mentions "ss" error = false ->
  exec call ltr (HELPER_FAIL_MSG l error) s =
  match render call ltr ([lit "std::runtime_error in "] ++ p_loc l ++ [lit ": "] ++ [lit "ErrorTag "] ++ error) s with
  | Norm t s' => Thrown (XStd runtime_error t) s'
  | Thrown x s' => Thrown x s' | Undef r => Undef r | Ill => Ill
  end.
Proof.
  intros H. unfold HELPER_FAIL_MSG, brace. cbn [seqs exec].
  rewrite HELPER_THROW_ok by (unfold msg_mentions in *; rewrite !existsb_app; cbn; exact H).
  rewrite <- (insS_0 []), render_ins by apply avoids_nil.
  destruct (render call ltr _ s); cbn; rewrite ?insS_0, ?pop_push; reflexivity.
Qed.
Lemma report_macro kind (msg : list part) (s : St) :
  exec call ltr (brace [ SInsert Cerr ([lit kind] ++ msg ++ [lit ""; endl]) ]) s
  = insert call ltr Cerr ([lit kind] ++ msg ++ [lit ""; endl]) s.
Proof.
  unfold brace. cbn [seqs exec]. rewrite <- (insS_0 []).
  rewrite insert_ins by (try exact I; apply avoids_nil).
  now rewrite (leave_push (W:=W) []).
Qed.
End Equal.
