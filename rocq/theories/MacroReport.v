(** MacroReport.v -- the reporting macros of include/macros.hpp: what they write to cerr. *)
From Verif Require Import Base StreamModel MacroModel MacroSpec MacroProofs.
From Coq Require Import String.
Open Scope list_scope.
Open Scope Z_scope.

Section R.
Context {W : Type} (call : nat -> list Z -> W -> callres W) (ltr : bool).
Notation St := (st W).
Notation eval := (eval call ltr).
Notation exec := (exec call ltr).
Notation insert := (insert call ltr).
Notation render := (render call ltr).

(** earlier output does not matter to an evaluation *)
Lemma read_var_err t x (s : St) : read_var x (add_err t s) = omap (add_err t) (read_var x s).
Proof.
  unfold read_var; cbn. destruct (lookup x (s_frames s)) as [[]|]; try reflexivity. destruct (s_statics s site); reflexivity.
Qed.
Lemma write_var_err t x z (s : St) : write_var x z (add_err t s) = omap (add_err t) (write_var x z s).
Proof. unfold write_var; cbn. destruct (lookup x (s_frames s)) as [[]|]; reflexivity. Qed.
Lemma do_call_err t f l (s : St) : do_call call f l (add_err t s) = omap (add_err t) (do_call call f l s).
Proof. unfold do_call; cbn. destruct (call f l (s_world s)); reflexivity. Qed.
Lemma both_err {A} t (m1 m2 : St -> outc St Z) (c : Z -> Z -> St -> outc St A) :
  (forall s, m1 (add_err t s) = omap (add_err t) (m1 s)) -> (forall s, m2 (add_err t s) = omap (add_err t) (m2 s)) ->
  (forall a b s, c a b (add_err t s) = omap (add_err t) (c a b s)) ->
  forall s, both ltr m1 m2 c (add_err t s) = omap (add_err t) (both ltr m1 m2 c s).
Proof.
  intros H1 H2 Hc s. unfold both. destruct ltr.
  - rewrite H1. apply omap_obind. intros a s1 _. rewrite H2. apply omap_obind. intros; apply Hc.
  - rewrite H2. apply omap_obind. intros a s1 _. rewrite H1. apply omap_obind. intros; apply Hc.
Qed.
Lemma eval_add_err t e : forall s : St, eval e (add_err t s) = omap (add_err t) (eval e s).
Proof.
  induction e; intros s; cbn [MacroModel.eval].
  - reflexivity.
  - apply read_var_err.
  - rewrite IHe. apply omap_obind. reflexivity.
  - rewrite IHe. apply omap_obind. reflexivity.
  - rewrite IHe1. apply omap_obind. intros a s1 _. destruct (truth a); [|reflexivity].
    rewrite IHe2. apply omap_obind. reflexivity.
  - apply both_err; auto.
  - apply both_err; auto.
  - rewrite IHe. apply omap_obind. reflexivity.
  - rewrite IHe. apply omap_obind. intros. apply do_call_err.
  - apply both_err; auto. intros; apply do_call_err.
  - rewrite IHe. apply omap_obind. intros. apply write_var_err.
  - rewrite read_var_err. apply omap_obind. intros a s1 _. destruct (a + 1 <? 2 ^ 31); [|reflexivity]. apply write_var_err.
  - apply both_err; auto.
Qed.
Lemma what_of_err t x (s : St) : what_of x (add_err t s) = omap (add_err t) (what_of x s).
Proof. unfold what_of; cbn. destruct (lookup x (s_frames s)) as [[| | | | |[]]|]; reflexivity. Qed.
Lemma render_add_err t ps : forall s : St, render ps (add_err t s) = omap (add_err t) (render ps s).
Proof.
  induction ps as [|[u|e|x] ps IH]; intros s; cbn [MacroSpec.render].
  - reflexivity.
  - rewrite IH. apply omap_obind. reflexivity.
  - rewrite eval_add_err. apply omap_obind. intros z s1 _. rewrite IH. apply omap_obind. reflexivity.
  - rewrite what_of_err. apply omap_obind. intros z s1 _. rewrite IH. apply omap_obind. reflexivity.
Qed.
Lemma add_err_add t u (s : St) : add_err t (add_err u s) = add_err (u ++ t) s.
Proof. unfold add_err; cbn. now rewrite app_assoc. Qed.
Lemma add_err_nil (s : St) : add_err [] s = s.
Proof. unfold add_err. rewrite app_nil_r. destruct s; reflexivity. Qed.

(** the text of [m] has been written after [t], or as much of it as there was when an exception came *)
Definition wrote {A} (t : text) (r : outc St A) (m : outc St text) : Prop :=
  match m with
  | Norm u s => exists a, r = Norm a (add_err (t ++ u) s)
  | Thrown x s => exists u, r = Thrown x (add_err (t ++ u) s)
  | Undef q => r = Undef q
  | Ill => r = Ill
  end.
Lemma insert_render ps : forall t (s : St), wrote t (insert Cerr ps (add_err t s)) (render ps s).
Proof.
  assert (K : forall {A} t v (r : outc St A) m, wrote (t ++ v) r m -> wrote t r (obind m (fun u s => Norm (v ++ u) s))).
  { intros A t v r m. destruct m as [u s|x s|q|]; cbn; auto.
    - intros (a & ->). exists a. now rewrite <- app_assoc.
    - intros (u & ->). exists (v ++ u). now rewrite <- app_assoc. }
  induction ps as [|p ps IH]; intros t s.
  - exists tt. cbn. now rewrite app_nil_r.
  - destruct p as [u|e|x]; cbn [MacroModel.insert MacroSpec.render put obind].
    + rewrite add_err_add. apply K, IH.
    + rewrite eval_add_err. destruct (eval e s) as [z s1|x s1|q|]; cbn [omap obind put]; try reflexivity.
      * rewrite add_err_add. apply K, IH.
      * exists []. now rewrite app_nil_r.
    + rewrite what_of_err. destruct (what_of x s) as [z s1|y s1|q|]; cbn [omap obind put]; try reflexivity.
      * rewrite add_err_add. apply K, IH.
      * exists []. now rewrite app_nil_r.
Qed.
Lemma report_exec kind msg : logs call ltr (brace [ SInsert Cerr ([lit kind] ++ msg ++ [lit ""; endl]) ]) (chars kind) msg.
Proof.
  intros s. rewrite report_macro.
  assert (A : forall p q (u : St), insert Cerr (p ++ q) u = obind (insert Cerr p u) (fun _ u' => insert Cerr q u')).
  { intros p q. induction p as [|[v|e|x] p IHp]; intros u; cbn [app MacroModel.insert put obind]; auto.
    - destruct (eval e u); cbn [obind]; auto.
    - destruct (what_of x u); cbn [obind]; auto. }
  change (insert Cerr ([lit kind] ++ msg ++ [lit ""; endl]) s) with (insert Cerr (msg ++ [lit ""; endl]) (add_err (chars kind) s)).
  rewrite A. pose proof (insert_render msg (chars kind) s) as H.
  destruct (render msg s) as [t s1|x s1|r|]; cbn [wrote] in H.
  - destruct H as ([] & ->). cbn [obind MacroModel.insert put lit endl chars].
    rewrite !add_err_add. cbn [app]. rewrite <- app_assoc. reflexivity.
  - destruct H as (u & ->). exists u. reflexivity.
  - now rewrite H.
  - now rewrite H.
Qed.
Lemma fail_msg_always l error : msg_mentions "ss" error = false ->
  fails_with call ltr (HELPER_FAIL_MSG l error) (chars "std::runtime_error in " ++ l_file l ++ chars ":" ++ int_text (l_line l)
    ++ chars ": " ++ l_func l ++ chars ": " ++ chars "ErrorTag ") error.
Proof.
  intros H s. rewrite fail_msg_exec by exact H. unfold p_loc. cbn [app MacroSpec.render lit MacroModel.eval obind].
  destruct (render error s); cbn [obind]; try reflexivity. now rewrite <- !app_assoc.
Qed.
Lemma fail_msg_captured l msg (s : St) : exec (HELPER_FAIL_MSG l (PExp (EVar "ss") :: msg)) s = Ill.
Proof. destruct s. reflexivity. Qed.
End R.
