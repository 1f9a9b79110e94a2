(** ResultProofs.v -- lemmas for ResultProps.v *)
From Verif Require Import Base ResultModel ResultSpec.
Open Scope list_scope.
Open Scope nat_scope.

Fixpoint ty_eqb_refl (t : ty) : ty_eqb t t = true.
Proof.
  destruct t as [|n|t|t|t|t|t n|r ps]; cbn; try reflexivity; try apply ty_eqb_refl; try apply Nat.eqb_refl.
  - rewrite ty_eqb_refl. apply Nat.eqb_refl.
  - rewrite ty_eqb_refl. cbn. induction ps as [|p ps IH]; [reflexivity|]. rewrite ty_eqb_refl. exact IH.
Qed.
Lemma kept_adjust t : kept t -> adjust t = t /\ is_void t = false.
Proof. destruct t; cbn; intros []; split; reflexivity. Qed.
Lemma kept_list l : (forall t, In t l -> kept t) -> map adjust l = l /\ existsb is_void l = false.
Proof.
  induction l as [|t l IH]; intros H; [split; reflexivity|]. cbn. destruct (kept_adjust t (H t (or_introl eq_refl))) as [-> ->].
  destruct IH as [-> ->]; [intros; apply H; now right|split; reflexivity].
Qed.
Lemma result_kept c f args : callee_kept f -> (forall t, In t args -> kept t) -> result_of c f args = invoke_result c f args.
Proof.
  intros F A. destruct (kept_list args A) as [E V]. unfold result_of.
  assert (X : function_type f args = Some (TFunction f args)).
  { unfold function_type. destruct f; cbn in F; try contradiction; rewrite V, E; destruct args as [|[] [|]]; try reflexivity;
      exfalso; apply (A TVoid); now left. }
  rewrite X. reflexivity.
Qed.
Lemma lookup_first f ps r c : lookup ((f, ps, r) :: c) f ps = Some r.
Proof.
  unfold lookup. cbn [find]. rewrite ty_eqb_refl, Nat.eqb_refl. cbn [andb].
  assert (E : forallb (fun '(a, p) => ty_eqb a p) (combine ps ps) = true) by (induction ps as [|p ps IH]; [reflexivity|]; cbn; now rewrite ty_eqb_refl).
  now rewrite E.
Qed.
Lemma lookup_second f p q r s c : ty_eqb q p = false -> lookup ((f, [p], r) :: (f, [q], s) :: c) f [q] = Some s.
Proof.
  intros H. unfold lookup. cbn [find]. rewrite ty_eqb_refl. cbn. rewrite H. cbn. rewrite ty_eqb_refl. reflexivity.
Qed.
Lemma callee_lost f args r : ~ callee_kept f -> ~ In TVoid args ->
  let c := [(declval f, map declval args, r)] in invoke_result c f args = Some r /\ result_of c f args = None.
Proof.
  intros H V. cbv zeta. split.
  - assert (E : existsb is_void args = false).
    { induction args as [|t args IH]; [reflexivity|]. cbn in *. rewrite IH by tauto. destruct t; try reflexivity. exfalso. tauto. }
    unfold invoke_result. rewrite E. apply lookup_first.
  - unfold result_of. destruct f; cbn in H; try tauto; reflexivity.
Qed.
(** an argument whose type is adjusted to another: the callee tells them apart *)
Lemma adjusted f t r s : callee_kept f ->
  plain_const t \/ (exists u n, t = TArray u n) \/ (exists u ps, t = TFunction u ps) ->
  let c := [(declval f, [declval t], r); (declval f, [declval (adjust t)], s)] in
  invoke_result c f [t] = Some r /\ result_of c f [t] = Some s.
Proof.
  intros F H. cbv zeta.
  assert (V : is_void t = false /\ is_void (adjust t) = false) by (destruct H as [H|[(u & n & ->)|(u & ps & ->)]]; [destruct t as [| |[]| | | | |]; cbn in H; try contradiction|..]; split; reflexivity).
  destruct V as [V1 V2].
  assert (D : ty_eqb (declval (adjust t)) (declval t) = false).
  { destruct H as [H|[(u & n & ->)|(u & ps & ->)]]; [destruct t as [| |[]| | | | |]; cbn in H; try contradiction|..]; reflexivity. }
  split.
  - unfold invoke_result. cbn [existsb map]. rewrite V1. cbn [orb]. apply lookup_first.
  - assert (X : function_type f [t] = Some (TFunction f [adjust t])).
    { unfold function_type. cbn [existsb map]. destruct f; cbn in F; try contradiction; destruct t; cbn in V1; try discriminate V1; reflexivity. }
    unfold result_of. rewrite X. unfold invoke_result. cbn [existsb map]. rewrite V2. cbn [orb]. now apply lookup_second.
Qed.
Lemma void_argument c f r : callee_kept f -> invoke_result c f [TVoid] = None /\ result_of ((declval f, [], r) :: c) f [TVoid] = Some r.
Proof.
  intros F. split; [reflexivity|]. unfold result_of.
  assert (X : function_type f [TVoid] = Some (TFunction f [])) by (destruct f; cbn in F; try contradiction; reflexivity).
  rewrite X. unfold invoke_result. cbn [existsb map]. apply lookup_first.
Qed.
