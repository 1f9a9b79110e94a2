(** BraceProofs.v -- lemmas about BraceModel.v *)
From Verif Require Import Base StdOrd SetModel SetSpec SetProofs OverModel BraceModel BraceSpec.

Lemma ty_eqb_true a b : ty_eqb a b = true -> a = b.
Proof. destruct a, b; cbn; try discriminate; try reflexivity. intros H. apply Nat.eqb_eq in H. congruence. Qed.
Lemma ty_eqb_same a : ty_eqb a a = true.
Proof. destruct a; cbn; auto. apply Nat.eqb_refl. Qed.

Section Brace.
  Context (conv : ty -> ty -> bool) (brace_conv : ty -> list ty -> bool) {V : Type} (ltb : V -> V -> bool) (HO : SWO ltb)
          (cast : ty -> ty -> V -> V) (dflt : ty -> V) (build : ty -> list V -> V) (count : ty -> V -> nat).
  Notation args := (list (ty * V)).
  Notation fits := (fits conv).
  Notation members := (members cast).

  Lemma fits_convert T (xs : args) : fits T xs -> all_convert conv T xs = true.
  Proof.
    intros H. unfold all_convert. apply forallb_forall. intros p Hp. unfold BraceSpec.fits in H. rewrite Forall_forall in H.
    destruct (H p Hp) as ((r & ->) & _). reflexivity.
  Qed.
  Lemma fits_converted T (xs : args) : fits T xs -> converted cast T xs = Runs (members T xs).
  Proof.
    intros H. unfold converted. replace (existsb _ xs) with false; [reflexivity|]. symmetry. apply not_true_is_false. rewrite existsb_exists.
    intros (p & Hp & Hn). unfold BraceSpec.fits in H. rewrite Forall_forall in H. destruct (H p Hp) as (_ & E). congruence.
  Qed.
  Lemma vector_ranked T (xs : args) : fits T xs -> vector_rank conv T xs = Some UserDefined.
  Proof. intros H. unfold vector_rank. now rewrite (fits_convert T xs H). Qed.
  Lemma vector_valued T (xs : args) : fits T xs -> vector_value conv cast count T xs = Runs (members T xs).
  Proof. intros H. unfold vector_value. rewrite (fits_convert T xs H). now apply fits_converted. Qed.
  Lemma set_ranked T (xs : args) : fits T xs -> set_rank conv T xs = Some UserDefined.
  Proof. intros H. unfold set_rank. now rewrite (fits_convert T xs H). Qed.
  Lemma set_valued T (xs : args) : fits T xs -> set_value ltb cast T xs = Runs (set_of_list ltb (members T xs)).
  Proof. intros H. unfold set_value. now rewrite fits_converted. Qed.

  Lemma implicit_rank X T : is_class X = false -> is_class T = false ->
    exists r, implicit conv X T = Some r /\ r <> UserDefined.
  Proof.
    intros HX HT. unfold implicit. destruct (ty_eqb X T); [eexists; split; [reflexivity|discriminate]|]. rewrite HX, HT. cbn [orb].
    destruct (promotes X T); eexists; (split; [reflexivity|discriminate]).
  Qed.
  (** which of the two is chosen *)
  Lemma chosen (r : option rank) (k : overload) :
    resolve (viable One false [r] ++ viable k false [Some UserDefined]) =
    match r with None => Chosen k | Some UserDefined => Ambiguous | Some _ => Chosen One end.
  Proof. destruct r as [[]|]; reflexivity. Qed.
  Lemma plain_rank T (xs : args) : fits T xs -> plain brace_conv T xs ->
    brace_rank conv brace_conv T xs = None \/
    exists X x r, xs = [(X, x)] /\ brace_rank conv brace_conv T xs = Some r /\ r <> UserDefined /\ brace_value cast dflt build T xs = Runs (cast X T x).
  Proof.
    unfold plain, brace_rank, brace_value. intros HF. destruct (is_class T) eqn:HT.
    - intros [H|(x & ->)].
      + destruct xs as [|(X, x) [|q xs]]; cbn [map fst] in *.
        * left. now rewrite H.
        * destruct (ty_eqb X T) eqn:E; [|left; now rewrite H]. right. exists X, x, Identity. repeat split; [discriminate|].
          cbn [andb negb]. inversion_clear HF as [|? ? (_ & Hn) _]. cbn [fst] in Hn. now rewrite Hn.
        * left. now rewrite H.
      + right. exists T, x, Identity. rewrite ty_eqb_same. repeat split; [discriminate|]. cbn [andb negb].
        inversion_clear HF as [|? ? (_ & Hn) _]. cbn [fst] in Hn. now rewrite Hn.
    - intros [Hne Hone]. destruct xs as [|(X, x) [|q xs]]; [contradiction| |left; reflexivity].
      right. destruct (implicit_rank X T (Hone X x eq_refl) HT) as (r & Hr & Hu). exists X, x, r. repeat split; auto. cbn [andb].
      inversion_clear HF as [|? ? (_ & Hn) _]. cbn [fst] in Hn. now rewrite Hn.
  Qed.
  Lemma torn_rank T (xs : args) : fits T xs -> torn brace_conv T xs -> brace_rank conv brace_conv T xs = Some UserDefined.
  Proof.
    unfold torn, brace_rank. intros HF. destruct (is_class T) eqn:HT.
    - intros [H Hne]. destruct xs as [|(X, x) [|q xs]]; cbn [map fst] in *; try (now rewrite H).
      destruct (ty_eqb X T) eqn:E; [|now rewrite H]. apply ty_eqb_true in E. subst X. exfalso. exact (Hne x eq_refl).
    - intros (X & x & -> & HX). inversion_clear HF as [|? ? ((r & Hr) & _) _]. cbn [fst] in Hr. unfold implicit in *.
      destruct (ty_eqb X T) eqn:E; [apply ty_eqb_true in E; congruence|]. rewrite HX in *. cbn [orb] in *. destruct (conv X T); congruence.
  Qed.

  Lemma append_plain T (xs : args) l : fits T xs -> plain brace_conv T xs ->
    append_braces conv brace_conv cast dflt build count T xs l = Runs (l ++ members T xs).
  Proof.
    intros HF HP. unfold append_braces. rewrite (vector_ranked T xs HF), chosen, (vector_valued T xs HF).
    destruct (plain_rank T xs HF HP) as [->|(X & x & r & -> & -> & Hu & ->)]; [reflexivity|]. destruct r; try contradiction; reflexivity.
  Qed.
  Lemma append_torn T (xs : args) l : fits T xs -> torn brace_conv T xs ->
    append_braces conv brace_conv cast dflt build count T xs l = Rejected.
  Proof. intros HF HP. unfold append_braces. now rewrite (vector_ranked T xs HF), chosen, (torn_rank T xs HF HP). Qed.
  Lemma append_empty T l : is_class T = false ->
    append_braces conv brace_conv cast dflt build count T [] l = Runs (l ++ [dflt T]).
  Proof.
    intros HT. unfold append_braces. cbn [vector_rank all_convert forallb]. unfold brace_rank, brace_value, vector_rank, all_convert. cbn [forallb].
    now rewrite chosen, HT.
  Qed.
  Lemma concatenate_fits T (xs : args) l : fits T xs ->
    concatenate_braces conv cast count T xs l = Runs (l ++ members T xs).
  Proof. intros HF. unfold concatenate_braces. rewrite (vector_ranked T xs HF), (vector_valued T xs HF). reflexivity. Qed.

  Lemma removed_all (l xs : list V) : increasing ltb l ->
    exists r, member_remove ltb (other_arg (set_of_list ltb xs)) l = Some r /\ increasing ltb r /\
      forall x, contains ltb r x = contains ltb l x && negb (in_list ltb xs x).
  Proof.
    intros Hs. destruct (erase_other ltb HO true (set_of_list ltb xs) l Hs) as (r & E & Hr & Hc). exists r. split; [exact E|]. split; [exact Hr|].
    intros x. rewrite Hc, (set_of_list_contains ltb HO). now destruct (in_list ltb xs x).
  Qed.
  Lemma remove_plain T (xs : args) l : fits T xs -> plain brace_conv T xs -> increasing ltb l ->
    exists r, remove_braces conv brace_conv ltb cast dflt build T xs l = Runs (Some r) /\ increasing ltb r /\
      forall x, contains ltb r x = contains ltb l x && negb (in_list ltb (members T xs) x).
  Proof.
    intros HF HP Hl. unfold remove_braces. rewrite (set_ranked T xs HF), chosen, (set_valued T xs HF).
    destruct (plain_rank T xs HF HP) as [->|(X & x & r & -> & -> & Hu & ->)].
    - destruct (removed_all l (members T xs) Hl) as (r & E & H). exists r. cbn [then_]. rewrite E. auto.
    - exists (remove_elem ltb (cast X T x) l). destruct (remove_elem_spec ltb HO (cast X T x) l Hl) as [A B].
      split; [destruct r; try contradiction; reflexivity|]. split; [exact A|]. intros y. rewrite B. unfold in_list, BraceSpec.members. cbn [map existsb fst snd].
      now rewrite orb_false_r.
  Qed.
  Lemma remove_torn T (xs : args) l : fits T xs -> torn brace_conv T xs ->
    remove_braces conv brace_conv ltb cast dflt build T xs l = Rejected.
  Proof. intros HF HP. unfold remove_braces. now rewrite (set_ranked T xs HF), chosen, (torn_rank T xs HF HP). Qed.
  Lemma remove_empty T l : is_class T = false -> increasing ltb l ->
    exists r, remove_braces conv brace_conv ltb cast dflt build T [] l = Runs (Some r) /\
      forall x, contains ltb r x = contains ltb l x && negb (eqvb ltb (dflt T) x).
  Proof.
    intros HT Hl. exists (remove_elem ltb (dflt T) l). split; [|apply (remove_elem_spec ltb HO (dflt T) l Hl)].
    unfold remove_braces, brace_rank, brace_value, set_rank, all_convert. cbn [forallb]. now rewrite chosen, HT.
  Qed.
  Lemma adjoin_fits T (xs : args) l : fits T xs -> increasing ltb l ->
    exists r, adjoin_braces conv ltb cast T xs l = Runs (Some r) /\ increasing ltb r /\
      forall x, contains ltb r x = contains ltb l x || in_list ltb (members T xs) x.
  Proof.
    intros HF Hl. unfold adjoin_braces. rewrite (set_ranked T xs HF), (set_valued T xs HF). cbn [resolve viable resolve_from forallb app then_].
    destruct (adjoin_other ltb HO (set_of_list ltb (members T xs)) l Hl (set_of_list_sorted ltb HO _)) as (r & E & Hr & Hc).
    exists r. unfold resolve, viable. cbn [forallb app resolve_from]. rewrite E. split; [reflexivity|]. split; [exact Hr|]. intros x.
    now rewrite Hc, (set_of_list_contains ltb HO).
  Qed.
  Lemma subset_fits T (xs : args) l : fits T xs ->
    exists b, subset_braces conv ltb cast T xs l = Runs b /\
      (b = true <-> forall x, in_list ltb (members T xs) x = true -> contains ltb l x = true).
  Proof.
    intros HF. unfold subset_braces. rewrite (set_ranked T xs HF), (set_valued T xs HF). unfold resolve, viable. cbn [forallb app resolve_from then_].
    eexists. split; [reflexivity|]. etransitivity; [apply (member_subset_iff ltb HO)|]. split; intros H x Hx.
    - apply H. now rewrite (set_of_list_contains ltb HO).
    - apply H. now rewrite (set_of_list_contains ltb HO) in Hx.
  Qed.
  Lemma disjoint_rejected T (xs : args) l : fits T xs -> disjoint_braces conv ltb cast count T xs l = Rejected.
  Proof. intros HF. unfold disjoint_braces. now rewrite (set_ranked T xs HF), (vector_ranked T xs HF). Qed.
End Brace.
