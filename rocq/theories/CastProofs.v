(** CastProofs.v -- lemmas about CastModel.v: which calls can be built, and which of them give access for writing. *)
From Verif Require Import Base CastModel.

Lemma cast_builds : forall q t c dconst takes f, build_cast q t c dconst takes = Builds f <->
  ht_derived t = true /\ dconst = true /\ takes = true /\ f_line f = 129 /\ f = cast_129.
Proof.
  intros [|] [[|] [|]] [| |] [|] [|] f; cbn; split; intro H; try discriminate H; try (decompose [and] H; discriminate).
  all: try (injection H as <-; repeat split; reflexivity).
  all: decompose [and] H; subst f; reflexivity.
Qed.

Lemma cast_same_class : forall q t c dconst takes, ht_derived t = false ->
  build_cast q t c dconst takes = if q then DoesNotLink else DoesNotCompile.
Proof. intros [|] [[|] [|]] [| |] [|] [|]; cbn; intro H; try discriminate H; reflexivity. Qed.

Lemma cast_to_nonconst : forall q t c takes, ht_derived t = true -> build_cast q t c false takes = DoesNotCompile.
Proof. intros [|] [[|] [|]] [| |] [|]; cbn; intro H; try discriminate H; reflexivity. Qed.

Lemma extract_builds : forall t c, exists f, build_extract t c = Builds f /\ viable f t c = true.
Proof. intros [[|] [|]] [| |]; cbn; eexists; split; reflexivity. Qed.

Lemma extract_const : forall t c f, build_extract t c = Builds f -> (returns_const f = false <-> c = Variable_).
Proof. intros [[|] [|]] [| |] f; cbn; intro H; injection H as <-; split; intro E; try discriminate E; reflexivity. Qed.

Lemma extract_ends : forall t c n, exists fs f,
  run_extract (2 + n) t c = Ends (fs ++ [f]) /\ (f_line f = 145 \/ f_line f = 160) /\ (forall g, In g fs -> f_line g = 156) /\
  f_defined f = true.
Proof.
  intros [[|] [|]] [| |] n; cbn;
  first [ exists [], extract_160; split; [reflexivity|] | exists [], extract_145; split; [reflexivity|]
        | exists [extract_156], extract_145; split; [reflexivity|] ]; cbn; intuition (subst; reflexivity).
Qed.
