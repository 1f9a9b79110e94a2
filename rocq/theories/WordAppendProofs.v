(** WordAppendProofs.v -- lemmas for WordAppendProps.v *)
From Verif Require Import Base StreamModel StlioModel WordModel WordAppendModel WordAppendSpec.

Lemma append_denoted : forall a d w, denotes a d -> ~ is_text a -> append_any a w = Some (w ++ d).
Proof. intros a d w H Ht. destruct H; try reflexivity; exfalso; apply Ht; exact I. Qed.
Lemma append_literal : forall t w, append_any (ALiteral t) w = Some (w ++ [true]).
Proof. reflexivity. Qed.
Lemma append_literal_wrong : forall t d w, denotes (ALiteral t) d -> d <> [true] -> append_any (ALiteral t) w <> Some (w ++ d).
Proof.
  intros t d w _ H E. rewrite append_literal in E. injection E as E. apply app_inv_head in E. congruence.
Qed.
Lemma append_char : forall c w, c <> zero -> append_any (AChar c) w = Some (w ++ [true]).
Proof.
  intros c w H. unfold append_any. cbn [symbol_rank word_rank]. simpl.
  destruct (Ascii.eqb_spec c zero); [contradiction | reflexivity].
Qed.
Lemma append_string : forall t w, append_any (AString t) w = None.
Proof. reflexivity. Qed.
