(** StrAssignProofs.v -- proofs for C157. *)
From Verif Require Import Base StrAssignModel.

Lemma init_same x : init_String x = init_std x /\ init_String x = match x with AString t | AStd t | ACStr t | AList t => Holds t | ANullptr | AZero => Undefined | AChr _ | AInt _ | AView _ => DoesNotCompile end.
Proof. destruct x; split; reflexivity. Qed.
Lemma same_text x t : In x [AString t; AStd t; ACStr t; AList t] -> assign_String x = Holds t /\ assign_std x = Holds t.
Proof. intros [<-|[<-|[<-|[<-|[]]]]]; split; reflexivity. Qed.
Lemma not_for_String : (forall c, assign_std (AChr c) = Holds [c] /\ assign_String (AChr c) = DoesNotCompile) /\
  (forall t, assign_std (AView t) = Holds t /\ assign_String (AView t) = DoesNotCompile).
Proof. split; intros; split; reflexivity. Qed.
Lemma exactly x : assign_String x = assign_std x <-> match x with AChr _ | AInt _ | AView _ | AZero => False | _ => True end.
Proof. destruct x; cbn; (split; [intros H; try discriminate H; exact I|intros H; try contradiction; reflexivity]). Qed.
Lemma zero : assign_std AZero = DoesNotCompile /\ assign_String AZero = Undefined.
Proof. split; reflexivity. Qed.
Lemma numbers z : assign_String (AInt z) = DoesNotCompile /\
  exists c, assign_std (AInt z) = Holds [c] /\ (-128 <= c < 128 /\ exists k, c = z + 256 * k)%Z.
Proof.
  split; [reflexivity|]. exists (to_char z). split; [reflexivity|]. unfold to_char.
  assert (H := Z.mod_pos_bound (z + 128) 256 ltac:(lia)). split; [lia|].
  exists (- ((z + 128) / 256))%Z. assert (E := Z.div_mod (z + 128) 256 ltac:(lia)). lia.
Qed.
Lemma null : assign_String ANullptr = Undefined /\ assign_std ANullptr = Undefined.
Proof. split; reflexivity. Qed.
