(** RandomProps.v -- property C62 of the randomisers.  Statements only; the lemmas are in RandomProofs.v. *)
From Verif Require Import Base RandomModel RandomSpec RandomProofs.

(** ** C62: for every engine, seed, contract-abiding distribution and every interleaving of constructions and
    draws: each value drawn lies in the interval given at the construction of its randomiser ... *)
Theorem C62_in_interval :
  forall (T G Ds : Type) (next : G -> Z * G) (dmake : T -> T -> Ds) (ddraw : Ds -> draw (T * Ds)) (valid le : T -> T -> Prop),
  in_interval_distribution dmake ddraw valid le ->
  forall (g : G) (p : list (rop T)) (l : list (option T)) (s' : rst G Ds),
  (forall k a b, In (RNew k a b) p -> valid a b) -> rrun next dmake ddraw p (rinit g) = Ret l s' ->
  forall i k, nth_error p i = Some (RGet k) ->
  exists v a b, nth_error l i = Some (Some v) /\ built_with k (firstn i p) a b /\ le a v /\ le v b.
Proof.
  exact (fun T G Ds next dmake ddraw valid le Hc g p l s' Hv E i k Hp =>
    match get_output next dmake ddraw p _ l s' i k E Hp with
    | ex_intro _ v Hl =>
        match gets_in_interval next dmake ddraw valid le g p l s' Hc Hv E i k v Hp Hl with
        | ex_intro _ a (ex_intro _ b H) => ex_intro _ v (ex_intro _ a (ex_intro _ b (conj Hl H)))
        end
    end).
Qed.
Print Assumptions C62_in_interval.

(** ... and the draws, in order, use up the output of the one generator: the i-th draw uses [nth i cs], the
    concatenation of all [cs] is the generator's output from its seed, nothing skipped and nothing used twice. *)
Theorem C62_fresh_output :
  forall (T G Ds : Type) (next : G -> Z * G) (dmake : T -> T -> Ds) (ddraw : Ds -> draw (T * Ds))
    (g : G) (p : list (rop T)) (l : list (option T)) (s' : rst G Ds),
  rrun next dmake ddraw p (rinit g) = Ret l s' ->
  exists cs n, concat cs = outputs next n g /\ generator s' = advance next n g /\
    draws dmake ddraw (fun _ => None) p cs l (randomisers s').
Proof. exact (fun T G Ds next dmake ddraw g p l s' E => rrun_draws next dmake ddraw p (rinit g) l s' E). Qed.
Print Assumptions C62_fresh_output.

(** Programs that draw only from constructed randomisers do run. *)
Theorem C62_runs :
  forall (T G Ds : Type) (next : G -> Z * G) (dmake : T -> T -> Ds) (ddraw : Ds -> draw (T * Ds)) (g : G) (p : list (rop T)),
  (forall i k, nth_error p i = Some (RGet k) -> exists a b, built_with k (firstn i p) a b) ->
  exists l s', rrun next dmake ddraw p (rinit g) = Ret l s'.
Proof.
  exact (fun T G Ds next dmake ddraw g p H => rrun_defined next dmake ddraw p [] (rinit g)
    (fun k Hk => match Hk with
                 | ex_intro _ a (ex_intro _ b (ex_intro _ p1 (ex_intro _ p2 (conj E _)))) =>
                     match app_cons_not_nil _ _ _ E with end
                 end) H).
Qed.
Print Assumptions C62_runs.

(** a linear congruential engine, and a distribution that draws twice from the engine *)
Definition lcg (g : Z) : Z * Z := let g' := ((g * 1103515245 + 12345) mod 2 ^ 31)%Z in ((g' mod 2 ^ 16)%Z, g').
Definition two_draws (d : Z * Z) : draw (Z * (Z * Z)) :=
  Ask (fun x => Ask (fun y => Done ((fst d + (x * 2 ^ 16 + y) mod (snd d - fst d + 1))%Z, d))).
Example two_draws_in_interval : in_interval_distribution pair two_draws Z.le Z.le.
Proof.
  intros a b d l v d' Hab Hm Ha.
  assert (Hd : d = (a, b)).
  { clear Ha. induction Hm as [|d l1 v1 d1 Hm IH H1]; [reflexivity|].
    unfold two_draws in H1. inversion H1; subst.
    match goal with H : answers (Ask _) _ _ |- _ => inversion H; subst end.
    match goal with H : answers (Done _) _ _ |- _ => inversion H; subst end. reflexivity. }
  subst d. unfold two_draws in Ha. inversion Ha; subst.
  match goal with H : answers (Ask _) _ _ |- _ => inversion H; subst end.
  match goal with H : answers (Done _) _ _ |- _ => inversion H; subst end.
  simpl. pose proof (Z.mod_pos_bound (z * 2 ^ 16 + z0) (b - a + 1)). lia.
Qed.
Example C62_example :
  exists s', rrun lcg pair two_draws [RNew 0 (-5) 5; RNew 1 100 199; RGet 0; RGet 1; RGet 0; RNew 0 7 7; RGet 0; RGet 1]%Z (rinit 42%Z) =
    Ret [None; None; Some (-1); Some 194; Some (-5); None; Some 7; Some 136]%Z s'.
Proof. eexists. reflexivity. Qed.
