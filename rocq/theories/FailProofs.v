(** FailProofs.v -- lemmas about FailModel. *)
From Verif Require Import Base StdOrd SetModel SetSpec SetProofs MapModel MapSpec MapProofs FailModel FailSpec.
Local Open Scope monad_scope.

(** ** outcomes: how a computation may end, and which part of the schedule it uses *)
Definition used (sc sc' : sched) (es : list exn) : Prop := exists u, sc = u ++ sc' /\ raised as_is u = es.
Lemma used_nil sc : used sc sc [].
Proof. exists []. auto. Qed.
Lemma raised_app {A} (f : A -> option exn) (a b : list A) : raised f (a ++ b) = raised f a ++ raised f b.
Proof. induction a as [|x a IH]; simpl; [reflexivity|]. destruct (f x); simpl; rewrite IH; reflexivity. Qed.
Lemma used_trans sc sc1 sc2 a b : used sc sc1 a -> used sc1 sc2 b -> used sc sc2 (a ++ b).
Proof.
  intros (u & -> & Hu) (v & -> & Hv). exists (u ++ v). split; [apply app_assoc|]. rewrite raised_app. congruence.
Qed.

Definition outc {L A} (m : M (L * sched) A) (l : L) (ok : A -> L -> Prop) (bad : L -> Prop) : Prop :=
  forall sc, match m (l, sc) with
             | Ret a s => ok a (fst s) /\ used sc (snd s) []
             | Exc e s => bad (fst s) /\ used sc (snd s) [e]
             | _ => False
             end.
Section Rules.
  Context {L : Type}.
  Lemma outc_ret {A} (a : A) (l : L) (ok : A -> L -> Prop) bad : ok a l -> outc (ret a) l ok bad.
  Proof. intros Ho sc. split; [exact Ho|apply used_nil]. Qed.
  Lemma outc_bind {A B} (m : M (L * sched) A) (k : A -> M (L * sched) B) l ok1 ok bad :
    outc m l ok1 bad -> (forall a l', ok1 a l' -> outc (k a) l' ok bad) -> outc (bind m k) l ok bad.
  Proof.
    intros Hm Hk sc. specialize (Hm sc). unfold bind. destruct (m (l, sc)) as [a [l1 sc1]|e [l1 sc1]|r| |]; try exact Hm.
    destruct Hm as [Ho Hu]. specialize (Hk a l1 Ho sc1). cbn [snd] in Hu.
    destruct (k a (l1, sc1)) as [b [l2 sc2]|e [l2 sc2]|r| |]; try exact Hk; cbn [fst snd] in *;
      (destruct Hk as [Ho2 Hu2]; split; [exact Ho2|apply (used_trans _ _ _ _ _ Hu Hu2)]).
  Qed.
  Lemma outc_weaken {A} (m : M (L * sched) A) l (ok ok' : A -> L -> Prop) (bad bad' : L -> Prop) :
    outc m l ok bad -> (forall a l', ok a l' -> ok' a l') -> (forall l', bad l' -> bad' l') -> outc m l ok' bad'.
  Proof.
    intros Hm H1 H2 sc. specialize (Hm sc). destruct (m (l, sc)); try exact Hm; destruct Hm; split; auto.
  Qed.
  Lemma outc_ext {A} (m m' : M (L * sched) A) l ok bad : (forall sc, m (l, sc) = m' (l, sc)) -> outc m' l ok bad -> outc m l ok bad.
  Proof. intros He Hm sc. rewrite He. apply Hm. Qed.
  Lemma outc_tick (l : L) (ok : unit -> L -> Prop) (bad : L -> Prop) : ok tt l -> bad l -> outc tick l ok bad.
  Proof.
    intros H1 H2 sc. unfold tick; cbn [snd fst]. destruct sc as [|[e|] sc]; cbn [fst snd].
    - split; [exact H1|apply used_nil].
    - split; [exact H2|]. exists [Some e]. auto.
    - split; [exact H1|]. exists [None]. auto.
  Qed.
  Lemma outc_change (f : L -> L) l (ok : unit -> L -> Prop) bad : ok tt (f l) -> outc (change f) l ok bad.
  Proof. intros Ho sc. split; [exact Ho|apply used_nil]. Qed.
  Lemma outc_attempt (f : L -> L) l (ok : unit -> L -> Prop) (bad : L -> Prop) : ok tt (f l) -> bad l -> outc (attempt f) l ok bad.
  Proof.
    intros H1 H2. apply (outc_bind _ _ _ (fun _ l' => l' = l)); [apply outc_tick; auto|].
    intros _ l' ->. apply outc_change. exact H1.
  Qed.
  Lemma outc_content {B} (k : L -> M (L * sched) B) l ok bad : outc (k l) l ok bad -> outc (bind content k) l ok bad.
  Proof. intros Hk sc. apply (Hk sc). Qed.
  Lemma outc_attempts {A} (f : A -> L -> L) (xs : list A) : forall l (ok : unit -> L -> Prop) (bad : L -> Prop),
    ok tt (fold_left (fun r x => f x r) xs l) ->
    (forall k, k < length xs -> bad (fold_left (fun r x => f x r) (firstn k xs) l)) ->
    outc (attempts f xs) l ok bad.
  Proof.
    induction xs as [|x xs IH]; intros l ok bad H1 H2; cbn [attempts].
    - apply outc_ret. exact H1.
    - apply (outc_bind _ _ _ (fun _ l' => l' = f x l)).
      + apply outc_attempt; [reflexivity|]. apply (H2 0). simpl; lia.
      + intros _ l' ->. apply IH; [exact H1|]. intros k Hk. apply (H2 (S k)). simpl; lia.
  Qed.
End Rules.

Section Sets.
  Context {T : Type} (ltb : T -> T -> bool) (HO : SWO ltb).
  Notation eqv := (eqvb ltb).
  Notation sorted := (increasing ltb).

  Lemma fadjoin_other_gen s pre rest : forall l fuel (ok : unit -> list T -> Prop) (bad : list T -> Prop), s = pre ++ rest -> sorted s -> length rest < fuel ->
    ok tt (fold_left (sinsert ltb) rest l) ->
    (forall k, k < length rest -> bad (fold_left (sinsert ltb) (firstn k rest) l)) ->
    outc (fadjoin_loop ltb fuel (it_begin rest) (other_arg s)) l ok bad.
  Proof.
    revert pre; induction rest as [|x rest IH]; intros pre l fuel ok bad Hs Hsort Hf H1 H2;
      (destruct fuel as [|fuel]; [simpl in Hf; lia|]); cbn [fadjoin_loop it_begin hd_error].
    - apply outc_ret. exact H1.
    - apply (outc_bind _ _ _ (fun _ l' => l' = sinsert ltb l x)).
      + apply outc_attempt; [reflexivity|]. apply (H2 0). simpl; lia.
      + intros _ l' ->. apply outc_content. unfold other_arg at 1. rewrite Hs. rewrite Hs in Hsort.
        rewrite (it_next_split ltb HO _ _ _ Hsort). rewrite <- Hs. apply (IH (pre ++ [x])).
        * rewrite <- app_assoc. exact Hs.
        * rewrite Hs. exact Hsort.
        * simpl in Hf. lia.
        * exact H1.
        * intros k Hk. apply (H2 (S k)). simpl; lia.
  Qed.
  Lemma fadjoin_self_gen l pre rest : forall fuel (ok : unit -> list T -> Prop) (bad : list T -> Prop), l = pre ++ rest -> sorted l -> length rest < fuel ->
    ok tt l -> (0 < length rest -> bad l) ->
    outc (fadjoin_loop ltb fuel (it_begin rest) self_arg) l ok bad.
  Proof.
    revert pre; induction rest as [|x rest IH]; intros pre fuel ok bad Hs Hsort Hf H1 H2;
      (destruct fuel as [|fuel]; [simpl in Hf; lia|]); cbn [fadjoin_loop it_begin hd_error].
    - apply outc_ret. exact H1.
    - apply (outc_bind _ _ _ (fun _ l' => l' = l)).
      + apply outc_attempt; [|apply H2; simpl; lia].
        apply (insert_present ltb HO l x Hsort). apply (contains_self ltb HO). rewrite Hs. apply in_or_app; simpl; auto.
      + intros _ l' ->. apply outc_content. unfold self_arg at 1. rewrite Hs at 1.
        rewrite (it_next_split ltb HO pre x rest) by (rewrite <- Hs; exact Hsort). apply (IH (pre ++ [x])).
        * rewrite <- app_assoc. exact Hs.
        * exact Hsort.
        * simpl in Hf. lia.
        * exact H1.
        * intros _. apply H2. simpl; lia.
  Qed.
  Lemma fadjoin_other s l (ok : unit -> list T -> Prop) (bad : list T -> Prop) : sorted s ->
    ok tt (fold_left (sinsert ltb) s l) ->
    (forall k, k < length s -> bad (fold_left (sinsert ltb) (firstn k s) l)) ->
    outc (fadjoin ltb (other_arg s)) l ok bad.
  Proof.
    intros Hs H1 H2. apply outc_content. apply (fadjoin_other_gen s [] s); auto.
  Qed.

  Lemma ferase_gen ei src (p : T -> bool) rest : forall done fuel (ok : unit -> list T -> Prop) (bad : list T -> Prop),
    (forall pre x post, sorted (pre ++ x :: post) -> contains ltb (src (pre ++ x :: post)) x = p x) ->
    sorted (done ++ rest) -> length rest < fuel ->
    ok tt (done ++ filter (fun x => negb (Bool.eqb (p x) ei)) rest) ->
    (forall k, k < length rest -> bad (done ++ filter (fun x => negb (Bool.eqb (p x) ei)) (firstn k rest) ++ skipn k rest)) ->
    outc (ferase_loop ltb ei fuel (it_begin rest) src) (done ++ rest) ok bad.
  Proof.
    induction rest as [|x rest IH]; intros done fuel ok bad Hp Hs Hf H1 H2;
      (destruct fuel as [|fuel]; [simpl in Hf; lia|]); cbn [ferase_loop it_begin hd_error].
    - apply outc_ret. exact H1.
    - apply (outc_bind _ _ _ (fun _ l' => l' = done ++ x :: rest)).
      { apply outc_tick; [reflexivity|]. apply (H2 0). simpl; lia. }
      intros _ l' ->. apply outc_content. rewrite (it_next_split ltb HO _ _ _ Hs), (Hp _ _ _ Hs). simpl in Hf.
      cbn [filter] in H1. destruct (Bool.eqb (p x) ei) eqn:Hx; cbn [negb] in H1.
      + apply (outc_bind _ _ _ (fun _ l' => l' = done ++ rest)).
        { apply outc_change. apply (serase_split ltb HO). exact Hs. }
        intros _ l' ->. apply IH; [exact Hp|eapply sorted_remove; exact Hs|lia|exact H1|].
        intros k Hk. specialize (H2 (S k)). cbn [firstn filter skipn] in H2. rewrite Hx in H2. apply H2. simpl; lia.
      + replace (done ++ x :: rest) with ((done ++ [x]) ++ rest) in * by (rewrite <- app_assoc; reflexivity).
        apply IH; [exact Hp|exact Hs|lia|rewrite <- app_assoc; exact H1|].
        intros k Hk. specialize (H2 (S k)). cbn [firstn filter skipn] in H2. rewrite Hx in H2. rewrite <- app_assoc. apply H2. simpl; lia.
  Qed.
  Lemma ferase_other ei s l (ok : unit -> list T -> Prop) (bad : list T -> Prop) : sorted l ->
    ok tt (filter (fun x => negb (Bool.eqb (contains ltb s x) ei)) l) ->
    (forall k, k < length l -> bad (filter (fun x => negb (Bool.eqb (contains ltb s x) ei)) (firstn k l) ++ skipn k l)) ->
    outc (ferase ltb ei (other_arg s)) l ok bad.
  Proof.
    intros Hl H1 H2. apply outc_content. apply (ferase_gen ei (other_arg s) (contains ltb s) l []); auto.
  Qed.
  Lemma ferase_self ei l (ok : unit -> list T -> Prop) (bad : list T -> Prop) : sorted l ->
    ok tt (filter (fun x => negb (Bool.eqb true ei)) l) ->
    (forall k, k < length l -> bad (filter (fun x => negb (Bool.eqb true ei)) (firstn k l) ++ skipn k l)) ->
    outc (ferase ltb ei self_arg) l ok bad.
  Proof.
    intros Hl H1 H2. apply outc_content. apply (ferase_gen ei self_arg (fun _ => true) l []); auto.
    intros pre x post _. apply (contains_self ltb HO). apply in_or_app; simpl; auto.
  Qed.
  Lemma fintersection_gen s1 xs : forall r (ok : unit -> list T -> Prop) (bad : list T -> Prop),
    ok tt (intersection_list ltb s1 xs r) -> (forall r', bad r') -> outc (fintersection_list ltb s1 xs) r ok bad.
  Proof.
    induction xs as [|x xs IH]; intros r ok bad H1 H2; cbn [fintersection_list].
    - apply outc_ret. exact H1.
    - apply (outc_bind _ _ _ (fun _ l' => l' = r)); [apply outc_tick; auto|]. intros _ l' ->.
      cbn [intersection_list] in H1. destruct (contains ltb s1 x).
      + apply (outc_bind _ _ _ (fun _ l' => l' = sinsert ltb r x)); [apply outc_attempt; auto|]. intros _ l' ->. apply IH; auto.
      + apply (outc_bind _ _ _ (fun _ l' => l' = r)); [apply outc_ret; auto|]. intros _ l' ->. apply IH; auto.
  Qed.

  (** ** stores *)
  Lemma outc_on_var d (m : M (list T * sched) unit) st ok bad (ok' : unit -> (nat -> list T) -> Prop) (bad' : (nat -> list T) -> Prop) :
    outc m (st d) ok bad -> (forall l, ok tt l -> ok' tt (set_var st d l)) -> (forall l, bad l -> bad' (set_var st d l)) ->
    outc (on_var d m) st ok' bad'.
  Proof.
    intros Hm H1 H2 sc. specialize (Hm sc). unfold on_var. cbn [fst snd].
    destruct (m (st d, sc)) as [[] [l sc']|e [l sc']|r| |]; try exact Hm; cbn [fst snd] in *; destruct Hm; split; auto.
  Qed.
  Lemma outc_into_var d l0 (m : M (list T * sched) unit) st ok (ok' : unit -> (nat -> list T) -> Prop) (bad' : (nat -> list T) -> Prop) :
    outc m l0 ok (fun _ => True) -> (forall l, ok tt l -> ok' tt (set_var st d l)) -> bad' st ->
    outc (into_var d l0 m) st ok' bad'.
  Proof.
    intros Hm H1 H2 sc. specialize (Hm sc). unfold into_var. cbn [fst snd].
    destruct (m (l0, sc)) as [[] [l sc']|e [l sc']|r| |]; try exact Hm; cbn [fst snd] in *; destruct Hm; split; auto.
  Qed.

  (** ** the elements before a point *)
  Definition upto (a : list T) (x : T) : bool := existsb (fun y => negb (ltb y x)) a.
  Lemma upto_initial a : initial ltb (upto a).
  Proof.
    intros x y Hy Hyx. unfold upto in *. apply existsb_exists in Hy as (z & Hz & Hzy). apply existsb_exists. exists z. split; [exact Hz|].
    apply negb_true_iff in Hzy. apply negb_true_iff. destruct (ltb z x) eqn:Hzx; [|reflexivity]. exfalso.
    destruct (ltb x y) eqn:Hxy.
    - rewrite (swo_trans _ HO _ _ _ Hzx Hxy) in Hzy. discriminate.
    - rewrite <- (ltb_cong_r ltb HO z x y) in Hzy by (apply ltb_trichotomy; assumption). congruence.
  Qed.
  Lemma sorted_app_lt a b x y : sorted (a ++ b) -> In x a -> In y b -> ltb x y = true.
  Proof.
    intros Hs Hx Hy. apply in_split in Hx as (a1 & a2 & ->). rewrite <- app_assoc in Hs. simpl in Hs.
    apply (sorted_split ltb _ _ _ Hs). apply in_or_app. auto.
  Qed.
  Lemma upto_in a b x : sorted (a ++ b) -> contains ltb (a ++ b) x = true -> upto a x = contains ltb a x.
  Proof.
    intros Hs Hc. apply contains_true in Hc as (e & He & Hq). destruct (contains ltb a x) eqn:Ha.
    - apply contains_true in Ha as (z & Hz & Hqz). apply existsb_exists. exists z. split; [exact Hz|].
      unfold eqvb in Hqz. apply andb_true_iff in Hqz as [Hqz _]. exact Hqz.
    - destruct (upto a x) eqn:Hu; [|reflexivity]. exfalso. apply existsb_exists in Hu as (z & Hz & Hzx). apply negb_true_iff in Hzx.
      apply in_app_or in He as [He|He].
      + assert (contains ltb a x = true) by (apply contains_true; eauto). congruence.
      + pose proof (sorted_app_lt a b z e Hs Hz He) as Hlt. rewrite (ltb_cong_r ltb HO z e x Hq) in Hlt. congruence.
  Qed.
  Lemma contains_app a b x : contains ltb (a ++ b) x = contains ltb a x || contains ltb b x.
  Proof. rewrite !contains_in_list. unfold in_list. apply existsb_app. Qed.
  Lemma upto_split a b x : sorted (a ++ b) ->
    contains ltb a x = contains ltb (a ++ b) x && upto a x /\ contains ltb b x = contains ltb (a ++ b) x && negb (upto a x).
  Proof.
    intros Hs. destruct (contains ltb (a ++ b) x) eqn:Hc.
    - rewrite (upto_in a b x Hs Hc). simpl. split; [reflexivity|]. destruct (contains ltb a x) eqn:Ha; simpl.
      + apply contains_true in Ha as (z & Hz & Hqz). apply contains_false. intros e He.
        pose proof (sorted_app_lt a b z e Hs Hz He) as Hlt. rewrite (ltb_cong_l ltb HO z x e Hqz) in Hlt. apply ltb_not_eqv'. exact Hlt.
      + rewrite contains_app, Ha in Hc. exact Hc.
    - rewrite contains_app in Hc. apply orb_false_iff in Hc as [-> ->]. split; reflexivity.
  Qed.
  Lemma upto_more a b : sorted (a ++ b) -> b <> [] -> exists x, contains ltb (a ++ b) x = true /\ upto a x = false.
  Proof.
    intros Hs Hb. destruct b as [|x b]; [congruence|]. exists x. split.
    - apply (contains_self ltb HO). apply in_or_app. simpl; auto.
    - destruct (upto a x) eqn:Hu; [|reflexivity]. apply existsb_exists in Hu as (z & Hz & Hzx).
      rewrite (sorted_app_lt a (x :: b) z x Hs Hz) in Hzx by (simpl; auto). discriminate.
  Qed.
  Lemma skipn_nonempty {A} k (l : list A) : k < length l -> skipn k l <> [].
  Proof. intros Hk He. apply (f_equal (@length A)) in He. rewrite skipn_length in He. simpl in He. lia. Qed.
  Lemma filter_app_sorted f a b : sorted (a ++ b) -> sorted (filter f a ++ b).
  Proof.
    unfold increasing. induction a as [|h a IH]; simpl; intros Hs; [exact Hs|]. inversion Hs as [|x y Hs' Hf]; subst.
    destruct (f h); [|auto]. constructor; [auto|]. rewrite Forall_forall in *. intros y Hy. apply Hf.
    apply in_app_or in Hy as [Hy|Hy]; apply in_or_app; [left|right; exact Hy]. apply filter_In in Hy as [Hy _]. exact Hy.
  Qed.

  (** ** programs *)
  Lemma Rel_same st p d : Rel ltb st p -> Rel ltb (set_var st d (st d)) p.
  Proof.
    intros [H1 H2]. split; intros v; unfold set_var; destruct (Nat.eqb_spec v d) as [->|]; auto.
  Qed.
  Lemma Rel_sim st p p' : Rel ltb st p -> same_sets p' p -> Rel ltb st p'.
  Proof. intros [H1 H2] Hq. split; [exact H1|]. intros v x. rewrite Hq. apply H2. Qed.
  Lemma same_refl (p : nat -> T -> bool) : same_sets p p.
  Proof. intros v x. reflexivity. Qed.

  Lemma adjoin_prefix l s k : sorted l -> sorted s -> k < length s ->
    exists below, initial ltb below /\ (exists x, contains ltb s x = true /\ below x = false) /\
      forall x, contains ltb (fold_left (sinsert ltb) (firstn k s) l) x = contains ltb l x || (contains ltb s x && below x).
  Proof.
    intros Hl Hs Hk. exists (upto (firstn k s)). split; [apply upto_initial|].
    rewrite <- (firstn_skipn k s) in Hs. split.
    - destruct (upto_more _ _ Hs) as (x & Hx1 & Hx2); [apply skipn_nonempty; exact Hk|]. rewrite firstn_skipn in Hx1. eauto.
    - intros x. rewrite fold_insert_contains by assumption. f_equal. rewrite <- contains_in_list.
      destruct (upto_split _ _ x Hs) as [Hx _]. rewrite firstn_skipn in Hx. exact Hx.
  Qed.
  Lemma erase_prefix (c : T -> bool) l k : sorted l -> k < length l -> (forall a b, eqv a b = true -> c a = c b) ->
    exists below, initial ltb below /\ (exists x, contains ltb l x = true /\ below x = false) /\
      sorted (filter (fun x => negb (c x)) (firstn k l) ++ skipn k l) /\
      forall x, contains ltb (filter (fun x => negb (c x)) (firstn k l) ++ skipn k l) x = contains ltb l x && negb (c x && below x).
  Proof.
    intros Hl Hk Hc. exists (upto (firstn k l)). split; [apply upto_initial|].
    rewrite <- (firstn_skipn k l) in Hl. split; [|split].
    - destruct (upto_more _ _ Hl) as (x & Hx1 & Hx2); [apply skipn_nonempty; exact Hk|]. rewrite firstn_skipn in Hx1. eauto.
    - apply filter_app_sorted. exact Hl.
    - intros x. rewrite contains_app. rewrite (filter_contains ltb).
      + destruct (upto_split _ _ x Hl) as [-> ->]. rewrite firstn_skipn.
        destruct (contains ltb l x), (upto (firstn k l) x), (c x); reflexivity.
      + pose proof (filter_app_sorted (fun _ => true) _ _ Hl) as _. clear -Hl. unfold increasing in *.
        induction (firstn k l) as [|h a IH]; simpl in *; [constructor|]. inversion Hl as [|x y Hs' Hf]; subst. constructor; [auto|].
        rewrite Forall_forall in *. intros y Hy. apply Hf. apply in_or_app; auto.
      + intros a b Hq. rewrite (Hc a b Hq). reflexivity.
  Qed.

  Lemma fadjoin_arg st p d s : Rel ltb st p ->
    outc (on_var d (fadjoin ltb (arg st d s))) st
      (fun _ st' => Rel ltb st' (set_var p d (fun x => p d x || p s x)))
      (fun st' => exists p', sfails ltb (SAdjoin d s) p p' /\ Rel ltb st' p').
  Proof.
    intros HR. pose proof HR as [Hs Hp]. unfold arg. destruct (Nat.eqb_spec d s) as [<-|Hds].
    - apply (outc_on_var d _ st (fun _ l => l = st d) (fun l => l = st d /\ 0 < length (st d))).
      + apply outc_content. apply (fadjoin_self_gen (st d) [] (st d)); auto.
      + intros l ->. apply Rel_set; [exact HR|apply Hs|]. intros x. rewrite orb_diag. apply Hp.
      + intros l [-> Hlen]. exists (set_var p d (fun x => p d x || (p d x && upto [] x))). split.
        * exists (upto []). split; [apply upto_initial|]. split.
          { destruct (st d) as [|x t] eqn:Hd; [simpl in Hlen; lia|]. exists x. split; [|reflexivity].
            rewrite <- Hp, Hd. apply (contains_self ltb HO). simpl; auto. }
          apply same_refl.
        * apply Rel_set; [exact HR|apply Hs|]. intros x. unfold upto; simpl. rewrite andb_false_r, orb_false_r. apply Hp.
    - apply (outc_on_var d _ st (fun _ l => l = fold_left (sinsert ltb) (st s) (st d))
               (fun l => exists k, k < length (st s) /\ l = fold_left (sinsert ltb) (firstn k (st s)) (st d))).
      + apply fadjoin_other; [apply Hs|reflexivity|eauto].
      + intros l ->. apply Rel_set; [exact HR|apply fold_insert_sorted; [exact HO|apply Hs]|].
        intros x. rewrite (fold_insert_contains ltb HO) by apply Hs. rewrite <- contains_in_list, !Hp. reflexivity.
      + intros l (k & Hk & ->). destruct (adjoin_prefix (st d) (st s) k (Hs d) (Hs s) Hk) as (below & Hi & (x0 & Hx0 & Hb0) & Hc).
        exists (set_var p d (fun x => p d x || (p s x && below x))). split.
        * exists below. split; [exact Hi|]. split; [exists x0; rewrite <- Hp; auto|apply same_refl].
        * apply Rel_set; [exact HR|apply fold_insert_sorted; [exact HO|apply Hs]|]. intros x. rewrite Hc, !Hp. reflexivity.
  Qed.
  Lemma ferase_arg ei st p d s : Rel ltb st p ->
    outc (on_var d (ferase ltb ei (arg st d s))) st
      (fun _ st' => Rel ltb st' (set_var p d (fun x => p d x && negb (Bool.eqb (p s x) ei))))
      (fun st' => exists below, initial ltb below /\ (exists x, p d x = true /\ below x = false) /\
                    Rel ltb st' (set_var p d (fun x => p d x && negb (Bool.eqb (p s x) ei && below x)))).
  Proof.
    intros HR. pose proof HR as [Hs Hp].
    set (c := if Nat.eqb d s then (fun _ : T => Bool.eqb true ei) else (fun x => Bool.eqb (contains ltb (st s) x) ei)).
    assert (Hc : forall a b, eqv a b = true -> c a = c b).
    { intros a b Hq. unfold c. destruct (Nat.eqb d s); [reflexivity|]. rewrite (contains_eqv ltb HO _ a b Hq). reflexivity. }
    assert (Hcp : forall x, p d x = true -> c x = Bool.eqb (p s x) ei).
    { intros x Hx. unfold c. destruct (Nat.eqb_spec d s) as [<-|]; [rewrite Hx|rewrite Hp]; reflexivity. }
    assert (Hm : forall (ok : unit -> list T -> Prop) (bad : list T -> Prop), ok tt (filter (fun x => negb (c x)) (st d)) ->
      (forall k, k < length (st d) -> bad (filter (fun x => negb (c x)) (firstn k (st d)) ++ skipn k (st d))) ->
      outc (ferase ltb ei (arg st d s)) (st d) ok bad).
    { intros ok bad H1 H2. unfold arg, c in *. destruct (Nat.eqb d s); [apply ferase_self|apply ferase_other]; auto. }
    apply (outc_on_var d _ st (fun _ l => l = filter (fun x => negb (c x)) (st d))
               (fun l => exists k, k < length (st d) /\ l = filter (fun x => negb (c x)) (firstn k (st d)) ++ skipn k (st d))).
    - apply Hm; eauto.
    - intros l ->. apply Rel_set; [exact HR|apply filter_sorted', Hs|]. intros x. rewrite (filter_contains ltb); [|apply Hs|].
      + rewrite Hp. destruct (p d x) eqn:Hx; simpl; [rewrite (Hcp x Hx)|]; reflexivity.
      + intros a b Hq. rewrite (Hc a b Hq). reflexivity.
    - intros l (k & Hk & ->). destruct (erase_prefix c (st d) k (Hs d) Hk Hc) as (below & Hi & (x0 & Hx0 & Hb0) & Hso & Hco).
      exists below. split; [exact Hi|]. split; [exists x0; rewrite <- Hp; auto|].
      apply Rel_set; [exact HR|exact Hso|]. intros x. rewrite Hco, Hp. destruct (p d x) eqn:Hx; simpl; [rewrite (Hcp x Hx)|]; reflexivity.
  Qed.

  Lemma outc_tick_then (m : M (list T * sched) unit) l (ok : unit -> list T -> Prop) :
    outc m l ok (fun _ => True) -> outc (tick ;;; m) l ok (fun _ => True).
  Proof. intros Hm. apply (outc_bind _ _ _ (fun _ l' => l' = l)); [apply outc_tick; auto|]. intros _ l' ->. exact Hm. Qed.

  Lemma fsstep_ok o st p : no_member_restrict o -> Rel ltb st p ->
    outc (fsstep ltb o) st (fun _ st' => Rel ltb st' (spec_sstep ltb o p))
      (fun st' => exists p', sfails ltb o p p' /\ Rel ltb st' p').
  Proof.
    intros Hok HR. pose proof HR as [Hs Hp].
    assert (Hkeep : exists p', same_sets p' p /\ Rel ltb st p') by (exists p; split; [apply same_refl|exact HR]).
    assert (Hkeep' : forall d, exists p', same_sets p' p /\ Rel ltb (set_var st d (st d)) p')
      by (intros d; exists p; split; [apply same_refl|apply Rel_same; exact HR]).
    destruct o as [d|d l|d s|d t|d s|d t|d s|d l|d s|d s|d s|d s1 s2|d s1 s2|d s1 l|d s1 s2];
      try (destruct Hok; fail); (eapply outc_ext; [intros sc; cbn [fsstep fst]; reflexivity|]); cbn [spec_sstep sfails].
    - intros sc. cbn. split; [|apply used_nil]. apply Rel_set; [exact HR|constructor|reflexivity].
    - apply (outc_into_var d _ _ st (fun _ r => r = set_of_list ltb l)); [|intros r ->|exact Hkeep].
      + apply outc_attempts; auto.
      + apply Rel_set; [exact HR|apply (set_of_list_sorted ltb HO)|apply (set_of_list_contains ltb HO)].
    - apply (outc_into_var d _ _ st (fun _ r => r = st s)); [apply outc_tick; auto|intros r ->|exact Hkeep].
      apply Rel_set; [exact HR|apply Hs|apply Hp].
    - apply (outc_on_var d _ st (fun _ r => r = sinsert ltb (st d) t) (fun r => r = st d)); [apply outc_attempt; auto|intros r ->|intros r ->; apply Hkeep'].
      apply Rel_set; [exact HR|apply (sinsert_sorted ltb HO), Hs|]. intros x. rewrite (sinsert_contains ltb HO) by apply Hs. rewrite Hp. reflexivity.
    - apply (fadjoin_arg st p d s HR).
    - apply (outc_on_var d _ st (fun _ r => r = remove_elem ltb t (st d)) (fun r => r = st d)); [apply outc_attempt; auto|intros r ->|intros r ->; apply Hkeep'].
      destruct (remove_elem_spec ltb HO t (st d) (Hs d)) as [H1 H2].
      apply Rel_set; [exact HR|exact H1|]. intros x. rewrite H2, Hp. reflexivity.
    - eapply outc_weaken; [apply (ferase_arg true st p d s HR)| |].
      + intros a st' HR'. apply (Rel_sim _ _ _ HR'). intros v x. unfold set_var. destruct (Nat.eqb v d); [|reflexivity].
        destruct (p s x); reflexivity.
      + intros st' (below & Hi & Hx & HR'). eexists. split; [exists below; split; [exact Hi|split; [exact Hx|apply same_refl]]|].
        apply (Rel_sim _ _ _ HR'). intros v x. unfold set_var. destruct (Nat.eqb v d); [|reflexivity]. destruct (p s x); reflexivity.
    - apply (outc_on_var d _ st (fun _ r => r = fold_left (serase ltb) l (st d))
               (fun r => exists k, k < length l /\ r = fold_left (serase ltb) (firstn k l) (st d))).
      + apply outc_attempts; eauto.
      + intros r ->. apply Rel_set; [exact HR|apply fold_erase_sorted, Hs|]. intros x. rewrite (fold_erase_contains ltb HO), Hp. reflexivity.
      + intros r (k & Hk & ->). eexists. split; [exists k; split; [exact Hk|apply same_refl]|].
        apply Rel_set; [exact HR|apply fold_erase_sorted, Hs|]. intros x. rewrite (fold_erase_contains ltb HO), Hp. reflexivity.
    - eapply outc_weaken; [apply (ferase_arg true st p d s HR)| |].
      + intros a st' HR'. apply (Rel_sim _ _ _ HR'). intros v x. unfold set_var. destruct (Nat.eqb v d); [|reflexivity].
        destruct (p s x); reflexivity.
      + intros st' (below & Hi & Hx & HR'). eexists. split; [exists below; split; [exact Hi|split; [exact Hx|apply same_refl]]|].
        apply (Rel_sim _ _ _ HR'). intros v x. unfold set_var. destruct (Nat.eqb v d); [|reflexivity]. destruct (p s x); reflexivity.
    - eapply outc_weaken; [apply (ferase_arg false st p d s HR)| |].
      + intros a st' HR'. apply (Rel_sim _ _ _ HR'). intros v x. unfold set_var. destruct (Nat.eqb v d); [|reflexivity].
        destruct (p s x); reflexivity.
      + intros st' (below & Hi & Hx & HR'). eexists. split; [exists below; split; [exact Hi|split; [exact Hx|apply same_refl]]|].
        apply (Rel_sim _ _ _ HR'). intros v x. unfold set_var. destruct (Nat.eqb v d); [|reflexivity]. destruct (p d x), (p s x), (below x); reflexivity.
    - apply (outc_into_var d _ _ st (fun _ r => r = fold_left (sinsert ltb) (st s2) (st s1))); [|intros r ->|exact Hkeep].
      + apply outc_tick_then. apply fadjoin_other; auto.
      + apply Rel_set; [exact HR|apply fold_insert_sorted; [exact HO|apply Hs]|].
        intros x. rewrite (fold_insert_contains ltb HO) by apply Hs. rewrite <- contains_in_list, !Hp. reflexivity.
    - apply (outc_into_var d _ _ st (fun _ r => r = filter (fun x => negb (Bool.eqb (contains ltb (st s2) x) false)) (st s1))); [|intros r ->|exact Hkeep].
      + apply outc_tick_then. apply ferase_other; auto.
      + apply Rel_set; [exact HR|apply filter_sorted', Hs|]. intros x. rewrite (filter_contains ltb); [|apply Hs|].
        * rewrite !Hp. destruct (p s2 x); reflexivity.
        * intros a b Hq. rewrite (contains_eqv ltb HO _ a b Hq). reflexivity.
    - apply (outc_into_var d _ _ st (fun _ r => r = intersection_list ltb (st s1) l [])); [|intros r ->|exact Hkeep].
      + apply fintersection_gen; auto.
      + destruct (intersection_list_spec ltb HO (st s1) l [] (sorted_nil ltb)) as [H1 H2].
        apply Rel_set; [exact HR|exact H1|]. intros x. rewrite H2, Hp. reflexivity.
    - apply (outc_into_var d _ _ st (fun _ r => r = filter (fun x => negb (Bool.eqb (contains ltb (st s2) x) true)) (st s1))); [|intros r ->|exact Hkeep].
      + apply outc_tick_then. apply ferase_other; auto.
      + apply Rel_set; [exact HR|apply filter_sorted', Hs|]. intros x. rewrite (filter_contains ltb); [|apply Hs|].
        * rewrite !Hp. destruct (p s2 x); reflexivity.
        * intros a b Hq. rewrite (contains_eqv ltb HO _ a b Hq). reflexivity.
  Qed.

  Lemma used_raised (sc sc1 sc2 : sched) (e : option exn) (outs : list (option exn)) :
    used sc sc1 (raised as_is [e]) -> nothing_swallowed as_is outs sc1 sc2 -> nothing_swallowed as_is (e :: outs) sc sc2.
  Proof.
    intros Hu (u & -> & Hr). destruct (used_trans sc _ sc2 _ (raised as_is u) Hu) as (w & -> & Hw); [exists u; auto|].
    exists w. split; [reflexivity|]. rewrite Hw, Hr. change (e :: outs) with ([e] ++ outs). rewrite raised_app. reflexivity.
  Qed.
  Lemma fsrun_ok ops : forall st p sc, Forall no_member_restrict ops -> Rel ltb st p ->
    exists outs st' sc' p', fsrun ltb ops (st, sc) = (outs, inl (st', sc')) /\ sexec ltb ops outs p p' /\ Rel ltb st' p' /\
      nothing_swallowed as_is outs sc sc'.
  Proof.
    induction ops as [|o ops IH]; intros st p sc Hok HR.
    - exists [], st, sc, p. split; [reflexivity|]. split; [constructor; apply same_refl|]. split; [exact HR|]. exists []. auto.
    - inversion Hok as [|a b Ho Ht]; subst. pose proof (fsstep_ok o st p Ho HR sc) as Hst. cbn [fsrun].
      destruct (fsstep ltb o (st, sc)) as [x [st1 sc1]|e [st1 sc1]|r| |]; try (destruct Hst; fail); cbn [fst snd] in Hst.
      + destruct Hst as [HR1 Hu]. destruct (IH st1 _ sc1 Ht HR1) as (outs & st' & sc' & p' & -> & He & HR' & Hn).
        exists (None :: outs), st', sc', p'. split; [reflexivity|]. split; [econstructor; [apply same_refl|exact He]|].
        split; [exact HR'|]. apply (used_raised _ sc1); assumption.
      + destruct Hst as [(p1 & Hf & HR1) Hu]. destruct (IH st1 p1 sc1 Ht HR1) as (outs & st' & sc' & p' & -> & He & HR' & Hn).
        exists (Some e :: outs), st', sc', p'. split; [reflexivity|]. split; [eapply SxThrow; [exact Hf|exact He]|].
        split; [exact HR'|]. apply (used_raised _ sc1); assumption.
  Qed.
  Theorem sets_throwing ops sc : Forall no_member_restrict ops ->
    exists outs st sc' p, fsrun ltb ops (fun _ => [], sc) = (outs, inl (st, sc')) /\
      sexec ltb ops outs (fun _ _ => false) p /\
      (forall v, sorted (st v)) /\ (forall v x, contains ltb (st v) x = p v x) /\ nothing_swallowed as_is outs sc sc'.
  Proof.
    intros Hok. destruct (fsrun_ok ops (fun _ => []) (fun _ _ => false) sc Hok) as (outs & st & sc' & p & H1 & H2 & [H3 H4] & H5).
    - split; [intros v; constructor|reflexivity].
    - exists outs, st, sc', p. auto.
  Qed.

  (** ** nothing throws: the functions of SetModel.v *)
  Lemma quiet_attempts {A} (f : A -> list T -> list T) xs : forall l, attempts f xs (l, []) = Ret tt (fold_left (fun r x => f x r) xs l, []).
  Proof. induction xs as [|x xs IH]; intros l; [reflexivity|]. cbn. apply IH. Qed.
  Lemma quiet_adjoin src : forall fuel it l, fadjoin_loop ltb fuel it src (l, []) =
    match adjoin_loop ltb fuel it src l with Some r => Ret tt (r, []) | None => Fuel end.
  Proof. induction fuel as [|fuel IH]; intros it l; [reflexivity|]. destruct it as [x|]; [|reflexivity]. cbn. apply IH. Qed.
  Lemma quiet_erase ei src : forall fuel it l, ferase_loop ltb ei fuel it src (l, []) =
    match erase_loop ltb ei fuel it src l with Some r => Ret tt (r, []) | None => Fuel end.
  Proof.
    induction fuel as [|fuel IH]; intros it l; [reflexivity|]. destruct it as [x|]; [|reflexivity].
    cbn [ferase_loop erase_loop]. unfold bind, tick, content. cbn [fst snd]. destruct (Bool.eqb (contains ltb (src l) x) ei); apply IH.
  Qed.
  Lemma quiet_intersection s1 xs : forall r, fintersection_list ltb s1 xs (r, []) = Ret tt (intersection_list ltb s1 xs r, []).
  Proof.
    induction xs as [|x xs IH]; intros r; [reflexivity|]. cbn [fintersection_list intersection_list]. unfold bind, tick. cbn [fst snd].
    destruct (contains ltb s1 x); apply IH.
  Qed.
  Theorem sets_quiet o st : fsstep ltb o (st, []) =
    match sstep ltb o st with Ret _ st' => Ret tt (st', []) | Exc e st' => Exc e (st', []) | Ub r => Ub r | Abort => Abort | Fuel => Fuel end.
  Proof.
    destruct o; cbn [fsstep fst snd sstep]; unfold on_var, into_var, fadjoin, ferase, fremove_list, fremove_elem, content, bind; cbn [fst snd];
      rewrite ?quiet_attempts; try reflexivity;
      unfold tick; cbn [fst snd]; rewrite ?quiet_adjoin, ?quiet_erase, ?quiet_intersection; try reflexivity;
      unfold store_result, adjoin, member_remove, member_restrict, free_remove, free_restrict, join, intersection, difference, adjoin, free_restrict, free_remove;
      match goal with |- context [match ?x with Some _ => _ | None => _ end] => destruct x; reflexivity end.
  Qed.
End Sets.

Section Maps.
  Context {K V : Type} (ltb : K -> K -> bool) (HO : SWO ltb) (dflt : V).
  Notation eqv := (eqvb ltb).
  Notation pltb := (@pltb K V ltb).
  Notation msorted := (increasing pltb).
  Notation MRel := (@MRel K V ltb).

  Lemma same_maps_refl (p : nat -> fmap (K := K) (V := V)) : same_maps p p.
  Proof. intros v x. reflexivity. Qed.
  Lemma same_keys_set (p : nat -> fmap (K := K) (V := V)) d f : (forall x, f x = p d x) -> same_maps (set_var p d f) p.
  Proof. intros Hf v x. unfold set_var. destruct (Nat.eqb_spec v d) as [->|]; auto. Qed.

  Lemma mcontains (m : list (K * V)) k v : contains pltb m (k, v) = match mfind ltb k m with Some _ => true | None => false end.
  Proof. rewrite contains_find. rewrite <- (mfind_as_set ltb k m v). reflexivity. Qed.
  Lemma mfind_app (a b : list (K * V)) k : mfind ltb k (a ++ b) = match mfind ltb k a with Some e => Some e | None => mfind ltb k b end.
  Proof. unfold mfind. induction a as [|h a IH]; simpl; [reflexivity|]. destruct (eqv (fst h) k); [reflexivity|exact IH]. Qed.
  (** the keys before a point; the value does not matter *)
  Lemma upto_keys (a : list (K * V)) : exists below, initial ltb below /\ forall k v, below k = upto pltb a (k, v).
  Proof.
    exists (fun k => upto pltb a (k, dflt)). assert (Hv : forall k v, upto pltb a (k, dflt) = upto pltb a (k, v)) by reflexivity.
    split; [|exact Hv]. intros x y Hy Hyx. apply (upto_initial pltb (pltb_swo ltb HO) a (x, dflt) (y, dflt) Hy). exact Hyx.
  Qed.
  Lemma madjoin_prefix (l s : list (K * V)) k : msorted l -> msorted s -> k < length s ->
    exists below, initial ltb below /\ (exists x, mfind ltb x s <> None /\ below x = false) /\
      msorted (fold_left (minsert ltb) (firstn k s) l) /\
      forall x, mfind ltb x (fold_left (minsert ltb) (firstn k s) l) =
        match mfind ltb x l with Some e => Some e | None => if below x then mfind ltb x s else None end.
  Proof.
    intros Hl Hs Hk. destruct (upto_keys (firstn k s)) as (below & Hi & Hb). exists below. split; [exact Hi|].
    rewrite <- (firstn_skipn k s) in Hs. split.
    { destruct (upto_more pltb (pltb_swo ltb HO) _ _ Hs) as ([x v] & Hx1 & Hx2); [apply skipn_nonempty; exact Hk|]. rewrite firstn_skipn, mcontains in Hx1.
      exists x. split; [|rewrite (Hb x v); exact Hx2]. destruct (mfind ltb x s); [discriminate|congruence]. }
    destruct (fold_minsert ltb HO (firstn k s) l Hl) as [H1 H2]. split; [exact H1|]. intros x. rewrite H2.
    destruct (mfind ltb x l); [reflexivity|].
    destruct (upto_split pltb (pltb_swo ltb HO) _ _ (x, dflt) Hs) as [Hx _]. rewrite firstn_skipn, !mcontains, <- Hb in Hx.
    pose proof (mfind_app (firstn k s) (skipn k s) x) as Ha. rewrite firstn_skipn in Ha.
    destruct (mfind ltb x (firstn k s)) as [e|].
    - rewrite Ha in Hx |- *. simpl in Hx. rewrite <- Hx. reflexivity.
    - destruct (below x); [|reflexivity]. destruct (mfind ltb x s); [discriminate|reflexivity].
  Qed.

  Lemma fmadjoin_arg st p d s : MRel st p ->
    outc (on_var d (fadjoin pltb (marg st d s)) ;;; ret OutUnit) st
      (fun x st' => x = @OutUnit V /\ MRel st' (set_var p d (funion (p d) (p s))))
      (fun st' => exists p', mfails ltb dflt (MAdjoin d s) p p' /\ MRel st' p').
  Proof.
    intros HR. pose proof HR as [Hs Hp].
    apply (outc_bind _ _ _ (fun _ st' => MRel st' (set_var p d (funion (p d) (p s)))));
      [|intros _ st' HR'; apply outc_ret; auto].
    unfold marg. destruct (Nat.eqb_spec d s) as [<-|Hds].
    - apply (outc_on_var d _ st (fun _ l => l = st d) (fun l => l = st d /\ 0 < length (st d))).
      + apply outc_content. apply (fadjoin_self_gen pltb (pltb_swo ltb HO) (st d) [] (st d)); auto.
      + intros l ->. apply MRel_set; [exact HR|apply Hs|]. intros x. unfold funion. rewrite Hp. destruct (p d x); reflexivity.
      + intros l [-> Hlen]. exists p. split; [|apply MRel_same; exact HR]. exists (fun _ => false). split; [intros x y; discriminate|]. split.
        * destruct (st d) as [|x t] eqn:Hd; [simpl in Hlen; lia|]. exists (fst x). split; [|reflexivity].
          rewrite <- Hp, Hd, mfind_cons. rewrite (eqvb_refl ltb HO). discriminate.
        * intros v x. symmetry. apply same_keys_set. intros y. unfold funion. destruct (p d y); reflexivity.
    - apply (outc_on_var d _ st (fun _ l => l = fold_left (minsert ltb) (st s) (st d))
               (fun l => exists k, k < length (st s) /\ l = fold_left (minsert ltb) (firstn k (st s)) (st d))).
      + apply fadjoin_other; [exact (pltb_swo ltb HO)|apply Hs|reflexivity|]. intros k Hk. exists k. auto.
      + intros l ->. destruct (fold_minsert ltb HO (st s) (st d) (Hs d)) as [H1 H2].
        apply MRel_set; [exact HR|exact H1|]. intros x. rewrite H2, !Hp. reflexivity.
      + intros l (k & Hk & ->). destruct (madjoin_prefix (st d) (st s) k (Hs d) (Hs s) Hk) as (below & Hi & (x0 & Hx0 & Hb0) & Hso & Hc).
        eexists. split.
        * exists below. split; [exact Hi|]. split; [exists x0; rewrite <- Hp; auto|apply same_maps_refl].
        * apply MRel_set; [exact HR|exact Hso|]. intros x. rewrite Hc, !Hp. reflexivity.
  Qed.
  Lemma frestrict_ok ks m : forall r (ok : unit -> list (K * V) -> Prop) (bad : list (K * V) -> Prop),
    ok tt (fold_left (fun r e => if contains ltb ks (fst e) then minsert ltb r e else r) m r) -> (forall r', bad r') ->
    outc (frestrict_loop ltb m ks) r ok bad.
  Proof.
    induction m as [|e m IH]; intros r ok bad H1 H2; cbn [frestrict_loop].
    - apply outc_ret. exact H1.
    - apply (outc_bind _ _ _ (fun _ l' => l' = r)); [apply outc_tick; auto|]. intros _ l' ->.
      cbn [fold_left] in H1. destruct (contains ltb ks (fst e)).
      + apply (outc_bind _ _ _ (fun _ l' => l' = minsert ltb r e)); [apply outc_attempt; auto|]. intros _ l' ->. apply IH; auto.
      + apply (outc_bind _ _ _ (fun _ l' => l' = r)); [apply outc_ret; auto|]. intros _ l' ->. apply IH; auto.
  Qed.

  Lemma fread_ok st p d k v bad : MRel st p -> p d k = Some (k, v) \/ (exists e, p d k = Some e /\ snd e = v) ->
    outc (fread ltb d k) st (fun x st' => x = OutVal v /\ MRel st' p) bad.
  Proof.
    intros HR Hk sc. unfold fread. cbn [fst]. destruct HR as [Hs Hp]. rewrite Hp.
    assert (He : exists e, p d k = Some e /\ snd e = v) by (destruct Hk as [->|He]; [exists (k, v); auto|exact He]).
    destruct He as (e & -> & <-). split; [split; [reflexivity|split; assumption]|apply used_nil].
  Qed.
  Lemma flookup_ok st p d k (f : V -> M (fstore (T := K * V)) (mout V)) ok (bad : (nat -> list (K * V)) -> Prop) : MRel st p -> bad st ->
    (forall e, p d k = Some e -> outc (f (snd e)) st ok bad) -> (p d k = None -> ok OutThrow st) ->
    outc (flookup ltb d k f) st ok bad.
  Proof.
    intros [Hs Hp] Hb Hf Hn sc. unfold flookup, tick, mget. cbn [fst snd].
    assert (Hall : forall sc1 sc0, used sc0 sc1 [] -> match match mfind ltb k (st d) with Some e => f (snd e) (st, sc1) | None => Ret OutThrow (st, sc1) end with
       | Ret a s => ok a (fst s) /\ used sc0 (snd s) [] | Exc e s => bad (fst s) /\ used sc0 (snd s) [e] | _ => False end).
    { intros sc1 sc0 Hu. rewrite Hp. destruct (p d k) as [e|] eqn:Hk.
      - specialize (Hf e eq_refl sc1). destruct (f (snd e) (st, sc1)) as [a [s2 sc2]|e' [s2 sc2]|r| |]; try exact Hf; cbn [fst snd] in *;
          (destruct Hf as [H1 H2]; split; [exact H1|apply (used_trans _ _ _ _ _ Hu H2)]).
      - split; [apply Hn; reflexivity|exact Hu]. }
    destruct sc as [|[e|] sc]; cbn [fst snd].
    - specialize (Hall [] [] (used_nil [])). destruct (mfind ltb k (st d)); exact Hall.
    - split; [exact Hb|]. exists [Some e]. auto.
    - assert (Hu : used (None :: sc) sc []) by (exists [None]; auto).
      specialize (Hall sc (None :: sc) Hu). destruct (mfind ltb k (st d)); exact Hall.
  Qed.

  Lemma fmstep_ok o st p : MRel st p ->
    outc (fmstep ltb dflt o) st (fun x st' => x = snd (spec_mstep ltb dflt o p) /\ MRel st' (fst (spec_mstep ltb dflt o p)))
      (fun st' => exists p', mfails ltb dflt o p p' /\ MRel st' p').
  Proof.
    intros HR. pose proof HR as [Hs Hp].
    assert (Hkeep : exists p', same_maps p' p /\ MRel st p') by (exists p; split; [apply same_maps_refl|exact HR]).
    assert (Hkeep' : forall d, exists p', same_maps p' p /\ MRel (set_var st d (st d)) p')
      by (intros d; exists p; split; [apply same_maps_refl|apply MRel_same; exact HR]).
    assert (Hins : forall d k v, MRel (set_var st d (minsert ltb (st d) (k, v))) (set_var p d (fadd ltb k v (p d)))).
    { intros d k v. apply MRel_set; [exact HR|apply (minsert_sorted ltb HO), Hs|]. apply (fadd_rel ltb HO); [apply Hs|apply Hp]. }
    assert (Hval : forall d k v, exists e, set_var p d (fadd ltb k v (p d)) d k = Some e /\ snd e = fdef v k (p d)).
    { intros d k v. rewrite set_var_eq. unfold fadd, fdef. destruct (p d k) as [e|] eqn:Hk; [eauto|].
      unfold fset. rewrite (eqvb_refl ltb HO). eauto. }
    destruct o as [d|d s|d k|d k v|d k|d k|d k|d k v|d k|d k v|d k v|d k v w|d s|d s|d s1 s2|d s ks];
      (eapply outc_ext; [intros sc; cbn [fmstep fst]; reflexivity|]); cbn [spec_mstep mfails fst snd].
    - intros sc. cbn. split; [split; [reflexivity|]|apply used_nil]. apply MRel_set; [exact HR|constructor|reflexivity].
    - apply (outc_bind _ _ _ (fun _ st' => MRel st' (set_var p d (p s)))); [|intros _ st' HR'; apply outc_ret; auto].
      apply (outc_into_var d _ _ st (fun _ r => r = st s)); [apply outc_tick; auto|intros r ->|exact Hkeep].
      apply MRel_set; [exact HR|apply Hs|apply Hp].
    - apply (outc_bind _ _ _ (fun _ st' => MRel st' (set_var p d (fadd ltb k dflt (p d))))).
      + apply (outc_on_var d _ st (fun _ r => r = mindex ltb dflt k (st d)) (fun r => r = st d)); [apply outc_attempt; auto|intros r ->; apply Hins|intros r ->; apply Hkeep'].
      + intros _ st' HR'. apply (fread_ok st' _ d k); [exact HR'|right; apply Hval].
    - apply (outc_bind _ _ _ (fun _ st' => st' = set_var st d (mindex ltb dflt k (st d)))).
      { apply (outc_on_var d _ st (fun _ r => r = mindex ltb dflt k (st d)) (fun r => r = st d)); [apply outc_attempt; auto|intros r ->; reflexivity|intros r ->].
        exists p. split; [left; apply same_maps_refl|apply MRel_same; exact HR]. }
      intros _ st' ->.
      apply (outc_bind _ _ _ (fun _ st' => MRel st' (set_var p d (fassign ltb k v (p d))))); [|intros _ st' HR'; apply outc_ret; auto].
      apply (outc_on_var d _ _ (fun _ r => r = mwrite ltb k v (mindex ltb dflt k (st d))) (fun r => r = mindex ltb dflt k (st d))).
      + rewrite set_var_eq. apply outc_attempt; auto.
      + intros r ->. pose proof (MRel_set ltb st p d (mwrite ltb k v (mindex ltb dflt k (st d))) (fassign ltb k v (p d)) HR) as HR'.
        destruct HR' as [H1 H2]; [apply mwrite_sorted, (minsert_sorted ltb HO), Hs|apply (fassign_rel ltb HO); [apply Hs|apply Hp]|].
        split; intros v0; unfold set_var in *; specialize (H1 v0); specialize (H2 v0); destruct (Nat.eqb v0 d); assumption.
      + intros r ->. exists (set_var p d (fadd ltb k dflt (p d))). split; [right; apply same_maps_refl|].
        destruct (Hins d k dflt) as [H1 H2]. split; intros v0; unfold set_var in *; specialize (H1 v0); specialize (H2 v0); destruct (Nat.eqb v0 d); assumption.
    - apply (flookup_ok st p d k); [exact HR|exact Hkeep| |].
      + intros e He. apply outc_ret. unfold lookup_out. rewrite He. auto.
      + intros He. unfold lookup_out. rewrite He. auto.
    - apply (flookup_ok st p d k); [exact HR|exact Hkeep| |].
      + intros e He. apply outc_ret. unfold lookup_out. rewrite He. auto.
      + intros He. unfold lookup_out. rewrite He. auto.
    - apply (flookup_ok st p d k); [exact HR|exact Hkeep| |].
      + intros e He. apply outc_ret. unfold lookup_out. rewrite He. auto.
      + intros He. unfold lookup_out. rewrite He. auto.
    - apply (flookup_ok st p d k); [exact HR|exact Hkeep| |].
      + intros e He. rewrite He. cbn [fst snd].
        apply (outc_bind _ _ _ (fun _ st' => MRel st' (set_var p d (fassign ltb k v (p d))))); [|intros _ st' HR'; apply outc_ret; auto].
        apply (outc_on_var d _ st (fun _ r => r = mwrite ltb k v (st d)) (fun r => r = st d)); [apply outc_attempt; auto|intros r ->|intros r ->; apply Hkeep'].
        apply MRel_set; [exact HR|apply mwrite_sorted, Hs|]. apply (fassign_rel' ltb HO _ _ k v e); [apply Hp|exact He].
      + intros He. rewrite He. auto.
    - apply (outc_bind _ _ _ (fun _ st' => st' = st)); [apply outc_tick; auto|]. intros _ st' ->. intros sc. cbn [fst].
      split; [split; [|exact HR]|apply used_nil]. unfold has_key. rewrite Hp. reflexivity.
    - apply (outc_bind _ _ _ (fun _ st' => MRel st' (set_var p d (fadd ltb k v (p d))))); [|intros _ st' HR'; apply outc_ret; auto].
      apply (outc_on_var d _ st (fun _ r => r = minsert ltb (st d) (k, v)) (fun r => r = st d)); [apply outc_attempt; auto|intros r ->; apply Hins|intros r ->; apply Hkeep'].
    - apply (outc_bind _ _ _ (fun _ st' => MRel st' (set_var p d (fadd ltb k v (p d))))).
      + apply (outc_on_var d _ st (fun _ r => r = minsert ltb (st d) (k, v)) (fun r => r = st d)); [apply outc_attempt; auto|intros r ->; apply Hins|intros r ->; apply Hkeep'].
      + intros _ st' HR'. apply (fread_ok st' _ d k); [exact HR'|right; apply Hval].
    - apply (outc_bind _ _ _ (fun _ st' => st' = set_var st d (minsert ltb (st d) (k, v)))).
      { apply (outc_on_var d _ st (fun _ r => r = minsert ltb (st d) (k, v)) (fun r => r = st d)); [apply outc_attempt; auto|intros r ->; reflexivity|intros r ->].
        exists p. split; [left; apply same_maps_refl|apply MRel_same; exact HR]. }
      intros _ st' ->.
      apply (outc_bind _ _ _ (fun _ st' => MRel st' (set_var p d (fassign ltb k w (p d))))); [|intros _ st' HR'; apply outc_ret; auto].
      apply (outc_on_var d _ _ (fun _ r => r = mwrite ltb k w (minsert ltb (st d) (k, v))) (fun r => r = minsert ltb (st d) (k, v))).
      + rewrite set_var_eq. apply outc_attempt; auto.
      + intros r ->. pose proof (MRel_set ltb st p d (mwrite ltb k w (minsert ltb (st d) (k, v))) (fassign ltb k w (p d)) HR) as HR'.
        destruct HR' as [H1 H2]; [apply mwrite_sorted, (minsert_sorted ltb HO), Hs|apply (fassign_rel ltb HO); [apply Hs|apply Hp]|].
        split; intros v0; unfold set_var in *; specialize (H1 v0); specialize (H2 v0); destruct (Nat.eqb v0 d); assumption.
      + intros r ->. exists (set_var p d (fadd ltb k v (p d))). split; [right; apply same_maps_refl|].
        destruct (Hins d k v) as [H1 H2]. split; intros v0; unfold set_var in *; specialize (H1 v0); specialize (H2 v0); destruct (Nat.eqb v0 d); assumption.
    - apply (fmadjoin_arg st p d s HR).
    - apply (outc_bind _ _ _ (fun _ st' => MRel st' (set_var p d (fremove ltb s (p d))))); [|intros _ st' HR'; apply outc_ret; auto].
      apply (outc_on_var d _ st (fun _ r => r = remove_keys ltb s (st d)) (fun r => exists k, k < length s /\ r = remove_keys ltb (firstn k s) (st d))).
      + apply outc_attempts; [reflexivity|]. intros k Hk. exists k. auto.
      + intros r ->. destruct (remove_keys_spec ltb HO s (st d) (Hs d)) as [H1 H2].
        apply MRel_set; [exact HR|exact H1|]. intros x. rewrite H2, Hp. reflexivity.
      + intros r (k & Hk & ->). destruct (remove_keys_spec ltb HO (firstn k s) (st d) (Hs d)) as [H1 H2].
        eexists. split; [exists k; split; [exact Hk|apply same_maps_refl]|].
        apply MRel_set; [exact HR|exact H1|]. intros x. rewrite H2, Hp. reflexivity.
    - apply (outc_bind _ _ _ (fun _ st' => MRel st' (set_var p d (funion (p s1) (p s2))))); [|intros _ st' HR'; apply outc_ret; auto].
      apply (outc_into_var d _ _ st (fun _ r => r = fold_left (minsert ltb) (st s2) (st s1))); [|intros r ->|exact Hkeep].
      + apply outc_tick_then. apply fadjoin_other; [exact (pltb_swo ltb HO)|apply Hs|reflexivity|auto].
      + destruct (fold_minsert ltb HO (st s2) (st s1) (Hs s1)) as [H1 H2].
        apply MRel_set; [exact HR|exact H1|]. intros x. rewrite H2, !Hp. reflexivity.
    - apply (outc_bind _ _ _ (fun _ st' => MRel st' (set_var p d (frestrict ltb ks (p s))))); [|intros _ st' HR'; apply outc_ret; auto].
      apply (outc_into_var d _ _ st (fun _ r => r = restrict_keys ltb (st s) ks)); [|intros r ->|exact Hkeep].
      + apply frestrict_ok; [reflexivity|auto].
      + destruct (restrict_loop ltb HO ks (st s) [] (@sorted_nil _ pltb)) as [H1 H2].
        apply MRel_set; [exact HR|exact H1|]. intros x. unfold restrict_keys. rewrite H2. simpl. rewrite Hp. reflexivity.
  Qed.
  Lemma used_raised_map (sc sc1 sc2 : sched) (x : mout V + exn) (outs : list (mout V + exn)) :
    used sc sc1 (raised thrown [x]) -> nothing_swallowed thrown outs sc1 sc2 -> nothing_swallowed thrown (x :: outs) sc sc2.
  Proof.
    intros Hu (u & -> & Hr). destruct (used_trans sc _ sc2 _ (raised as_is u) Hu) as (w & -> & Hw); [exists u; auto|].
    exists w. split; [reflexivity|]. rewrite Hw, Hr. change (x :: outs) with ([x] ++ outs). rewrite raised_app. reflexivity.
  Qed.
  Lemma fmrun_ok ops : forall st p sc, MRel st p ->
    exists outs st' sc' p', fmrun ltb dflt ops (st, sc) = (outs, inl (st', sc')) /\ mexec ltb dflt ops outs p p' /\ MRel st' p' /\
      nothing_swallowed thrown outs sc sc'.
  Proof.
    induction ops as [|o ops IH]; intros st p sc HR.
    - exists [], st, sc, p. split; [reflexivity|]. split; [constructor; apply same_maps_refl|]. split; [exact HR|]. exists []. auto.
    - pose proof (fmstep_ok o st p HR sc) as Hst. cbn [fmrun].
      destruct (fmstep ltb dflt o (st, sc)) as [x [st1 sc1]|e [st1 sc1]|r| |]; try (destruct Hst; fail); cbn [fst snd] in Hst.
      + destruct Hst as [[-> HR1] Hu]. destruct (IH st1 _ sc1 HR1) as (outs & st' & sc' & p' & -> & He & HR' & Hn).
        eexists (inl _ :: outs), st', sc', p'. split; [reflexivity|]. split; [econstructor; [apply same_maps_refl|exact He]|].
        split; [exact HR'|]. apply (used_raised_map _ sc1); assumption.
      + destruct Hst as [(p1 & Hf & HR1) Hu]. destruct (IH st1 p1 sc1 HR1) as (outs & st' & sc' & p' & -> & He & HR' & Hn).
        exists (inr e :: outs), st', sc', p'. split; [reflexivity|]. split; [eapply MxThrow; [exact Hf|exact He]|].
        split; [exact HR'|]. apply (used_raised_map _ sc1); assumption.
  Qed.
  Theorem maps_throwing ops sc :
    exists outs st sc' p, fmrun ltb dflt ops (fun _ => [], sc) = (outs, inl (st, sc')) /\
      mexec ltb dflt ops outs (fun _ => fempty) p /\
      (forall v, tabulates ltb (p v) (keys ltb (st v)) (values (st v))) /\ nothing_swallowed thrown outs sc sc'.
  Proof.
    destruct (fmrun_ok ops (fun _ => []) (fun _ => fempty) sc) as (outs & st & sc' & p & H1 & H2 & [H3 H4] & H5).
    - split; [intros v; constructor|reflexivity].
    - exists outs, st, sc', p. split; [exact H1|]. split; [exact H2|]. split; [|exact H5].
      intros v. apply (tabulate_spec ltb HO); [apply H3|apply H4].
  Qed.

  (** ** nothing throws: the functions of MapModel.v *)
  Lemma quiet_restrict ks m : forall r, frestrict_loop ltb m ks (r, []) =
    Ret tt (fold_left (fun r e => if contains ltb ks (fst e) then minsert ltb r e else r) m r, @nil (option exn)) :> res (list (K * V) * sched) unit.
  Proof.
    induction m as [|x m IH]; intros r; [reflexivity|]. cbn [frestrict_loop fold_left]. unfold bind, tick. cbn [fst snd].
    destruct (contains ltb ks (fst x)); apply IH.
  Qed.
  Theorem maps_quiet o st :
    match mstep ltb dflt o st with
    | Ret x st' => exists st2, fmstep ltb dflt o (st, []) = Ret x (st2, []) /\ forall v, st2 v = st' v
    | Exc e _ => False
    | Ub r => fmstep ltb dflt o (st, []) = Ub r
    | Abort => fmstep ltb dflt o (st, []) = Abort
    | Fuel => fmstep ltb dflt o (st, []) = Fuel
    end.
  Proof.
    assert (Hid : forall d v, st v = set_var st d (st d) v).
    { intros d v. unfold set_var. destruct (Nat.eqb_spec v d) as [->|]; reflexivity. }
    destruct o; cbn [fmstep fst snd mstep]; unfold on_var, into_var, fadjoin, content, bind; cbn [fst snd];
      rewrite ?quiet_attempts; unfold tick; cbn [fst snd]; rewrite ?quiet_adjoin, ?quiet_restrict; try (eexists; split; reflexivity).
    - unfold fread, mread, attempt, change, bind, tick. cbn [fst snd]. rewrite !set_var_eq. destruct (mfind ltb k (mindex ltb dflt k (st d))); [|reflexivity]. eexists; split; reflexivity.
    - eexists. split; [reflexivity|]. cbn. rewrite set_var_eq. intros v0. unfold set_var. destruct (Nat.eqb v0 d); reflexivity.
    - unfold flookup, mlookup, mget, tick. cbn [fst snd]. destruct (mfind ltb k (st d)); eexists; (split; [reflexivity|apply Hid]).
    - unfold flookup, mlookup, mget, tick. cbn [fst snd]. destruct (mfind ltb k (st d)); eexists; (split; [reflexivity|apply Hid]).
    - unfold flookup, mlookup, mget, tick. cbn [fst snd]. destruct (mfind ltb k (st d)); eexists; (split; [reflexivity|apply Hid]).
    - unfold flookup, mget, tick. cbn [fst snd]. destruct (mfind ltb k (st d)); eexists; (split; [reflexivity|]); [reflexivity|apply Hid].
    - unfold fread, mread, attempt, change, bind, tick. cbn [fst snd]. rewrite !set_var_eq. destruct (mfind ltb k (minsert ltb (st d) (k, v))); [|reflexivity]. eexists; split; reflexivity.
    - eexists. split; [reflexivity|]. cbn. rewrite set_var_eq. intros v0. unfold set_var. destruct (Nat.eqb v0 d); reflexivity.
    - unfold mstore_result, madjoin, adjoin. match goal with |- context [adjoin_loop ?a ?b ?c ?e ?f] => destruct (adjoin_loop a b c e f) end;
        [eexists; split; reflexivity|reflexivity].
    - unfold mstore_result, mjoin, madjoin, adjoin. match goal with |- context [adjoin_loop ?a ?b ?c ?e ?f] => destruct (adjoin_loop a b c e f) end;
        [eexists; split; reflexivity|reflexivity].
  Qed.
End Maps.

Section Lists.
  Context {T : Type}.
  Notation lists := (nat -> list T).
  Lemma same_lists_refl (p : lists) : same_lists p p.
  Proof. intros v. reflexivity. Qed.
  Lemma set_var_self (p : lists) d : same_lists (set_var p d (p d)) p.
  Proof. intros v. unfold set_var. destruct (Nat.eqb_spec v d) as [->|]; reflexivity. Qed.

  Lemma fold_push (xs : list T) : forall l, fold_left (fun r x => push x r) xs l = l ++ xs.
  Proof.
    induction xs as [|x xs IH]; intros l; simpl; [rewrite app_nil_r; reflexivity|]. rewrite IH. unfold push. rewrite <- app_assoc. reflexivity.
  Qed.

  Lemma fappend_ok d s (l0 : list T) rest : d <> s -> forall pre fuel (st : lists) (ok : unit -> lists -> Prop) (bad : lists -> Prop),
    st s = pre ++ rest -> (Z.of_nat (length (st s)) < 2 ^ 32)%Z -> length rest < fuel ->
    (forall st', same_lists st' (set_var st d (st d ++ rest)) -> ok tt st') ->
    (forall st' k, k < length rest -> same_lists st' (set_var st d (st d ++ firstn k rest)) -> bad st') ->
    outc (fappend_loop fuel (Z.of_nat (length pre)) d s) st ok bad.
  Proof.
    intros Hds. induction rest as [|x rest IH]; intros pre fuel st ok bad Hst Hlen Hf H1 H2;
      (destruct fuel as [|fuel]; [simpl in Hf; lia|]); intros sc; cbn [fappend_loop fst].
    - rewrite Hst, app_nil_r, Z.eqb_refl. split; [|apply used_nil]. apply H1. intros v. rewrite app_nil_r. symmetry. apply set_var_self.
    - rewrite (proj2 (Z.eqb_neq _ _)) by (rewrite Hst, app_length; simpl; lia).
      rewrite Nat2Z.id. assert (Hx : nth_error (st s) (length pre) = Some x).
      { rewrite Hst, nth_error_app2 by lia. rewrite Nat.sub_diag. reflexivity. }
      rewrite Hx.
      assert (Hw : wrap32 (Z.of_nat (length pre) + 1) = Z.of_nat (length (pre ++ [x]))).
      { rewrite wrap32_small; [rewrite app_length; simpl; lia|]. rewrite Hst, app_length in Hlen. simpl in Hlen. lia. }
      rewrite Hw. revert sc.
      assert (Hgoal : outc (on_var d (attempt (push x)) ;;; fappend_loop fuel (Z.of_nat (length (pre ++ [x]))) d s) st ok bad).
      { apply (outc_bind _ _ _ (fun _ st' => st' = set_var st d (push x (st d)))).
        - apply (outc_on_var d _ st (fun _ r => r = push x (st d)) (fun r => r = st d)); [apply outc_attempt; auto|intros r ->; reflexivity|intros r ->].
          apply (H2 _ 0); [simpl; lia|]. simpl. rewrite app_nil_r. apply same_lists_refl.
        - intros _ st' ->.
          assert (Hother : set_var st d (push x (st d)) s = st s) by (apply set_var_neq; congruence).
          apply IH.
          + rewrite Hother, Hst, <- app_assoc. reflexivity.
          + rewrite Hother. exact Hlen.
          + simpl in Hf. lia.
          + intros st' Hs'. apply H1. intros v. rewrite Hs'. rewrite set_var_eq. unfold push. rewrite <- app_assoc. simpl. unfold set_var. destruct (Nat.eqb v d); reflexivity.
          + intros st' k Hk Hs'. apply (H2 st' (S k)); [simpl; lia|]. intros v. rewrite Hs'. rewrite set_var_eq. unfold push. rewrite <- app_assoc. simpl. unfold set_var. destruct (Nat.eqb v d); reflexivity. }
      exact Hgoal.
  Qed.

  Definition bounded (b : nat) (st : lists) : Prop := forall v, length (st v) <= b.
  Definition size_step (o : lsop T) (b : nat) : nat := size_bound [o] b.
  Lemma size_cons o ops b : size_bound (o :: ops) b = size_bound ops (size_step o b).
  Proof. destruct o; reflexivity. Qed.
  Lemma size_step_le (o : lsop T) b : b <= size_step o b.
  Proof. destruct o; unfold size_step; simpl; lia. Qed.
  Lemma size_le (ops : list (lsop T)) : forall b, b <= size_bound ops b.
  Proof.
    induction ops as [|o ops IH]; intros b; [simpl; lia|]. rewrite size_cons. pose proof (size_step_le o b). pose proof (IH (size_step o b)). lia.
  Qed.

  Lemma flstep_ok fuel (o : lsop T) st b : no_self_append o -> bounded b st -> b < fuel -> (Z.of_nat b < 2 ^ 32)%Z ->
    outc (flstep fuel o) st (fun _ st' => same_lists st' (lsdone o st) /\ bounded (size_step o b) st')
      (fun st' => lsfails o st st' /\ bounded (size_step o b) st').
  Proof.
    intros Hok Hb Hf Hz. pose proof (size_step_le o b) as Hsz.
    assert (Hkeep : same_lists st st /\ bounded (size_step o b) st) by (split; [apply same_lists_refl|intros v; specialize (Hb v); lia]).
    assert (Hkeep' : forall d, same_lists (set_var st d (st d)) st /\ bounded (size_step o b) (set_var st d (st d))).
    { intros d. split; [apply set_var_self|]. intros v. rewrite (set_var_self st d v). specialize (Hb v). lia. }
    assert (Hset : forall d l st', length l <= size_step o b -> same_lists st' (set_var st d l) -> bounded (size_step o b) st').
    { intros d l st' Hl Hst v. rewrite Hst. unfold set_var. destruct (Nat.eqb v d); [exact Hl|specialize (Hb v); lia]. }
    destruct o as [d l|d t|d s|d s|d s1 s2|d s t];
      (eapply outc_ext; [intros sc; cbn [flstep fst]; reflexivity|]); cbn [lsdone lsfails].
    - apply (outc_into_var d _ _ st (fun _ r => r = l)); [|intros r ->|exact Hkeep].
      + apply outc_attempts; [rewrite fold_push; reflexivity|auto].
      + split; [apply same_lists_refl|]. apply (Hset d l); [|apply same_lists_refl]. unfold size_step. simpl. lia.
    - apply (outc_on_var d _ st (fun _ r => r = push t (st d)) (fun r => r = st d)); [apply outc_attempt; auto|intros r ->|intros r ->; apply Hkeep'].
      split; [apply same_lists_refl|]. apply (Hset d (push t (st d))); [|apply same_lists_refl].
      unfold push, size_step. rewrite app_length. simpl. specialize (Hb d). lia.
    - apply (fappend_ok d s [] (st s) Hok [] fuel st); [reflexivity|specialize (Hb s); lia|specialize (Hb s); lia| |].
      + intros st' Hs'. split; [exact Hs'|]. apply (Hset d (st d ++ st s) st'); [|exact Hs']. unfold size_step. simpl. rewrite app_length. pose proof (Hb d). pose proof (Hb s). lia.
      + intros st' k Hk Hs'. split; [exists k; auto|]. apply (Hset d (st d ++ firstn k (st s)) st'); [|exact Hs']. unfold size_step. simpl. rewrite app_length, firstn_length. pose proof (Hb d). pose proof (Hb s). lia.
    - apply (fappend_ok d s [] (st s) Hok [] fuel st); [reflexivity|specialize (Hb s); lia|specialize (Hb s); lia| |].
      + intros st' Hs'. split; [exact Hs'|]. apply (Hset d (st d ++ st s) st'); [|exact Hs']. unfold size_step. simpl. rewrite app_length. pose proof (Hb d). pose proof (Hb s). lia.
      + intros st' k Hk Hs'. split; [exists k; auto|]. apply (Hset d (st d ++ firstn k (st s)) st'); [|exact Hs']. unfold size_step. simpl. rewrite app_length, firstn_length. pose proof (Hb d). pose proof (Hb s). lia.
    - apply (outc_into_var d _ _ st (fun _ r => r = st s1 ++ st s2)); [|intros r ->|exact Hkeep].
      + apply outc_tick_then. apply outc_attempts; [rewrite fold_push; reflexivity|auto].
      + split; [apply same_lists_refl|]. apply (Hset d (st s1 ++ st s2)); [|apply same_lists_refl].
        unfold size_step. simpl. rewrite app_length. pose proof (Hb s1). pose proof (Hb s2). lia.
    - apply (outc_into_var d _ _ st (fun _ r => r = push t (st s))); [|intros r ->|exact Hkeep].
      + apply outc_tick_then. apply outc_attempt; auto.
      + split; [apply same_lists_refl|]. apply (Hset d (push t (st s))); [|apply same_lists_refl].
        unfold push, size_step. rewrite app_length. simpl. specialize (Hb s). lia.
  Qed.
  Lemma flrun_ok fuel (ops : list (lsop T)) : forall st sc b, Forall no_self_append ops -> bounded b st ->
    size_bound ops b < fuel -> (Z.of_nat (size_bound ops b) < 2 ^ 32)%Z ->
    exists outs st' sc', flrun fuel ops (st, sc) = (outs, inl (st', sc')) /\ lsexec ops outs st st' /\ nothing_swallowed as_is outs sc sc'.
  Proof.
    induction ops as [|o ops IH]; intros st sc b Hok Hb Hf Hz.
    - exists [], st, sc. split; [reflexivity|]. split; [constructor; apply same_lists_refl|]. exists []. auto.
    - inversion Hok as [|x y Ho Ht]; subst. rewrite size_cons in Hf, Hz.
      pose proof (size_step_le o b) as H1. pose proof (size_le ops (size_step o b)) as H2.
      assert (Hb1 : b < fuel) by lia. assert (Hb2 : (Z.of_nat b < 2 ^ 32)%Z) by lia.
      pose proof (flstep_ok fuel o st b Ho Hb Hb1 Hb2 sc) as Hst. cbn [flrun].
      destruct (flstep fuel o (st, sc)) as [x [st1 sc1]|e [st1 sc1]|r| |]; try (destruct Hst; fail); cbn [fst snd] in Hst.
      + destruct Hst as [[Hd Hb'] Hu]. destruct (IH st1 sc1 _ Ht Hb' Hf Hz) as (outs & st' & sc' & -> & He & Hn).
        exists (None :: outs), st', sc'. split; [reflexivity|]. split; [econstructor; [exact Hd|exact He]|]. apply (used_raised _ sc1); assumption.
      + destruct Hst as [[Hd Hb'] Hu]. destruct (IH st1 sc1 _ Ht Hb' Hf Hz) as (outs & st' & sc' & -> & He & Hn).
        exists (Some e :: outs), st', sc'. split; [reflexivity|]. split; [eapply LxThrow; [exact Hd|exact He]|]. apply (used_raised _ sc1); assumption.
  Qed.
  Theorem lists_throwing (ops : list (lsop T)) (sc : sched) : Forall no_self_append ops -> (Z.of_nat (size_bound ops 0) < 2 ^ 32)%Z ->
    exists fuel, forall fuel', fuel <= fuel' ->
    exists outs st sc', flrun fuel' ops (fun _ => [], sc) = (outs, inl (st, sc')) /\
      lsexec ops outs (fun _ => []) st /\ nothing_swallowed as_is outs sc sc'.
  Proof.
    intros Hok Hz. exists (S (size_bound ops 0)). intros fuel' Hf.
    apply (flrun_ok fuel' ops (fun _ => []) sc 0 Hok); [intros v; simpl; lia|lia|exact Hz].
  Qed.
End Lists.
