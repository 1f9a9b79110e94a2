(** UnitsProofs.v -- lemmas about UnitsModel.v. *)
From Verif Require Import Base UnitsModel UnitsSpec.
From Coq Require Import String.
Local Open Scope string_scope.
Open Scope list_scope.
Open Scope nat_scope.

Lemma header_eqb_spec a b : reflect (a = b) (header_eqb a b).
Proof. unfold header_eqb. match goal with |- context [if ?d then _ else _] => destruct d; constructor; assumption end. Qed.
Lemma mem_spec h l : reflect (In h l) (mem h l).
Proof.
  unfold mem. apply iff_reflect. rewrite existsb_exists. split.
  - intro H. exists h. split; [exact H|]. destruct (header_eqb_spec h h); congruence.
  - intros (x & H & E). destruct (header_eqb_spec h x); [subst; exact H|discriminate].
Qed.

(** ** the headers of a unit *)
Definition all : list header :=
  [Array_; BinaryWord_; Container_; Handle_; Iterator_; Lazy_; LruCache_; Macros_; Metaprogramming_; Randomiser_; Range_;
   StackTrace_; Stdlib_; Stlio_; Stopwatch_; String_; Test_; Tuple_; Variant_; VariantInl_; Writable_].
Lemma in_all h : In h all.
Proof. destruct h; cbn; tauto. Qed.
Lemma nodup_all : NoDup all.
Proof. repeat constructor; cbn; intuition discriminate. Qed.
Definition weight (seen l : list header) : nat := list_sum (map (fun h => if mem h seen then 0 else List.length (includes h)) l).

Lemma weight_other h seen l : ~ In h l -> weight (seen ++ [h]) l = weight seen l.
Proof.
  unfold weight. intro H. f_equal. apply map_ext_in. intros x Hx.
  destruct (mem_spec x (seen ++ [h])) as [I|N], (mem_spec x seen) as [I'|N']; try reflexivity.
  - apply in_app_iff in I as [I|[<-|[]]]; contradiction.
  - destruct N. apply in_app_iff. left. exact I'.
Qed.
Lemma weight_new h seen l : NoDup l -> In h l -> ~ In h seen ->
  weight (seen ++ [h]) l + List.length (includes h) = weight seen l.
Proof.
  induction l as [|x l IH]; intros ND I N; [contradiction|]. inversion ND as [|? ? Nx ND']; subst.
  destruct I as [->|I].
  - pose proof (weight_other h seen l Nx) as W. unfold weight in *. cbn [map list_sum fold_right] in *.
    change (fold_right Init.Nat.add 0) with list_sum in *. rewrite W.
    destruct (mem_spec h (seen ++ [h])) as [_|K]; [|destruct K; apply in_app_iff; right; left; reflexivity].
    destruct (mem_spec h seen); [contradiction|]. lia.
  - specialize (IH ND' I N). assert (Hx : x <> h) by congruence.
    unfold weight in *. cbn [map list_sum fold_right] in *. change (fold_right Init.Nat.add 0) with list_sum in *.
    destruct (mem_spec x (seen ++ [h])) as [J|J], (mem_spec x seen) as [J'|J'].
    + lia.
    + apply in_app_iff in J as [J|[J|[]]]; congruence.
    + destruct J. apply in_app_iff. left. exact J'.
    + lia.
Qed.

Lemma expand_keeps fuel : forall todo seen h, In h seen -> In h (expand fuel todo seen).
Proof.
  induction fuel as [|fuel IH]; intros [|x todo] seen h H; cbn [expand]; try exact H.
  destruct (mem x seen); apply IH; [exact H|]. apply in_app_iff. left. exact H.
Qed.
Lemma expand_nodup fuel : forall todo seen, NoDup seen -> NoDup (expand fuel todo seen).
Proof.
  induction fuel as [|fuel IH]; intros [|x todo] seen H; cbn [expand]; try exact H.
  destruct (mem_spec x seen) as [I|N]; apply IH; [exact H|]. apply NoDup_Add with (a := x) (l := seen).
  - rewrite <- (app_nil_r seen) at 1. apply Add_app.
  - split; assumption.
Qed.
Lemma expand_sound (Q : header -> Prop) : (forall h h', Q h -> In h' (includes h) -> Q h') -> forall fuel todo seen,
  Forall Q todo -> Forall Q seen -> Forall Q (expand fuel todo seen).
Proof.
  intros C. induction fuel as [|fuel IH]; intros [|x todo] seen Ht Hs; cbn [expand]; try exact Hs.
  inversion Ht as [|? ? Hx Ht']; subst. destruct (mem x seen); apply IH; try assumption.
  - apply Forall_app. split; [|exact Ht']. apply Forall_forall. intros y Hy. exact (C x y Hx Hy).
  - apply Forall_app. split; [exact Hs|]. constructor; [exact Hx|constructor].
Qed.
Lemma expand_closed fuel : forall todo seen, List.length todo + weight seen all <= fuel ->
  (forall h h', In h seen -> In h' (includes h) -> In h' seen \/ In h' todo) ->
  let r := expand fuel todo seen in
  (forall h, In h todo -> In h r) /\ (forall h h', In h r -> In h' (includes h) -> In h' r).
Proof.
  induction fuel as [|fuel IH]; intros [|x todo] seen Hf Hc; cbn [expand List.length] in *; try lia.
  - split; [contradiction|]. intros h h' H H'. destruct (Hc h h' H H') as [K|[]]. exact K.
  - split; [contradiction|]. intros h h' H H'. destruct (Hc h h' H H') as [K|[]]. exact K.
  - destruct (mem_spec x seen) as [I|N].
    + destruct (IH todo seen) as [A B]; [lia|intros h h' H H'; destruct (Hc h h' H H') as [K|[->|K]]; auto|].
      split; [|exact B]. intros h [<-|H]; [apply expand_keeps; exact I|apply A; exact H].
    + pose proof (weight_new x seen all nodup_all (in_all x) N) as W.
      destruct (IH (includes x ++ todo) (seen ++ [x])) as [A B]; [rewrite app_length; lia| |].
      * intros h h' H H'. apply in_app_iff in H as [H|[<-|[]]].
        -- destruct (Hc h h' H H') as [K|[->|K]]; [left|left|right]; apply in_app_iff; cbn; auto.
        -- right. apply in_app_iff. left. exact H'.
      * split; [|exact B]. intros h [<-|H]; [apply expand_keeps; apply in_app_iff; right; left; reflexivity|].
        apply A. apply in_app_iff. right. exact H.
Qed.
Lemma headers_gets u h : In h (headers_of u) <-> gets u h.
Proof.
  unfold headers_of. split.
  - intro H. assert (F : Forall (gets u) (expand (List.length (u_includes u) + 21 * 6) (u_includes u) [])).
    { apply expand_sound; [apply gets_through| |constructor]. apply Forall_forall. apply gets_direct. }
    rewrite Forall_forall in F. exact (F h H).
  - destruct (expand_closed (List.length (u_includes u) + 21 * 6) (u_includes u) []) as [A B];
      [unfold weight; cbn [all map mem existsb includes List.length]; cbn; lia|contradiction|].
    induction 1 as [h H|h h' H IH H']; [exact (A h H)|exact (B h h' IH H')].
Qed.
Lemma headers_nodup u : NoDup (headers_of u).
Proof. apply expand_nodup. constructor. Qed.
Lemma gets_dec u h : {gets u h} + {~ gets u h}.
Proof. destruct (mem_spec h (headers_of u)) as [I|N]; [left; apply headers_gets; exact I|right; rewrite <- headers_gets; exact N]. Qed.

(** ** symbols *)
Definition test_symbols : list string := ["HELPER_TEST_FAILURES"; "HELPER_TEST_SKIPPED"; "HELPER_CURRENT_TESTING_CLASS"; "test_case_counter"].
Lemma external_none h : h <> Test_ -> external_of h = [].
Proof. destruct h; intro H; try reflexivity. congruence. Qed.
Lemma external_all l : NoDup l -> flat_map external_of l = if mem Test_ l then test_symbols else [].
Proof.
  induction 1 as [|h l N ND IH]; [reflexivity|]. cbn [flat_map]. rewrite IH.
  destruct (header_eqb_spec Test_ h) as [E|E].
  - subst h. replace (mem Test_ (Test_ :: l)) with true by reflexivity. destruct (mem_spec Test_ l); [contradiction|]. reflexivity.
  - rewrite external_none by congruence. cbn [app mem existsb]. destruct (header_eqb_spec Test_ h); [contradiction|]. reflexivity.
Qed.
Lemma symbols_eq u : symbols u = u_defines u ++ (if mem Test_ (headers_of u) then test_symbols else []).
Proof. unfold symbols. rewrite external_all by apply headers_nodup. reflexivity. Qed.

Lemma distinct_spec l : distinct l = true <-> NoDup l.
Proof.
  induction l as [|x l IH]; cbn [distinct]; [split; [constructor|reflexivity]|].
  rewrite andb_true_iff, negb_true_iff, IH. split.
  - intros [E N]. constructor; [|exact N]. intro I. rewrite <- not_true_iff_false in E. apply E.
    apply existsb_exists. exists x. split; [exact I|apply String.eqb_refl].
  - intro N. inversion N as [|? ? I N']; subst. split; [|exact N']. rewrite <- not_true_iff_false. intro E.
    apply existsb_exists in E as (y & Iy & E). apply String.eqb_eq in E. congruence.
Qed.

(** ** compiling *)
Lemma compiles_spec u : compiles u = true <-> names_ok u.
Proof.
  unfold compiles, names_ok. rewrite forallb_forall. split.
  - intros H G. apply headers_gets in G. specialize (H _ G). cbn [needs] in H. rewrite forallb_forall in H.
    split; (match goal with |- In ?n _ => specialize (H n ltac:(cbn; tauto)) end);
      apply existsb_exists in H as (x & Hx & E); apply String.eqb_eq in E; subst; exact Hx.
  - intros H h I. apply headers_gets in I. destruct h; try reflexivity. destruct (H I) as [A B]. cbn [needs forallb].
    rewrite andb_true_r, andb_true_iff. split; apply existsb_exists.
    + exists "StringType". split; [exact A|apply String.eqb_refl].
    + exists "StringStream". split; [exact B|apply String.eqb_refl].
Qed.

(** ** linking *)
Lemma nodup_right (A : Type) (a b : list A) : NoDup (a ++ b) -> NoDup b.
Proof. induction a as [|x a IH]; intro H; [exact H|]. inversion H; subst. apply IH. assumption. Qed.
Lemma test_twice_nodup p1 u1 p2 u2 p3 : gets u1 Test_ -> gets u2 Test_ -> ~ NoDup (flat_map symbols (p1 ++ u1 :: p2 ++ u2 :: p3)).
Proof.
  intros G1 G2 N. rewrite flat_map_app in N. cbn [flat_map] in N. rewrite flat_map_app in N. cbn [flat_map] in N.
  rewrite !symbols_eq in N. apply headers_gets in G1, G2.
  destruct (mem_spec Test_ (headers_of u1)); [|contradiction]. destruct (mem_spec Test_ (headers_of u2)); [|contradiction].
  apply nodup_right in N. rewrite <- app_assoc in N. apply nodup_right in N. unfold test_symbols in N at 1.
  cbn [app] in N. inversion N as [|? ? K _]; subst. apply K. right; right; right. apply in_app_iff. right. apply in_app_iff. left.
  apply in_app_iff. right. left. reflexivity.
Qed.

Lemma build_linked p : own_definitions_ok p -> test_once p -> (forall u, In u p -> names_ok u) -> build p = Linked.
Proof.
  intros [ND OWN] ONCE NAMES. unfold build.
  replace (forallb compiles p) with true by (symmetry; apply forallb_forall; intros u I; apply compiles_spec; exact (NAMES u I)).
  replace (distinct (flat_map symbols p)) with true; [reflexivity|]. symmetry. apply distinct_spec.
  revert ND OWN ONCE. clear NAMES. induction p as [|u p IH]; intros ND OWN ONCE; [constructor|].
  cbn [flat_map] in *.
  assert (REST : NoDup (flat_map symbols p)).
  { apply IH; [exact (nodup_right _ _ _ ND)|intros v x I; apply OWN; right; exact I|].
    intros p1 u1 p2 u2 p3 E. apply (ONCE (u :: p1) u1 p2 u2 p3). rewrite E. reflexivity. }
  assert (NDu : NoDup (u_defines u)) by (clear -ND; induction (u_defines u) as [|x l IHl]; [constructor|]; cbn in ND; inversion ND; subst;
    constructor; [intro; apply H1; apply in_app_iff; left; assumption|apply IHl; assumption]).
  assert (DISJ : forall x, In x (u_defines u) -> ~ In x (flat_map u_defines p)).
  { clear -ND. induction (u_defines u) as [|y l IHl]; intros x I J; [contradiction|]. cbn in ND. inversion ND; subst.
    destruct I as [->|I]; [apply H1; apply in_app_iff; right; exact J|exact (IHl H2 x I J)]. }
  assert (IN : forall x, In x (flat_map symbols p) -> In x (flat_map u_defines p) \/ (In x test_symbols /\ exists v, In v p /\ gets v Test_)).
  { intros x H. apply in_flat_map in H as (v & Iv & H). rewrite symbols_eq in H. apply in_app_iff in H as [H|H].
    - left. apply in_flat_map. exists v. auto.
    - right. destruct (mem_spec Test_ (headers_of v)) as [I|]; [|contradiction]. split; [exact H|]. exists v. split; [exact Iv|].
      apply headers_gets. exact I. }
  assert (NT : NoDup test_symbols) by (repeat constructor; cbn; intuition discriminate).
  assert (APP : forall (a b : list string), NoDup a -> NoDup b -> (forall x, In x a -> ~ In x b) -> NoDup (a ++ b)).
  { clear. induction a as [|x a IHa]; intros b Na Nb D; [exact Nb|]. inversion Na; subst. cbn. constructor.
    - intro I. apply in_app_iff in I as [I|I]; [contradiction|]. exact (D x (or_introl eq_refl) I).
    - apply IHa; auto. intros y I. apply D. right. exact I. }
  rewrite symbols_eq. apply APP; [| exact REST |].
  - apply APP; [exact NDu| |].
    + destruct (mem Test_ (headers_of u)); [exact NT|constructor].
    + intros x I J. destruct (mem Test_ (headers_of u)); [|contradiction]. exact (OWN u x (or_introl eq_refl) I J).
  - intros x I J. apply in_app_iff in I as [I|I].
    + destruct (IN x J) as [K|[K _]]; [exact (DISJ x I K)|]. exact (OWN u x (or_introl eq_refl) I K).
    + destruct (mem_spec Test_ (headers_of u)) as [T|]; [|contradiction]. apply headers_gets in T. destruct (IN x J) as [K|[_ (v & Iv & Gv)]].
      * apply in_flat_map in K as (w & Iw & Dw). exact (OWN w x (or_intror Iw) Dw I).
      * apply in_split in Iv as (p2 & p3 & ->). exact (ONCE [] u p2 v p3 eq_refl T Gv).
Qed.

Lemma build_test_twice p1 u1 p2 u2 p3 : gets u1 Test_ -> gets u2 Test_ -> build (p1 ++ u1 :: p2 ++ u2 :: p3) <> Linked.
Proof.
  intros G1 G2. unfold build. destruct (forallb compiles _); [|discriminate].
  destruct (distinct _) eqn:E; [|discriminate]. apply distinct_spec in E. destruct (test_twice_nodup p1 u1 p2 u2 p3 G1 G2 E).
Qed.
Lemma build_word p u : In u p -> gets u BinaryWord_ -> ~ In "StringType" (u_before u) -> build p = NotCompiled.
Proof.
  intros I G N. unfold build. destruct (forallb compiles p) eqn:E; [|reflexivity]. rewrite forallb_forall in E. specialize (E u I).
  apply compiles_spec in E. destruct (E G) as [K _]. contradiction.
Qed.

Lemma gets_named u h : gets u h -> (h = Test_ \/ h = BinaryWord_) -> In h (u_includes u).
Proof.
  intros G. destruct G as [h G|h h' G I]; intros E; [exact G|]. exfalso. destruct h; cbn in I; destruct E; subst; intuition discriminate.
Qed.
