(** CalleeProofs.v -- lemmas for CalleeProps.v *)
From Verif Require Import Base CalleeModel CalleeSpec.
Open Scope list_scope.
Open Scope nat_scope.

Lemma reads_bind fs : (forall f, In f fs -> f = ByValue \/ f = ConstRef) -> forall c, all_bind fs (repeat c (length fs)) = true.
Proof.
  induction fs as [|f fs IH]; intros H c; [reflexivity|]. cbn. rewrite IH by (intros g G; apply H; now right).
  destruct (H f (or_introl eq_refl)) as [-> | ->]; reflexivity.
Qed.
Lemma reads_all k o : reads k o -> forall c, all_bind (o_forms o) (repeat c k) = true.
Proof. intros [<- H] c. now apply reads_bind. Qed.
Lemma resolve_one c o cs : resolve c [o] cs = if viable c cs o then Some o else None.
Proof. unfold resolve. cbn [filter]. destruct (viable c cs o); reflexivity. Qed.
Lemma collect_same conv n o : o_result o = RVal n -> collect conv (o_result o) (Some o) = Calls o n.
Proof. intros E. unfold collect. rewrite E, Nat.eqb_refl. reflexivity. Qed.

Lemma one_calls k f o : reads k o -> one f o -> forall c, call f (repeat c k) = Some o.
Proof.
  intros R H c. pose proof (reads_all k o R c) as B. destruct H as [-> |[-> |(b & -> & Hc)]]; cbn [call].
  - now rewrite B.
  - now rewrite B.
  - rewrite resolve_one. unfold viable. rewrite B. destruct Hc as [-> | ->]; [reflexivity|]. cbn. now rewrite orb_true_r.
Qed.
Lemma one_usable k f o n : reads k o -> one f o -> object_of (o_result o) = Some n -> usable k f o n.
Proof. intros R H E. split; [now apply one_calls|exact E]. Qed.
Lemma apply_one conv f o n : reads 1 o -> one f o -> o_result o = RVal n -> usable 1 f o n /\ apply_call conv f = Calls o n.
Proof.
  intros R H E. split; [apply one_usable; auto; now rewrite E|]. unfold apply_call.
  change [Rvalue] with (repeat Rvalue 1). change [Lvalue] with (repeat Lvalue 1). rewrite !(one_calls 1 f o R H). now apply collect_same.
Qed.
Lemma elementwise_one conv k f o n : reads k o -> o_result o = RVal n ->
  f = FunctionPointer o \/ (o_const o = true /\ exists c, f = Object c [o]) -> usable k f o n /\ elementwise_call conv k f = Calls o n.
Proof.
  intros R E H. split.
  - apply one_usable; [exact R| |now rewrite E]. destruct H as [H|(Hc & c & H)]; [right; left; exact H|right; right; exists c; auto].
  - destruct H as [-> |(Hc & c & ->)]; unfold elementwise_call.
    + cbn [call]. rewrite !(reads_all k o R). now apply collect_same.
    + rewrite !resolve_one. unfold viable. rewrite !(reads_all k o R), Hc. now apply collect_same.
Qed.
Lemma name_rejected conv k o n : reads k o -> object_of (o_result o) = Some n ->
  usable k (FunctionName o) o n /\ elementwise_call conv k (FunctionName o) = NotFound.
Proof. intros R E. split; [apply one_usable; auto; now left|reflexivity]. Qed.
Lemma mutable_rejected conv k o n : reads k o -> object_of (o_result o) = Some n -> o_const o = false ->
  usable k (Object false [o]) o n /\ elementwise_call conv k (Object false [o]) = IllFormed.
Proof.
  intros R E Hc. split.
  - apply one_usable; auto. right; right. exists false. auto.
  - unfold elementwise_call. rewrite !resolve_one. unfold viable. rewrite !(reads_all k o R), Hc. cbn. destruct (o_result o); reflexivity.
Qed.
Lemma reference_rejected conv k f o n : reads k o -> one f o -> o_result o = RRefTo n \/ o_result o = RConst n ->
  usable k f o n /\ (k = 1 -> apply_call conv f = IllFormed) /\ forall p m, elementwise_call conv k f <> Calls p m.
Proof.
  intros R H E. assert (E' : object_of (o_result o) = Some n) by (destruct E as [-> | ->]; reflexivity).
  assert (X : forall q, collect conv (o_result o) q = IllFormed) by (intros q; destruct E as [-> | ->]; reflexivity).
  split; [now apply one_usable|]. split.
  - intros ->. unfold apply_call. change [Rvalue] with (repeat Rvalue 1). rewrite (one_calls 1 f o R H). apply X.
  - intros p m. destruct H as [-> |[-> |(b & -> & Hc)]]; unfold elementwise_call.
    + discriminate.
    + cbn [call]. rewrite (reads_all k o R), X. discriminate.
    + rewrite resolve_one. unfold viable at 1. rewrite (reads_all k o R). cbn [negb]. rewrite orb_true_r. cbn [andb]. rewrite X. discriminate.
Qed.
Lemma temporary_overload conv c a b : a <> b ->
  let keep := mkO true [ConstRef] (RVal b) in let f := Object c [mkO true [RRef] (RVal a); keep] in
  usable 1 f keep b /\ apply_call conv f = (if conv b a then Calls keep a else IllFormed) /\
  elementwise_call conv 1 f = (if conv b a then Calls keep a else IllFormed).
Proof.
  intros H. cbv zeta. assert (E : (b =? a) = false) by (apply Nat.eqb_neq; congruence). split; [|split].
  - split; destruct c; reflexivity.
  - destruct c; cbn; rewrite E; reflexivity.
  - cbn. rewrite E. reflexivity.
Qed.
Lemma writing_overload conv c n :
  let keep := mkO true [ConstRef] (RVal n) in let change := mkO true [Ref] (RVal n) in let f := Object c [change; keep] in
  usable 1 f keep n /\ apply_call conv f = Calls change n /\ elementwise_call conv 1 f = Calls keep n.
Proof. cbv zeta. split; [|split]; [split; destruct c; reflexivity|destruct c; cbn; rewrite Nat.eqb_refl; reflexivity|cbn; rewrite Nat.eqb_refl; reflexivity]. Qed.

(** ** the exact conditions for a single function *)
Lemma bind_reads fs : forall k, all_bind fs (repeat ConstLvalue k) = true -> length fs = k /\ forall f, In f fs -> f = ByValue \/ f = ConstRef.
Proof.
  induction fs as [|f fs IH]; intros [|k] H; cbn in H; try discriminate.
  - split; [reflexivity|intros f []].
  - apply andb_true_iff in H. destruct H as [B H]. destruct (IH k H) as [L A]. split; [cbn; now rewrite L|].
    intros g [<-|G]; [|now apply A]. destruct f; cbn in B; try discriminate; auto.
Qed.
Lemma usable_reads k f o n : one f o -> usable k f o n -> reads k o.
Proof.
  intros H [C _]. unfold reads. apply bind_reads. destruct H as [-> |[-> |(b & -> & Hc)]]; cbn [call] in C.
  - destruct (all_bind _ _); [reflexivity|discriminate].
  - destruct (all_bind _ _); [reflexivity|discriminate].
  - rewrite resolve_one in C. unfold viable in C. destruct (all_bind _ _); [reflexivity|]. rewrite andb_false_r in C. discriminate.
Qed.
Lemma collect_calls conv o n p m : object_of (o_result o) = Some n -> collect conv (o_result o) (Some o) = Calls p m ->
  o_result o = RVal n.
Proof. intros E H. unfold collect in H. destruct (o_result o); cbn in E; congruence. Qed.
Lemma apply_exact conv f o n : one f o -> usable 1 f o n -> (apply_call conv f = Calls o n <-> o_result o = RVal n).
Proof.
  intros H U. pose proof (usable_reads 1 f o n H U) as R. split; [|intros E; now apply apply_one].
  unfold apply_call. change [Rvalue] with (repeat Rvalue 1). change [Lvalue] with (repeat Lvalue 1). rewrite !(one_calls 1 f o R H).
  apply collect_calls. exact (proj2 U).
Qed.
Lemma elementwise_exact conv k f o n : one f o -> usable k f o n ->
  (elementwise_call conv k f = Calls o n <->
   o_result o = RVal n /\ (f = FunctionPointer o \/ (o_const o = true /\ exists c, f = Object c [o]))).
Proof.
  intros H U. pose proof (usable_reads k f o n H U) as R. split; [|intros [E F]; now apply elementwise_one].
  destruct H as [-> |[-> |(b & -> & Hc)]]; unfold elementwise_call.
  - discriminate.
  - cbn [call]. rewrite !(reads_all k o R). intros E. split; [exact (collect_calls conv o n o n (proj2 U) E)|now left].
  - rewrite !resolve_one. unfold viable. rewrite !(reads_all k o R). cbn [negb]. rewrite orb_true_r, orb_false_r. cbn [andb]. rewrite andb_true_r.
    destruct (o_const o) eqn:C.
    + intros E. split; [exact (collect_calls conv o n o n (proj2 U) E)|right; split; [reflexivity|now exists b]].
    + intros E. unfold collect in E. destruct (o_result o); discriminate.
Qed.
