(** CleanProofs.v -- lemmas about CleanModel. *)
From Verif Require Import Base CleanModel CleanSpec.
Local Open Scope monad_scope.

Fixpoint memb (p : nat) (l : list nat) : bool := match l with [] => false | q :: l' => Nat.eqb q p || memb p l' end.
Lemma memb_In p l : memb p l = true <-> In p l.
Proof.
  induction l as [|q l IH]; simpl; [split; [discriminate|contradiction]|].
  rewrite Bool.orb_true_iff, IH, Nat.eqb_eq. tauto.
Qed.
Lemma clean_from_ok (v2 : list (option nat)) : forall v1 al,
  match clean_from (length v1) (length v2) (mkCl al (v1 ++ v2)) with
  | Ret _ s => NoDup (pointers v2) /\ (forall p, In p (pointers v2) -> al p = true) /\
               cl_vec s = v1 ++ repeat None (length v2) /\
               forall p, cl_alive s p = al p && negb (memb p (pointers v2))
  | Ub r => r = UbDoubleFree /\ (~ NoDup (pointers v2) \/ exists p, In p (pointers v2) /\ al p = false)
  | _ => False
  end.
Proof.
  induction v2 as [|x v2 IH]; intros v1 al; simpl.
  - split; [constructor|]. split; [intros p []|]. split; [reflexivity|]. intros p. rewrite Bool.andb_true_r. reflexivity.
  - unfold bind at 1. unfold clean_one, bind at 1, cl_at. simpl.
    rewrite nth_error_app2 by lia. rewrite Nat.sub_diag. simpl.
    destruct x as [a|].
    + unfold bind at 1. simpl. rewrite nth_error_app2 by lia. rewrite Nat.sub_diag. simpl.
      unfold bind, cl_delete. simpl. destruct (al a) eqn:Ea.
      * simpl. rewrite upd_app_mid.
        specialize (IH (v1 ++ [None]) (set_var al a false)). rewrite <- app_assoc in IH. simpl in IH.
        rewrite app_length in IH. simpl in IH. rewrite Nat.add_1_r in IH.
        destruct (clean_from (S (length v1)) (length v2) (mkCl (set_var al a false) (v1 ++ None :: v2))) as [u s|e s|r| |]; auto.
        -- destruct IH as (N & A & Ev & Eal).
           assert (Hn : ~ In a (pointers v2)). { intros Hi. apply A in Hi. rewrite set_var_eq in Hi. discriminate. }
           split; [constructor; assumption|]. split.
           ++ intros p [<-|Hp]; [exact Ea|]. specialize (A p Hp). unfold set_var in A. destruct (Nat.eqb_spec p a); congruence.
           ++ split; [rewrite Ev, <- app_assoc; reflexivity|]. intros p. rewrite Eal. unfold set_var.
              rewrite (Nat.eqb_sym a p). destruct (Nat.eqb_spec p a) as [->|]; simpl; [|reflexivity]. rewrite Bool.andb_false_r. reflexivity.
        -- destruct IH as (-> & [Hd|(p & Hp & Hal)]); (split; [reflexivity|]).
           ++ left. intros H. apply Hd. inversion H; assumption.
           ++ unfold set_var in Hal. destruct (Nat.eqb_spec p a) as [->|Hne].
              ** left. intros H. inversion H; contradiction.
              ** right. exists p. auto.
      * split; [reflexivity|]. right. exists a. auto.
    + simpl. specialize (IH (v1 ++ [None]) al). rewrite <- app_assoc in IH. simpl in IH.
      rewrite app_length in IH. simpl in IH. rewrite Nat.add_1_r in IH.
      destruct (clean_from (S (length v1)) (length v2) (mkCl al (v1 ++ None :: v2))) as [u s|e s|r| |]; auto.
      destruct IH as (N & A & Ev & Eal). repeat split; auto. rewrite Ev, <- app_assoc. reflexivity.
Qed.
Lemma clean_distinct (s : clst) : NoDup (pointers (cl_vec s)) -> (forall p, In p (pointers (cl_vec s)) -> cl_alive s p = true) ->
  exists s', HELPER_CLEAN_TEST_VECTOR s = Ret tt s' /\ cl_vec s' = repeat None (length (cl_vec s)) /\
    (forall p, In p (pointers (cl_vec s)) -> cl_alive s' p = false) /\
    (forall p, ~ In p (pointers (cl_vec s)) -> cl_alive s' p = cl_alive s p).
Proof.
  intros N A. pose proof (clean_from_ok (cl_vec s) [] (cl_alive s)) as H. simpl in H. unfold HELPER_CLEAN_TEST_VECTOR.
  destruct s as [al v]; simpl in *. destruct (clean_from 0 (length v) (mkCl al v)) as [[] s'|e s'|r| |]; try contradiction.
  - destruct H as (_ & _ & Ev & Eal). exists s'. split; [reflexivity|]. split; [exact Ev|]. split; intros p Hp; rewrite Eal.
    + apply memb_In in Hp. rewrite Hp. apply Bool.andb_false_r.
    + destruct (memb p (pointers v)) eqn:E; [apply memb_In in E; contradiction|]. apply Bool.andb_true_r.
  - destruct H as (_ & [H|(p & Hp & Hal)]); [contradiction|]. rewrite (A p Hp) in Hal. discriminate.
Qed.
Lemma clean_repeated (s : clst) : ~ NoDup (pointers (cl_vec s)) -> HELPER_CLEAN_TEST_VECTOR s = Ub UbDoubleFree.
Proof.
  intros N. pose proof (clean_from_ok (cl_vec s) [] (cl_alive s)) as H. simpl in H. unfold HELPER_CLEAN_TEST_VECTOR.
  destruct s as [al v]; simpl in *. destruct (clean_from 0 (length v) (mkCl al v)) as [[] s'|e s'|r| |]; try contradiction.
  - destruct H as (Hn & _). contradiction.
  - destruct H as (-> & _). reflexivity.
Qed.
