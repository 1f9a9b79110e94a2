(** PairTextProofs.v -- lemmas for C169. *)
From Verif Require Import Base StreamModel PairTextModel PairTextSpec.
From Coq Require Import Hexadecimal HexadecimalN HexadecimalString.

Lemma string_of_chars s : String.string_of_list_ascii (chars s) = s.
Proof. apply String.string_of_list_ascii_of_string. Qed.

Lemma hex_address a : hex_number (address_text a) = Some a.
Proof.
  unfold address_text. destruct (N.eqb_spec a 0) as [->|Ha]; [reflexivity|].
  set (d := NilEmpty.string_of_uint (N.to_hex_uint a)).
  assert (E : String.string_of_list_ascii (chars "0x" ++ chars d) = String.append "0x" d).
  { simpl. rewrite string_of_chars. reflexivity. }
  unfold hex_number. rewrite E. simpl. unfold d. rewrite NilEmpty.usu. simpl. f_equal. apply Unsigned.of_to.
Qed.

Definition plain (t : text) : Prop := ~ In ","%char t.
Lemma plain_uint d : plain (chars (NilEmpty.string_of_uint d)).
Proof.
  unfold plain. induction d; cbn [NilEmpty.string_of_uint chars String.list_ascii_of_string In]; [tauto| | | | | | | | | | | | | | | | ];
    (intros [H|H]; [discriminate|exact (IHd H)]).
Qed.
Lemma plain_address a : plain (address_text a).
Proof.
  unfold address_text, plain. destruct (N.eqb a 0).
  - intros [H|[]]. discriminate.
  - intros H. apply in_app_or in H as [H|H]; [|exact (plain_uint _ H)].
    destruct H as [H|[H|[]]]; discriminate.
Qed.
Lemma split_comma a b a' b' : plain a -> plain a' -> a ++ ","%char :: b = a' ++ ","%char :: b' -> a = a' /\ b = b'.
Proof.
  revert a'; induction a as [|x a IH]; intros [|x' a'] Ha Ha' H; simpl in H.
  - injection H as ->. auto.
  - injection H as Hx _. exfalso. apply Ha'. left. symmetry; exact Hx.
  - injection H as Hx _. exfalso. apply Ha. left. exact Hx.
  - injection H as -> H. destruct (IH a') as [-> ->]; auto.
    + intros Hin. apply Ha. right; exact Hin.
    + intros Hin. apply Ha'. right; exact Hin.
Qed.

Lemma print_objects b1 z1 i1 b2 z2 i2 o :
  print_pair_iterator (PObject b1 z1 i1, PObject b2 z2 i2) o =
  Ret tt (o ++ chars "{" ++ address_text (b1 + z1 * i1) ++ chars "," ++ address_text (b2 + z2 * i2) ++ chars "}").
Proof.
  unfold print_pair_iterator, bind, put, print_pointer, put. cbn [fst snd]. rewrite <- !app_assoc. reflexivity.
Qed.

Lemma objects_text b1 z1 i1 b2 z2 i2 o : exists t1 t2,
  print_pair_iterator (PObject b1 z1 i1, PObject b2 z2 i2) o =
    Ret tt (o ++ chars "{" ++ t1 ++ chars "," ++ t2 ++ chars "}") /\
  hex_number t1 = Some (b1 + z1 * i1)%N /\ hex_number t2 = Some (b2 + z2 * i2)%N.
Proof. eexists. eexists. split; [apply print_objects|]. split; apply hex_address. Qed.

Lemma objects_distinct b1 z1 i1 j1 b2 z2 i2 j2 o : z1 <> 0%N -> z2 <> 0%N ->
  (print_pair_iterator (PObject b1 z1 i1, PObject b2 z2 i2) o =
   print_pair_iterator (PObject b1 z1 j1, PObject b2 z2 j2) o <-> i1 = j1 /\ i2 = j2).
Proof.
  intros Hz1 Hz2. rewrite !print_objects. split; [|intros [-> ->]; reflexivity].
  intros H. injection H as H. apply app_inv_head in H. injection H as H.
  apply split_comma in H as [H1 H2]; [|apply plain_address|apply plain_address].
  apply app_inv_tail in H2.
  apply (f_equal hex_number) in H1. apply (f_equal hex_number) in H2. rewrite !hex_address in H1, H2.
  injection H1 as H1. injection H2 as H2. nia.
Qed.

Lemma c_string_spec cells : forall t,
  c_string cells = Some t <-> t = firstn (length t) cells /\ next_nul cells 0 (length t).
Proof.
  induction cells as [|c cs IH]; intros t; simpl.
  - split; [discriminate|]. intros [_ (_ & H & _)]. destruct (length t); discriminate.
  - destruct (Nat.eqb_spec (nat_of_ascii c) 0) as [Hc|Hc].
    + assert (c = "000"%char) as ->.
      { rewrite <- (ascii_nat_embedding c), Hc. reflexivity. }
      split.
      * intros H. injection H as <-. split; [reflexivity|]. split; [constructor|]. split; [reflexivity|]. intros k x Hk. simpl in Hk. lia.
      * intros [_ (_ & H1 & H2)]. destruct t as [|x t]; [reflexivity|]. exfalso.
        apply (H2 0 "000"%char); [simpl; lia|reflexivity|reflexivity].
    + split.
      * destruct (c_string cs) as [u|] eqn:Hu; [|discriminate]. intros H. injection H as <-.
        destruct (proj1 (IH u) eq_refl) as [H1 (_ & H2 & H3)]. split; [simpl; congruence|].
        split; [lia|]. split; [exact H2|]. intros [|k] x Hk Hx; simpl in *.
        -- injection Hx as <-. intros ->. apply Hc. reflexivity.
        -- apply (H3 k x); [lia|exact Hx].
      * intros [H1 (_ & H2 & H3)]. destruct t as [|x t].
        -- simpl in H2. injection H2 as ->. destruct Hc. reflexivity.
        -- simpl in H1. injection H1 as -> H1. rewrite (proj2 (IH t)); [reflexivity|]. split; [exact H1|].
           split; [lia|]. split; [exact H2|]. intros k y Hk Hy. apply (H3 (S k) y); [simpl; lia|exact Hy].
Qed.
Lemma nth_error_skipn {A} i : forall (l : list A) k, nth_error (skipn i l) k = nth_error l (i + k).
Proof. induction i as [|i IH]; intros [|h l] k; simpl; try reflexivity; [destruct k; reflexivity|apply IH]. Qed.
Lemma next_nul_skipn cells i k : next_nul (skipn i cells) 0 k <-> next_nul cells i (i + k).
Proof.
  unfold next_nul. rewrite nth_error_skipn. split; intros (_ & H1 & H2).
  - split; [lia|]. split; [exact H1|]. intros m c Hm Hc. apply (H2 (m - i) c); [lia|].
    rewrite nth_error_skipn. replace (i + (m - i)) with m by lia. exact Hc.
  - split; [lia|]. split; [exact H1|]. intros m c Hm Hc. rewrite nth_error_skipn in Hc. apply (H2 (i + m) c); [lia|exact Hc].
Qed.

(** a component that points at characters *)
Lemma chars_text cells i b z k o :
  (forall j, next_nul cells i j ->
     exists t, hex_number t = Some (b + z * k)%N /\
       print_pair_iterator (PChars cells i, PObject b z k) o =
       Ret tt (o ++ chars "{" ++ firstn (j - i) (skipn i cells) ++ chars "," ++ t ++ chars "}")) /\
  ((~ exists j, next_nul cells i j) -> print_pair_iterator (PChars cells i, PObject b z k) o = Ub UbOutOfBounds).
Proof.
  split.
  - intros j Hj. exists (address_text (b + z * k)). split; [apply hex_address|].
    assert (Hij : i <= j) by apply Hj.
    assert (Hn : next_nul (skipn i cells) 0 (j - i)).
    { apply next_nul_skipn. replace (i + (j - i)) with j by lia. exact Hj. }
    assert (Hlen : length (firstn (j - i) (skipn i cells)) = j - i).
    { rewrite firstn_length_le; [reflexivity|]. destruct Hn as (_ & Hn & _).
      apply Nat.lt_le_incl. apply nth_error_Some. rewrite Hn. discriminate. }
    assert (Hc : c_string (skipn i cells) = Some (firstn (j - i) (skipn i cells))).
    { apply c_string_spec. rewrite Hlen. split; [reflexivity|exact Hn]. }
    unfold print_pair_iterator, bind, put, print_pointer, put. cbn [fst snd]. rewrite Hc.
    rewrite <- !app_assoc. reflexivity.
  - intros Hno. unfold print_pair_iterator, bind, put, print_pointer. cbn [fst snd].
    destruct (c_string (skipn i cells)) as [t|] eqn:Hc; [|reflexivity]. exfalso. apply Hno.
    apply c_string_spec in Hc as [_ Hc]. apply next_nul_skipn in Hc. eauto.
Qed.
Lemma end_undefined cells i q o : length cells <= i ->
  print_pair_iterator (PChars cells i, q) o = Ub UbOutOfBounds.
Proof.
  intros Hi. unfold print_pair_iterator, bind, put, print_pointer. cbn [fst snd].
  rewrite (skipn_all2 cells Hi). reflexivity.
Qed.
(** the position in an array of volatile objects is not shown *)
Lemma volatile_same b z i j q o : b <> 0%N ->
  print_pair_iterator (PVolatile b z i, q) o = print_pair_iterator (PVolatile b z j, q) o.
Proof.
  intros Hb. unfold print_pair_iterator, bind, put, print_pointer, put. cbn [fst snd].
  destruct (N.eqb_spec (b + z * i) 0) as [H|_]; [lia|]. destruct (N.eqb_spec (b + z * j) 0) as [H|_]; [lia|].
  reflexivity.
Qed.
