(** WordProofs.v -- lemmas about WordModel. *)
From Verif Require Import Base StdOrd StreamModel StlioModel StlioSpec StlioProofs WordModel WordSpec.

(** ** The order *)
Fixpoint lexb (w v : word) : bool :=
  match w, v with
  | [], [] => false
  | [], _ :: _ => true
  | _ :: _, [] => false
  | x :: w', y :: v' => if Bool.eqb x y then lexb w' v' else negb x && y
  end.
Lemma lexb_lex w : forall v, lexb w v = true <-> lex w v.
Proof.
  induction w as [|x w IH]; intros [|y v]; simpl.
  - split; [discriminate|]. intros [(t & Ht & H)|(p & a & b & H & _)].
    + destruct t; [congruence|discriminate].
    + destruct p; discriminate.
  - split; auto. intros _. left. exists (y :: v). split; [discriminate|reflexivity].
  - split; [discriminate|]. intros [(t & Ht & H)|(p & a & b & _ & H)]; [discriminate|destruct p; discriminate].
  - destruct (Bool.eqb_spec x y) as [->|Hxy].
    + rewrite IH. split.
      * intros [(t & Ht & H)|(p & a & b & H1 & H2)].
        -- left. exists t. split; [exact Ht|]. rewrite H. reflexivity.
        -- right. exists (y :: p), a, b. rewrite H1, H2. split; reflexivity.
      * intros [(t & Ht & H)|(p & a & b & H1 & H2)].
        -- left. exists t. split; [exact Ht|]. injection H as H. exact H.
        -- right. destruct p as [|z p]; simpl in H1, H2; [congruence|].
           injection H1 as _ H1. injection H2 as _ H2. exists p, a, b. auto.
    + split.
      * intros H. right. exists [], w, v. destruct x, y; try discriminate; try congruence. split; reflexivity.
      * intros [(t & Ht & H)|(p & a & b & H1 & H2)].
        -- injection H as H _. congruence.
        -- destruct p as [|z p]; simpl in H1, H2; [|congruence].
           injection H1 as -> _. injection H2 as -> _. reflexivity.
Qed.
Lemma bit_at {A} p x w k : @bit A (p ++ x :: w) (length p) k = k x.
Proof. unfold bit. rewrite nth_error_app_mid. reflexivity. Qed.

Lemma less_loop_lexb fuel : forall p a b, length a < fuel ->
  less_loop fuel (length p) (p ++ a) (p ++ b) = Ret (lexb a b) tt.
Proof.
  induction fuel as [|fuel IH]; intros p a b Hf; [lia|]. cbn [less_loop]. rewrite !app_length.
  destruct a as [|x a]; [|destruct b as [|y b]].
  - replace (Nat.eqb _ _) with true by (symmetry; apply Nat.eqb_eq; simpl; lia).
    destruct b as [|y b]; simpl.
    + replace (Nat.ltb _ _) with false by (symmetry; apply Nat.ltb_ge; lia). reflexivity.
    + replace (Nat.ltb _ _) with true by (symmetry; apply Nat.ltb_lt; lia). reflexivity.
  - replace (Nat.eqb _ _) with true by (symmetry; apply Nat.eqb_eq; simpl; lia). simpl.
    replace (Nat.ltb _ _) with false by (symmetry; apply Nat.ltb_ge; lia). reflexivity.
  - replace (Nat.eqb _ _) with false by (symmetry; apply Nat.eqb_neq; simpl; lia). rewrite !bit_at.
    simpl lexb. destruct (Bool.eqb_spec x y) as [->|Hxy]; simpl negb; cbv iota; [|reflexivity].
    specialize (IH (p ++ [y]) a b). rewrite app_length, <- !app_assoc in IH. simpl in IH.
    rewrite Nat.add_1_r in IH. apply IH. simpl in Hf. lia.
Qed.
Lemma word_less_lexb w v : word_less w v = Ret (lexb w v) tt.
Proof. apply (less_loop_lexb (S (length w)) [] w v). lia. Qed.

Lemma lexb_irrefl w : lexb w w = false.
Proof. induction w as [|x w IH]; simpl; [reflexivity|]. rewrite Bool.eqb_reflx. exact IH. Qed.
Lemma lexb_trans a : forall b c, lexb a b = true -> lexb b c = true -> lexb a c = true.
Proof.
  induction a as [|x a IH]; intros [|y b] [|z c]; simpl; try congruence.
  destruct x, y, z; simpl; try congruence; eauto.
Qed.
Lemma lexb_total a : forall b, lexb a b = false -> lexb b a = false -> a = b.
Proof.
  induction a as [|x a IH]; intros [|y b]; simpl; try congruence.
  destruct x, y; simpl; try discriminate; intros H1 H2; f_equal; auto.
Qed.
Lemma lexb_swo : SWO lexb.
Proof.
  constructor.
  - exact lexb_irrefl.
  - exact lexb_trans.
  - intros a b c. unfold eqvb. rewrite !andb_true_iff, !negb_true_iff. intros [H1 H2] [H3 H4].
    rewrite (lexb_total a b H1 H2). auto.
Qed.
Lemma order_laws :
  (forall w v, exists r, word_less w v = Ret r tt /\ (r = true <-> lex w v)) /\
  (forall w, ~ lex w w) /\ (forall a b c, lex a b -> lex b c -> lex a c) /\
  (forall w v, lex w v \/ w = v \/ lex v w) /\
  (forall ltb : word -> word -> bool, (forall w v, word_less w v = Ret (ltb w v) tt) -> SWO ltb).
Proof.
  split; [|split; [|split; [|split]]].
  - intros w v. exists (lexb w v). split; [apply word_less_lexb|apply lexb_lex].
  - intros w H. apply lexb_lex in H. rewrite lexb_irrefl in H. discriminate.
  - intros a b c. rewrite <- !lexb_lex. apply lexb_trans.
  - intros w v. rewrite <- !lexb_lex. destruct (lexb w v) eqn:H1; [auto|]. destruct (lexb v w) eqn:H2; [auto|].
    right; left. apply lexb_total; assumption.
  - intros ltb Hl. assert (He : forall w v, ltb w v = lexb w v).
    { intros w v. specialize (Hl w v). rewrite word_less_lexb in Hl. congruence. }
    destruct lexb_swo as [H1 H2 H3]. constructor.
    + intros a. rewrite He. apply H1.
    + intros a b c. rewrite !He. apply H2.
    + intros a b c. specialize (H3 a b c). unfold eqvb in *. rewrite !He. exact H3.
Qed.

(** ** Prefixes and subwords *)
Fixpoint prefixb (a c : word) : bool :=
  match a, c with
  | [], _ => true
  | x :: a', y :: c' => Bool.eqb x y && prefixb a' c'
  | _ :: _, [] => false
  end.
Lemma prefixb_prefix a : forall c, prefixb a c = true <-> prefix a c.
Proof.
  induction a as [|x a IH]; intros c; simpl.
  - split; auto. intros _. exists c. reflexivity.
  - destruct c as [|y c].
    + split; [discriminate|]. intros [t H]. discriminate.
    + rewrite andb_true_iff, IH, Bool.eqb_true_iff. split.
      * intros [-> [t ->]]. exists t. reflexivity.
      * intros [t H]. injection H as -> ->. split; [reflexivity|exists t; reflexivity].
Qed.
Lemma prefix_loop_ok fuel : forall p a c, length a < fuel -> length a <= length c ->
  prefix_loop fuel (length p) (p ++ a) (p ++ c) = Ret (prefixb a c) tt.
Proof.
  induction fuel as [|fuel IH]; intros p a c Hf Hl; [lia|]. cbn [prefix_loop]. rewrite app_length.
  destruct a as [|x a]; [|destruct c as [|y c]; [simpl in Hl; lia|]].
  - rewrite Nat.add_0_r, Nat.eqb_refl. reflexivity.
  - replace (Nat.eqb _ _) with false by (symmetry; apply Nat.eqb_neq; simpl; lia). rewrite !bit_at.
    simpl prefixb. destruct (Bool.eqb_spec x y) as [->|Hxy]; simpl negb; cbv iota; [|reflexivity].
    specialize (IH (p ++ [y]) a c). rewrite app_length, <- !app_assoc in IH. simpl in IH.
    rewrite Nat.add_1_r in IH. simpl in *. apply IH; lia.
Qed.
Lemma prefix_ok w b : exists r, is_prefix w b = Ret r tt /\ (r = true <-> prefix w b).
Proof.
  unfold is_prefix. destruct (Nat.ltb_spec (length b) (length w)) as [Hlt|Hge].
  - exists false. split; [reflexivity|]. split; [discriminate|]. intros [t ->]. rewrite app_length in Hlt. lia.
  - exists (prefixb w b). split; [|apply prefixb_prefix].
    apply (prefix_loop_ok (S (length w)) [] w b); lia.
Qed.

Lemma match_loop_ok fuel : forall s p a c, length a < fuel -> length a <= length c ->
  exists j, match_loop fuel (length s) (length p) (p ++ a) (s ++ p ++ c) = Ret j tt /\
    Nat.eqb j (length (p ++ a)) = prefixb a c.
Proof.
  induction fuel as [|fuel IH]; intros s p a c Hf Hl; [lia|]. cbn [match_loop].
  destruct a as [|x a]; [|destruct c as [|y c]; [simpl in Hl; lia|]].
  - rewrite app_nil_r, Nat.eqb_refl. exists (length p). rewrite Nat.eqb_refl. split; reflexivity.
  - assert (Hne : Nat.eqb (length p) (length (p ++ x :: a)) = false).
    { apply Nat.eqb_neq. rewrite app_length. simpl. lia. }
    rewrite Hne, bit_at. rewrite (app_assoc s p (y :: c)), <- app_length, bit_at.
    simpl prefixb. destruct (Bool.eqb_spec x y) as [->|Hxy]; simpl andb.
    + specialize (IH s (p ++ [y]) a c). rewrite <- !app_assoc in IH. simpl in IH.
      rewrite app_length, Nat.add_1_r in IH. rewrite <- app_assoc. simpl in *.
      apply IH; lia.
    + exists (length p). split; [reflexivity|exact Hne].
Qed.
Lemma subword_loop_ok fuel : forall s c w, length w <= length (s ++ c) ->
  length s <= length (s ++ c) - length w + 1 -> length c + 1 < fuel + length w ->
  exists r, subword_loop fuel (length s) w (s ++ c) = Ret r tt /\ (r = true <-> subword w c).
Proof.
  induction fuel as [|fuel IH]; intros s c w Hw Hs Hf; [rewrite app_length in *; lia|]. cbn [subword_loop].
  destruct (Nat.eqb_spec (length s) (length (s ++ c) - length w + 1)) as [He|Hne].
  - exists false. split; [reflexivity|]. split; [discriminate|]. intros (s1 & t & ->).
    rewrite !app_length in He, Hw. lia.
  - assert (Hlc : length w <= length c) by (rewrite app_length in *; lia).
    destruct (match_loop_ok (S (length w)) s [] w c) as (j & Hj & Hp); [lia|exact Hlc|].
    cbn [length app] in Hj, Hp. rewrite Hj, Hp.
    destruct (prefixb w c) eqn:Hpc.
    + exists true. split; [reflexivity|]. split; [|reflexivity]. intros _.
      apply prefixb_prefix in Hpc as [t ->]. exists [], t. reflexivity.
    + destruct c as [|y c].
      * destruct w; [discriminate|]. simpl in Hlc. lia.
      * destruct (IH (s ++ [y]) c w) as (r & Hr & Hr').
        -- rewrite <- app_assoc. exact Hw.
        -- rewrite <- app_assoc. simpl app. rewrite !app_length in *. simpl length in *. lia.
        -- simpl in *. lia.
        -- rewrite app_length, <- app_assoc, Nat.add_1_r in Hr. exists r. split; [exact Hr|].
           rewrite Hr'. split.
           ++ intros (s1 & t & ->). exists (y :: s1), t. reflexivity.
           ++ intros (s1 & t & H). destruct s1 as [|z s1].
              ** assert (Hx : prefix w (y :: c)) by (exists t; exact H). apply prefixb_prefix in Hx. congruence.
              ** injection H as -> ->. exists s1, t. reflexivity.
Qed.
Lemma subword_ok w b : exists r, is_subword w b = Ret r tt /\ (r = true <-> subword w b).
Proof.
  unfold is_subword. destruct (Nat.ltb_spec (length b) (length w)) as [Hlt|Hge].
  - exists false. split; [reflexivity|]. split; [discriminate|]. intros (s & t & ->). rewrite !app_length in Hlt. lia.
  - apply (subword_loop_ok (length b + 2) [] b w); simpl; lia.
Qed.

(** ** Modifiers *)
Lemma erase_loop_ok fuel : forall i total k w, (0 <= i)%Z -> (total - i <= Z.of_nat (length w))%Z -> length w < fuel ->
  erase_loop fuel i total k w = Ret (skipn (Z.to_nat (Z.min total k - i)) w) tt.
Proof.
  induction fuel as [|fuel IH]; intros i total k w Hi Ht Hf; [lia|]. cbn [erase_loop].
  destruct (Z.ltb_spec i total), (Z.ltb_spec i k); cbn [andb].
  - destruct w as [|x w]; [simpl in Ht; lia|]. rewrite IH; [|lia|simpl length in Ht; lia|simpl in Hf; lia].
    replace (Z.to_nat (Z.min total k - i)) with (S (Z.to_nat (Z.min total k - (i + 1)))) by lia. reflexivity.
  - replace (Z.to_nat (Z.min total k - i)) with 0 by lia. reflexivity.
  - replace (Z.to_nat (Z.min total k - i)) with 0 by lia. reflexivity.
  - replace (Z.to_nat (Z.min total k - i)) with 0 by lia. reflexivity.
Qed.
Lemma to_int32_le z : (0 <= z)%Z -> (to_int32 z <= z)%Z.
Proof.
  intros H. unfold to_int32, wrap32. pose proof (Z.mod_le z (2 ^ 32) H). pose proof (Z.mod_pos_bound z (2 ^ 32)).
  destruct (Z.ltb_spec (z mod 2 ^ 32) (2 ^ 31)); lia.
Qed.
Lemma erase_prefix_gen k w :
  erase_prefix k w = Ret (skipn (Z.to_nat (Z.min (to_int32 (Z.of_nat (length w))) k)) w) tt.
Proof.
  unfold erase_prefix. rewrite erase_loop_ok.
  - rewrite Z.sub_0_r. reflexivity.
  - lia.
  - pose proof (to_int32_le (Z.of_nat (length w))). lia.
  - lia.
Qed.
Lemma erase_prefix_ok k w : (Z.of_nat (length w) < 2 ^ 31)%Z -> erase_prefix k w = Ret (skipn (Z.to_nat k) w) tt.
Proof.
  intros H. rewrite erase_prefix_gen. f_equal.
  assert (Hi : to_int32 (Z.of_nat (length w)) = Z.of_nat (length w)).
  { unfold to_int32. rewrite wrap32_small by lia. destruct (Z.ltb_spec (Z.of_nat (length w)) (2 ^ 31)); lia. }
  rewrite Hi. destruct (Z.le_gt_cases k (Z.of_nat (length w))) as [Hk|Hk].
  - rewrite Z.min_r by exact Hk. reflexivity.
  - rewrite Z.min_l by lia. rewrite !skipn_all2; [reflexivity|lia|lia].
Qed.
Lemma erase_prefix_long k w : (2 ^ 31 <= Z.of_nat (length w) < 2 ^ 32)%Z -> erase_prefix k w = Ret w tt.
Proof.
  intros H. rewrite erase_prefix_gen. f_equal.
  assert (Hi : (to_int32 (Z.of_nat (length w)) < 0)%Z).
  { unfold to_int32. rewrite wrap32_small by lia. destruct (Z.ltb_spec (Z.of_nat (length w)) (2 ^ 31)); lia. }
  replace (Z.to_nat _) with 0 by lia. reflexivity.
Qed.
Lemma set_back_ok w x y : (Z.of_nat (length w) + 1 < 2 ^ 64)%Z -> set_back x (w ++ [y]) = Ret (w ++ [x]) tt.
Proof.
  intros H. unfold set_back. rewrite app_length. cbn [length].
  replace (Z.of_nat (length w + 1) - 1)%Z with (Z.of_nat (length w)) by lia.
  rewrite wrap64_small by lia. destruct (Z.ltb_spec (Z.of_nat (length w)) (Z.of_nat (length w + 1))); [|lia].
  rewrite Nat2Z.id. rewrite upd_app_mid. reflexivity.
Qed.
Lemma set_back_empty x : set_back x [] = Ub UbOutOfBounds.
Proof. reflexivity. Qed.
Lemma bytes_least w : (Z.of_nat (length w) + 8 < 2 ^ 64)%Z ->
  (0 <= bytes w)%Z /\ (Z.of_nat (length w) <= 8 * bytes w)%Z /\
  forall n, (Z.of_nat (length w) <= 8 * n)%Z -> (bytes w <= n)%Z.
Proof.
  intros H. unfold bytes. rewrite (wrap64_small (Z.of_nat (length w) + 8)) by lia.
  rewrite wrap64_small by lia. set (z := (Z.of_nat (length w) + 8 - 1)%Z).
  pose proof (Z.div_mod z 8 ltac:(lia)). pose proof (Z.mod_pos_bound z 8 ltac:(lia)). unfold z in *. split; [|split]; [lia|lia|].
  intros n Hn. lia.
Qed.

Section Append.
  Context (limit : Z).
  Lemma append_word_loop_ok fuel : forall (st : nat -> word) i d s, d <> s -> i <= length (st s) ->
    (Z.of_nat (length (st d) + (length (st s) - i)) <= limit)%Z -> length (st s) - i < fuel ->
    exists st', append_word_loop limit fuel i d s st = Ret tt st' /\
      st' d = st d ++ skipn i (st s) /\ forall v, v <> d -> st' v = st v.
  Proof.
    induction fuel as [|fuel IH]; intros st i d s Hds Hi Hl Hf; [lia|]. cbn [append_word_loop].
    destruct (Nat.ltb_spec i (length (st s))) as [Hlt|Hge].
    - destruct (nth_error (st s) i) as [x|] eqn:Hx; [|apply nth_error_None in Hx; lia].
      unfold bind, push. destruct (Z.ltb_spec (Z.of_nat (length (st d))) limit); [|lia].
      destruct (IH (set_var st d (st d ++ [x])) (S i) d s) as (st' & H1 & H2 & H3).
      + exact Hds.
      + rewrite set_var_neq by auto. lia.
      + rewrite set_var_eq, set_var_neq by auto. rewrite app_length. simpl. lia.
      + rewrite set_var_neq by auto. lia.
      + exists st'. split; [exact H1|]. rewrite set_var_eq, (set_var_neq st d _ s) in H2 by auto. split.
        * rewrite H2, <- app_assoc. f_equal. clear -Hx. revert i Hx. induction (st s) as [|h t IHl]; intros [|i] Hx; try discriminate.
          -- injection Hx as ->. reflexivity.
          -- simpl in Hx. exact (IHl i Hx).
        * intros v Hv. rewrite H3 by exact Hv. apply set_var_neq; exact Hv.
    - exists st. split; [reflexivity|]. rewrite skipn_all2 by lia. rewrite app_nil_r. auto.
  Qed.
  Lemma append_word_ok (st : nat -> word) d s fuel : d <> s ->
    (Z.of_nat (length (st d) + length (st s)) <= limit)%Z -> length (st s) < fuel ->
    exists st', append_word limit fuel d s st = Ret tt st' /\ st' d = st d ++ st s /\
      forall v, v <> d -> st' v = st v.
  Proof.
    intros Hds Hl Hf. destruct (append_word_loop_ok fuel st 0 d s) as (st' & H1 & H2 & H3); try lia.
    exists st'. auto.
  Qed.
  Lemma append_symbol_ok (st : nat -> word) d x : (Z.of_nat (length (st d)) < limit)%Z ->
    exists st', append_symbol limit d x st = Ret tt st' /\ st' d = st d ++ [x] /\ forall v, v <> d -> st' v = st v.
  Proof.
    intros Hl. unfold append_symbol, push. destruct (Z.ltb_spec (Z.of_nat (length (st d))) limit); [|lia].
    eexists. split; [reflexivity|]. split; [apply set_var_eq|]. intros v Hv. apply set_var_neq; exact Hv.
  Qed.

  Lemma append_self_loop fuel : forall (st : nat -> word) i d, i < length (st d) ->
    (append_word_loop limit fuel i d d st = Fuel \/
     exists st', append_word_loop limit fuel i d d st = Exc ELength st') /\
    ((Z.of_nat (length (st d)) <= limit)%Z -> (limit - Z.of_nat (length (st d)) < Z.of_nat fuel)%Z ->
     exists st' ext, append_word_loop limit fuel i d d st = Exc ELength st' /\ st' d = st d ++ ext /\
       Z.of_nat (length (st' d)) = limit /\ forall v, v <> d -> st' v = st v).
  Proof.
    induction fuel as [|fuel IH]; intros st i d Hi.
    - split; [left; reflexivity|]. intros; lia.
    - cbn [append_word_loop]. destruct (Nat.ltb_spec i (length (st d))) as [_|]; [|lia].
      destruct (nth_error (st d) i) as [x|] eqn:Hx; [|apply nth_error_None in Hx; lia].
      unfold bind, push. destruct (Z.ltb_spec (Z.of_nat (length (st d))) limit) as [Hl|Hl].
      + destruct (IH (set_var st d (st d ++ [x])) (S i) d) as [H1 H2].
        { rewrite set_var_eq, app_length. simpl. lia. }
        split; [exact H1|]. intros Hle Hf. rewrite set_var_eq in H2. rewrite app_length in H2. cbn [length] in H2.
        destruct H2 as (st' & ext & H2 & H3 & H4 & H5); [lia|lia|].
        exists st', (x :: ext). split; [exact H2|]. split; [rewrite H3, <- app_assoc; reflexivity|].
        split; [exact H4|]. intros v Hv. rewrite H5 by exact Hv. apply set_var_neq; exact Hv.
      + split; [right; eauto|]. intros Hle Hf. exists st, []. rewrite app_nil_r. repeat split; auto. lia.
  Qed.
  Lemma append_self_refuted (st : nat -> word) d : st d <> [] ->
    (forall fuel st', append_word limit fuel d d st <> Ret tt st') /\
    (forall fuel, (Z.of_nat (length (st d)) <= limit)%Z -> (limit - Z.of_nat (length (st d)) < Z.of_nat fuel)%Z ->
     exists st' ext, append_word limit fuel d d st = Exc ELength st' /\ st' d = st d ++ ext /\
       Z.of_nat (length (st' d)) = limit /\ forall v, v <> d -> st' v = st v).
  Proof.
    intros Hne. assert (Hi : 0 < length (st d)) by (destruct (st d); [congruence|simpl; lia]).
    split.
    - intros fuel st' H. destruct (append_self_loop fuel st 0 d Hi) as [[H1|[s1 H1]] _]; unfold append_word in H; congruence.
    - intros fuel. apply (append_self_loop fuel st 0 d Hi).
  Qed.
  Lemma append_self_empty (st : nat -> word) d fuel : st d = [] -> append_word limit (S fuel) d d st = Ret tt st.
  Proof. intros H. unfold append_word. cbn [append_word_loop]. rewrite H. reflexivity. Qed.
End Append.

(** ** Printing *)
Lemma put_text_nil o : put_text [] o = o.
Proof. unfold put_text. rewrite app_nil_r. destruct o; reflexivity. Qed.
Lemma print_bits w : forall o, o_boolalpha o = false ->
  fold_left (fun o b => print_bool b o) w o = put_text (bits_text w) o.
Proof.
  induction w as [|b w IH]; intros o Ho; simpl; [symmetry; apply put_text_nil|].
  rewrite IH by exact Ho. unfold print_bool. rewrite Ho, put_text_app. destruct b; reflexivity.
Qed.
Lemma print_word_text w o : print_word w o = mkO (o_text o ++ word_text w) (match w with [] => o_boolalpha o | _ => true end).
Proof.
  unfold print_word. destruct w as [|b w]; [reflexivity|]. rewrite print_bits by reflexivity. reflexivity.
Qed.

(** ** Reading *)
Lemma is_bit_char b : is_bit (bit_char b) = true.
Proof. destruct b; reflexivity. Qed.
Lemma bit_char_value b : negb (Ascii.eqb (bit_char b) "0") = b.
Proof. destruct b; reflexivity. Qed.
Lemma bit_char_space b : is_space (bit_char b) = false.
Proof. destruct b; reflexivity. Qed.
Lemma bit_char_bracket b : Ascii.eqb (bit_char b) "[" = false.
Proof. destruct b; reflexivity. Qed.
Lemma is_bit_char_inv c : is_bit c = true -> exists b, c = bit_char b.
Proof.
  unfold is_bit. intros H. apply orb_true_iff in H as [H|H]; apply Ascii.eqb_eq in H; subst.
  - exists false. reflexivity.
  - exists true. reflexivity.
Qed.

Lemma get_char_at old s c r : i_good s = true -> i_after s = c :: r ->
  get_char old s = Ret (Some c) (advance [c] r s).
Proof. intros Hg Ha. unfold get_char, sentry. rewrite Hg, Ha. reflexivity. Qed.
Lemma get_char_end old s : i_good s = true -> i_after s = [] ->
  get_char old s = Ret old (set_fail (set_eof s)).
Proof. intros Hg Ha. unfold get_char, sentry. rewrite Hg, Ha. reflexivity. Qed.
Lemma putback_failed c s : i_fail s = true -> putback c s = Ret tt (set_fail (clear_eof s)).
Proof.
  intros Hf. unfold putback, sentry. unfold i_good. cbn [i_fail clear_eof]. rewrite Hf, orb_true_r. reflexivity.
Qed.
Lemma not_good_failed s : i_good s = true -> i_failed s = false.
Proof. intros H. apply good_eof. exact H. Qed.

(** the loop on bits followed by another character *)
Lemma word_loop_stop b : forall d acc s fuel c r, i_good s = true -> i_after s = bits_text b ++ c :: r ->
  is_bit c = false -> length b + 1 < fuel ->
  word_loop fuel (bit_char d) acc s = Ret (acc ++ d :: b) (advance (bits_text b) (c :: r) s).
Proof.
  induction b as [|d' b IH]; intros d acc s fuel c r Hg Ha Hc Hf; (destruct fuel as [|fuel]; [lia|]);
    cbn [word_loop]; rewrite (not_good_failed s Hg), is_bit_char; cbn [negb andb]; unfold bind at 1.
  - simpl in Ha. rewrite (get_char_at _ s c r Hg Ha). unfold read_var. destruct fuel as [|fuel]; [simpl in Hf; lia|].
    cbn [word_loop]. rewrite Hc, andb_false_r. unfold bind.
    change (advance [c] r s) with (advance ([] ++ [c]) r s). rewrite (putback_last s [] c r Hg). unfold ret.
    rewrite bit_char_value. reflexivity.
  - simpl in Ha. rewrite (get_char_at _ s _ _ Hg Ha). unfold read_var.
    rewrite (IH d' _ (advance [bit_char d'] (bits_text b ++ c :: r) s) fuel c r Hg eq_refl Hc) by (simpl in Hf; lia).
    rewrite bit_char_value, <- app_assoc, advance_advance. reflexivity.
Qed.
(** the loop on bits up to the end of the text *)
Lemma word_loop_end b : forall d acc s fuel, i_good s = true -> i_after s = bits_text b -> length b + 1 < fuel ->
  exists s', word_loop fuel (bit_char d) acc s = Ret (acc ++ d :: b) s' /\ i_failed s' = true /\ i_after s' = [].
Proof.
  induction b as [|d' b IH]; intros d acc s fuel Hg Ha Hf; (destruct fuel as [|fuel]; [lia|]);
    cbn [word_loop]; rewrite (not_good_failed s Hg), is_bit_char; cbn [negb andb]; unfold bind at 1.
  - simpl in Ha. rewrite (get_char_end _ s Hg Ha). unfold read_var. destruct fuel as [|fuel]; [simpl in Hf; lia|].
    cbn [word_loop]. change (i_failed (set_fail (set_eof s))) with true. cbn [negb andb]. unfold bind.
    rewrite putback_failed by reflexivity. unfold ret. rewrite bit_char_value. eexists. split; [reflexivity|].
    split; [reflexivity|exact Ha].
  - simpl in Ha. rewrite (get_char_at _ s _ _ Hg Ha). unfold read_var.
    destruct (IH d' (acc ++ [negb (Ascii.eqb (bit_char d) "0")]) (advance [bit_char d'] (bits_text b) s) fuel Hg eq_refl)
      as (s' & H1 & H2); [simpl in Hf; lia|].
    exists s'. rewrite H1, bit_char_value, <- app_assoc. auto.
Qed.

Lemma bits_text_length w : length (bits_text w) = length w.
Proof. apply map_length. Qed.
Lemma read_word_stop w s t c r : w <> [] -> i_good s = true -> blank t -> i_after s = t ++ bits_text w ++ c :: r ->
  is_bit c = false -> read_word s = Ret w (advance (t ++ bits_text w) (c :: r) s).
Proof.
  intros Hne Hg Ht Ha Hc. destruct w as [|d w]; [congruence|]. simpl in Ha. unfold read_word, bind at 1.
  rewrite (extract_char_at None s t (bit_char d) (bits_text w ++ c :: r) Hg Ha Ht (bit_char_space d)).
  unfold read_var. rewrite bit_char_bracket.
  rewrite (word_loop_stop w d [] _ _ c r); [|exact Hg|reflexivity|exact Hc|].
  2:{ cbn [i_after advance]. rewrite app_length, bits_text_length. simpl. lia. }
  rewrite advance_advance, <- app_assoc. reflexivity.
Qed.
Lemma read_word_end w s t : w <> [] -> i_good s = true -> blank t -> i_after s = t ++ bits_text w ->
  exists s', read_word s = Ret w s' /\ i_failed s' = true /\ i_after s' = [].
Proof.
  intros Hne Hg Ht Ha. destruct w as [|d w]; [congruence|]. simpl in Ha. unfold read_word, bind at 1.
  rewrite (extract_char_at None s t (bit_char d) (bits_text w) Hg Ha Ht (bit_char_space d)).
  unfold read_var. rewrite bit_char_bracket.
  apply (word_loop_end w d []); [exact Hg|reflexivity|].
  cbn [i_after advance]. rewrite bits_text_length. lia.
Qed.
(** a first character that is neither a bit nor a bracket stays in the stream *)
Lemma read_word_other s t c r : i_good s = true -> blank t -> i_after s = t ++ c :: r ->
  is_space c = false -> is_bit c = false -> c <> "["%char -> read_word s = Ret [] (advance t (c :: r) s).
Proof.
  intros Hg Ht Ha Hs Hb Hc. unfold read_word, bind at 1.
  rewrite (extract_char_at None s t c r Hg Ha Ht Hs). unfold read_var.
  rewrite (proj2 (Ascii.eqb_neq c "[") Hc). cbn [word_loop]. rewrite Hb, andb_false_r. unfold bind.
  rewrite (putback_last s t c r Hg). reflexivity.
Qed.
Lemma read_word_bracket s t r : i_good s = true -> blank t -> i_after s = t ++ "["%char :: r ->
  read_word s = read_vector read_bool (advance t ("["%char :: r) s).
Proof.
  intros Hg Ht Ha. unfold read_word, bind at 1.
  rewrite (extract_char_at None s t "[" r Hg Ha Ht eq_refl). unfold read_var. rewrite Ascii.eqb_refl.
  unfold bind. rewrite (putback_last s t "[" r Hg). reflexivity.
Qed.
Lemma read_word_blank s : i_good s = false \/ blank (i_after s) -> read_word s = Ub UbUninit.
Proof.
  intros H. unfold read_word, bind at 1.
  destruct (extract_char_cases None s) as [[Hg Hx]|[(Hg & Hb & Hx)|(w & c & r & Hg & Ha & Hw & Hc & Hx)]]; rewrite Hx;
    try reflexivity.
  exfalso. destruct H as [H|H]; [congruence|]. rewrite Ha in H. unfold blank in H. rewrite forallb_app in H.
  simpl in H. rewrite Hc, andb_false_r in H. discriminate.
Qed.

Definition not_bit (c : ascii) : bool := negb (is_bit c).
Lemma read_word_reads_as alpha w : w <> [] -> reads_as read_word alpha not_bit w (word_text w).
Proof.
  intros Hne. assert (Hwt : word_text w = bits_text w) by (destruct w; [congruence|reflexivity]). rewrite Hwt. split.
  - destruct w as [|d w]; [congruence|]. exists (bit_char d), (bits_text w). split; [reflexivity|apply bit_char_space].
  - intros s t c r Hg Hal Ht Ha Hc. rewrite (read_word_stop w s t c r Hne Hg Ht Ha).
    + eexists. split; [reflexivity|]. split; [exact Hg|]. apply moved_advance. rewrite Ha, <- app_assoc. reflexivity.
    + apply negb_true_iff. exact Hc.
Qed.
Lemma list_follow_not_bit c : list_follow c = true -> not_bit c = true.
Proof. destruct c as [[] [] [] [] [] [] [] []]; vm_compute; congruence. Qed.
Lemma word_readable alpha w : w <> [] -> readable read_word word_text list_follow "]" alpha w.
Proof.
  intros Hne. split.
  - eapply reads_as_weaken; [exact list_follow_not_bit|]. apply read_word_reads_as. exact Hne.
  - destruct w as [|d w]; [congruence|]. intros t' H. injection H as H _. destruct d; discriminate.
Qed.

(** text printed by a printer that may change the flags *)
Lemma print_with_text {T} (pr : T -> ostream -> ostream) (txt : T -> text) op sep op' cl l o :
  (forall x o, o_text (pr x o) = o_text o ++ txt x) ->
  o_text (print_with pr op sep op' cl l o) =
  o_text o ++ (match l with [] => op' | _ => op end) ++ separated sep (map txt l) ++ cl.
Proof.
  intros Hp. rewrite print_with_cases.
  assert (Ht : forall l o1, o_text (tail_items pr sep l o1) = o_text o1 ++ concat (map (fun x => sep ++ txt x) l)).
  { induction l0 as [|x l0 IH]; intros o1; [simpl; rewrite app_nil_r; reflexivity|].
    change (tail_items pr sep (x :: l0) o1) with (tail_items pr sep l0 (pr x (put_text sep o1))).
    rewrite IH, Hp. simpl. rewrite <- !app_assoc. reflexivity. }
  destruct l as [|x l]; cbn [map o_text put_text].
  - rewrite <- app_assoc. reflexivity.
  - rewrite Ht, Hp. cbn [o_text put_text].
    rewrite separated_cons, map_map, <- !app_assoc. reflexivity.
Qed.
Lemma printed_words_read_back (v : list word) (flag alpha : bool) : Forall (fun w => w <> []) v ->
  (forall s rest, i_good s = true -> i_boolalpha s = alpha ->
     i_after s = o_text (print_vector print_word v (mkO [] flag)) ++ rest ->
     exists s', read_vector read_word s = Ret v s' /\ i_good s' = true /\ i_after s' = rest) /\
  (forall t s w rest, layout word_text list_follow "[" "]" "," v t ->
     i_good s = true -> i_boolalpha s = alpha -> blank w -> i_after s = w ++ t ++ rest ->
     exists s', read_vector read_word s = Ret v s' /\ i_good s' = true /\
       i_after s' = rest /\ i_before s' = rev (w ++ t) ++ i_before s).
Proof.
  intros Hv.
  assert (Hr : Forall (readable read_word word_text list_follow "]" alpha) v).
  { eapply Forall_impl; [|exact Hv]. intros w Hw. apply word_readable. exact Hw. }
  assert (H2 : forall t s w rest, layout word_text list_follow "[" "]" "," v t ->
     i_good s = true -> i_boolalpha s = alpha -> blank w -> i_after s = w ++ t ++ rest ->
     exists s', read_vector read_word s = Ret v s' /\ i_good s' = true /\
       i_after s' = rest /\ i_before s' = rev (w ++ t) ++ i_before s).
  { intros t s w rest Hl Hg Hal Hw Ha.
    destruct (vector_round_trip read_word word_text alpha v t Hr Hl s w rest Hg Hal Hw Ha)
      as (s' & H1 & H2 & (_ & H3 & _) & H4). exists s'. auto. }
  split; [|exact H2]. intros s rest Hg Hal Ha. unfold print_vector in Ha.
  rewrite (print_with_text print_word word_text) in Ha by (intros x o; rewrite print_word_text; reflexivity).
  destruct (H2 (chars "[" ++ separated (chars ",") (map word_text v) ++ chars "]") s [] rest)
    as (s' & H3 & H4 & H5 & _).
  - apply (separated_layout word_text list_follow "[" "]" "," v eq_refl eq_refl).
  - exact Hg.
  - exact Hal.
  - reflexivity.
  - rewrite Ha. destruct v; reflexivity.
  - exists s'. auto.
Qed.

(** C42 *)
Lemma leading_bits_text w : leading_bits (bits_text w) = w.
Proof. induction w as [|[] w IH]; simpl; rewrite ?IH; reflexivity. Qed.
Lemma make_word_round_trip (w : word) :
  (forall flag, o_text (print_word w (mkO [] flag)) = word_text w) /\
  make_binary_word (word_text w) = Ret w tt /\
  (forall t b rest, layout (bool_text false) list_follow "[" "]" "," w t -> blank b ->
     make_binary_word (b ++ t ++ rest) = Ret w tt).
Proof.
  split; [intros flag; rewrite print_word_text; reflexivity|]. split.
  - unfold make_binary_word. destruct w as [|d w].
    + reflexivity.
    + destruct (read_word_end (d :: w) (of_text (word_text (d :: w))) []) as (s' & H & _);
        [discriminate|reflexivity|reflexivity|reflexivity|]. rewrite H. reflexivity.
  - intros t b rest Hl Hb. unfold make_binary_word.
    assert (Ht : exists u, t = "["%char :: u) by (destruct Hl; eauto). destruct Ht as [u ->].
    rewrite (read_word_bracket _ b (u ++ rest)); [|reflexivity|exact Hb|reflexivity].
    destruct (bool_round_trip w false ("["%char :: u) Hl (advance b ("["%char :: u ++ rest) (of_text (b ++ ("["%char :: u) ++ rest))) [] rest)
      as (s' & H & _); [reflexivity|reflexivity|reflexivity|reflexivity|]. rewrite H. reflexivity.
Qed.

(** C43 *)
Lemma read_words_spaced (l : list (word * text)) : 
  Forall (fun p => fst p <> [] /\ snd p <> [] /\ blank (snd p)) l ->
  forall s b rest, i_good s = true -> blank b -> i_after s = b ++ spaced l ++ rest ->
  exists s', read_words (length l) s = Ret (map (fun p => (fst p, true)) l) s' /\ i_good s' = true.
Proof.
  induction l as [|[w t] l IH]; intros Hl s b rest Hg Hb Ha.
  - exists s. split; [reflexivity|exact Hg].
  - inversion Hl as [|? ? (Hw & Ht & Hbt) Hl']; subst. simpl in Hw, Ht, Hbt.
    assert (Hwt : word_text w = bits_text w) by (destruct w; [congruence|reflexivity]).
    destruct t as [|c t]; [congruence|].
    assert (Hc : is_space c = true /\ blank t) by (apply andb_true_iff in Hbt; exact Hbt). destruct Hc as [Hc Htb].
    assert (Ha1 : i_after s = b ++ bits_text w ++ c :: t ++ spaced l ++ rest).
    { rewrite Ha. unfold spaced. cbn [map concat fst snd]. rewrite Hwt, <- !app_assoc. reflexivity. }
    assert (Hr : read_word s = Ret w (advance (b ++ bits_text w) (c :: t ++ spaced l ++ rest) s)).
    { apply (read_word_stop w s b c _ Hw Hg Hb Ha1). clear -Hc. destruct c as [[] [] [] [] [] [] [] []]; vm_compute in *; congruence. }
    cbn [length read_words map fst]. unfold bind at 1. rewrite Hr. unfold bind.
    destruct (IH Hl' (advance (b ++ bits_text w) (c :: t ++ spaced l ++ rest) s) (c :: t) rest) as (s' & H1 & H2).
    + exact Hg.
    + exact Hbt.
    + reflexivity.
    + rewrite H1. unfold ret. exists s'. split; [|exact H2]. f_equal. f_equal. f_equal.
      change (i_failed (advance (b ++ bits_text w) (c :: t ++ spaced l ++ rest) s)) with (i_failed s).
      rewrite (not_good_failed s Hg). reflexivity.
Qed.
Lemma read_words_stuck n : forall s b r, i_good s = true -> blank b -> i_after s = b ++ chars "e" ++ r ->
  exists s', read_words n s = Ret (repeat ([], true) n) s' /\ i_good s' = true.
Proof.
  induction n as [|n IH]; intros s b r Hg Hb Ha.
  - exists s. split; [reflexivity|exact Hg].
  - cbn [read_words]. unfold bind at 1.
    rewrite (read_word_other s b "e" r Hg Hb Ha eq_refl eq_refl ltac:(discriminate)). unfold bind.
    destruct (IH (advance b ("e"%char :: r) s) [] r) as (s' & H1 & H2); [exact Hg|reflexivity|reflexivity|].
    rewrite H1. unfold ret. exists s'. split; [|exact H2].
    change (i_failed (advance b ("e"%char :: r) s)) with (i_failed s). rewrite (not_good_failed s Hg). reflexivity.
Qed.

(** C45 *)
Lemma word_loop_bits t : forall d acc s fuel, i_good s = true -> i_after s = t -> length t + 1 < fuel ->
  exists s', word_loop fuel (bit_char d) acc s = Ret (acc ++ d :: leading_bits t) s'.
Proof.
  intros d acc s fuel Hg Ha Hf.
  assert (Hsplit : exists r, t = bits_text (leading_bits t) ++ r /\ (r = [] \/ exists c r', r = c :: r' /\ is_bit c = false)).
  { clear. induction t as [|c t IH]; [exists []; auto|]. simpl.
    destruct (Ascii.eqb_spec c "0") as [->|H0]; [destruct IH as (r & H & Hr); exists r; split; [simpl; rewrite <- H; reflexivity|exact Hr]|].
    destruct (Ascii.eqb_spec c "1") as [->|H1]; [destruct IH as (r & H & Hr); exists r; split; [simpl; rewrite <- H; reflexivity|exact Hr]|].
    exists (c :: t). split; [reflexivity|]. right. exists c, t. split; [reflexivity|]. unfold is_bit.
    rewrite (proj2 (Ascii.eqb_neq c "0") H0), (proj2 (Ascii.eqb_neq c "1") H1). reflexivity. }
  destruct Hsplit as (r & Ht & [->|(c & r' & -> & Hc)]).
  - rewrite app_nil_r in Ht.
    assert (Hl : length t = length (leading_bits t)) by (rewrite Ht at 1; apply bits_text_length).
    destruct (word_loop_end (leading_bits t) d acc s fuel Hg) as (s' & H & _); [congruence|lia|]. eauto.
  - assert (Hl : length t = length (leading_bits t) + S (length r')).
    { rewrite Ht at 1. rewrite app_length, bits_text_length. reflexivity. }
    rewrite (word_loop_stop (leading_bits t) d acc s fuel c r' Hg); [eauto|congruence|exact Hc|lia].
Qed.
Lemma make_word_any (str : text) :
  (blank str -> make_binary_word str = Ub UbUninit) /\
  (forall b c r, str = b ++ c :: r -> blank b -> is_space c = false ->
     (c <> "["%char -> make_binary_word str = Ret (leading_bits (c :: r)) tt) /\
     (c = "["%char ->
        (exists w t r', make_binary_word str = Ret w tt /\ str = t ++ r' /\ accepted read_bool "[" "]" "," w t) \/
        make_binary_word str = Exc EIosFailure tt)).
Proof.
  split.
  - intros Hb. unfold make_binary_word. rewrite read_word_blank by (right; exact Hb). reflexivity.
  - intros b c r -> Hb Hc. split.
    + intros Hbr. unfold make_binary_word. destruct (is_bit c) eqn:Hbit.
      * destruct (is_bit_char_inv c Hbit) as [d ->]. unfold read_word, bind at 1.
        rewrite (extract_char_at None _ b (bit_char d) r); [|reflexivity|reflexivity|exact Hb|exact Hc].
        unfold read_var. rewrite bit_char_bracket.
        destruct (word_loop_bits r d [] (advance (b ++ [bit_char d]) r (of_text (b ++ bit_char d :: r)))
                    (S (S (length (i_after (advance (b ++ [bit_char d]) r (of_text (b ++ bit_char d :: r)))))))) as (s' & H);
          [reflexivity|reflexivity|simpl; lia|].
        rewrite H. destruct d; reflexivity.
      * rewrite (read_word_other _ b c r); [|reflexivity|exact Hb|reflexivity|exact Hc|exact Hbit|exact Hbr].
        simpl. unfold is_bit in Hbit. apply orb_false_iff in Hbit as [-> ->]. reflexivity.
    + intros ->. unfold make_binary_word.
      rewrite (read_word_bracket _ b r); [|reflexivity|exact Hb|reflexivity].
      set (s := advance b ("["%char :: r) (of_text (b ++ "["%char :: r))).
      pose proof (read_sequence_total read_bool "[" "]" "," tame_bool ltac:(discriminate) ltac:(discriminate) s) as H.
      unfold read_vector. destruct (read_sequence read_bool "[" "]" "," s) as [w s'|e s'|ub| |].
      * left. destruct H as (t & (Hm & _) & Hacc). exists w, (b ++ t), (i_after s'). split; [reflexivity|].
        split; [rewrite <- app_assoc, <- Hm; reflexivity|].
        destruct Hacc as (w0 & w1 & u & Hw0 & Hw1 & Ht & Hu). exists (b ++ w0), w1, u.
        split; [unfold blank; rewrite forallb_app; unfold blank in *; rewrite Hb, Hw0; reflexivity|].
        split; [exact Hw1|]. split; [rewrite Ht, <- app_assoc; reflexivity|exact Hu].
      * right. rewrite H. reflexivity.
      * exfalso. destruct H as [_ [H|H]]; [discriminate|]. discriminate.
      * contradiction.
      * contradiction.
Qed.

Lemma erase_prefix_long_words :
  (forall (k : Z) (w : word), (2 ^ 31 <= Z.of_nat (length w) < 2 ^ 32)%Z -> erase_prefix k w = Ret w tt) /\
  (exists w : word, (2 ^ 31 <= Z.of_nat (length w) < 2 ^ 32)%Z /\ skipn 1 w <> w).
Proof.
  split; [exact erase_prefix_long|]. exists (repeat true (Z.to_nat (2 ^ 31))).
  rewrite repeat_length, Z2Nat.id by lia. split; [lia|]. intros H. apply (f_equal (@length bool)) in H.
  rewrite skipn_length, repeat_length in H. lia.
Qed.
Lemma words_in_sequence_fail :
  (forall (w : word) (s : istream) (t : text), w <> [] -> i_good s = true -> blank t ->
     i_after s = t ++ word_text w -> exists s', read_word s = Ret w s' /\ i_failed s' = true) /\
  (forall n s b r, i_good s = true -> blank b -> i_after s = b ++ word_text [] ++ r ->
     exists s', read_words n s = Ret (repeat ([], true) n) s' /\ i_good s' = true).
Proof.
  split; [|exact read_words_stuck]. intros w s t Hw Hg Ht Ha.
  destruct (read_word_end w s t Hw Hg Ht) as (s' & H1 & H2 & _).
  - destruct w; [congruence|exact Ha].
  - exists s'. auto.
Qed.
Lemma print_word_flag (w : word) (t : text) : w <> [] -> 
  o_boolalpha (print_word w (mkO t false)) = true /\
  forall b, o_text (print_bool b (print_word w (mkO t false))) <>
            o_text (print_word w (mkO t false)) ++ o_text (print_bool b (mkO [] false)).
Proof.
  intros Hw. rewrite print_word_text. destruct w as [|x w]; [congruence|]. split; [reflexivity|].
  intros b H. unfold print_bool in H. simpl o_text in H. apply app_inv_head in H. destruct b; discriminate.
Qed.
Lemma print_word_keeps (w : word) (o : ostream) : w = [] \/ o_boolalpha o = true ->
  print_word w o = put_text (word_text w) o.
Proof.
  intros H. rewrite print_word_text. unfold put_text. f_equal. destruct w; [reflexivity|].
  destruct H as [H|H]; [discriminate|]. auto.
Qed.
