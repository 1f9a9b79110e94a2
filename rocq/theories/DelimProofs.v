(** DelimProofs.v -- lemmas about write_sequence and read_sequence with arbitrary delimiters *)
From Verif Require Import Base StreamModel StlioModel StlioSpec StlioProofs DelimSpec.
Local Open Scope monad_scope.

Lemma int_text_start z : exists c t, int_text z = c :: t /\ is_space c = false /\ (is_digit c = true \/ c = "-"%char).
Proof.
  destruct (int_text_ok z) as (sg & ds & Ht & Hne & Hds & Hv). rewrite Ht. destruct Hv as [[-> _]|[-> _]].
  - destruct ds as [|c ds]; [congruence|]. cbn [app]. exists c, ds. simpl in Hds. apply andb_true_iff in Hds as [Hc _].
    split; [reflexivity|]. split; [now apply digit_cases in Hc|auto].
  - exists "-"%char, ds. auto.
Qed.
Lemma int_text_minus z t : int_text z = "-"%char :: t -> (z < 0)%Z.
Proof.
  unfold int_text, Z.to_int. destruct z as [|p|p]; cbn [uint_text]; intros H.
  - discriminate.
  - pose proof (uint_text_digits (Pos.to_uint p)) as D. cbn in H. rewrite H in D. discriminate.
  - lia.
Qed.
Lemma int_text_neg z : (z < 0)%Z -> exists t, int_text z = "-"%char :: t.
Proof. destruct z; try lia. intros _. unfold int_text, Z.to_int. eauto. Qed.
Lemma digit_not_space c : is_digit c = true -> is_space c = false.
Proof. intros H. now apply digit_cases in H. Qed.

Section Delims.
  Context (lo hi : Z) (op cl sep : ascii).
  Notation rd := (read_int lo hi).
  Notation loop := (read_loop rd cl sep).
  Notation inside v := (separated [sep] (map int_text v)).

  Lemma inside_cons x y v : inside (x :: y :: v) = int_text x ++ sep :: inside (y :: v).
  Proof. reflexivity. Qed.

  (** one turn of the loop *)
  Lemma turn fuel acc s x c r : sep <> cl -> i_good s = true -> (lo <= x <= hi)%Z -> i_after s = int_text x ++ c :: r -> is_digit c = false ->
    exists s1, i_good s1 = true /\ i_after s1 = c :: r /\
      loop (S fuel) (Some sep) acc s = (c' <- extract_char (Some sep) ;; loop fuel c' (acc ++ [x])) s1.
  Proof.
    intros Hsc Hg Hx Ha Hc. destruct (read_int_ok lo hi (i_boolalpha s) x Hx) as [_ R].
    destruct (R s [] c r Hg eq_refl eq_refl Ha) as (s1 & E & Hg1 & Hm); [unfold not_digit; now rewrite Hc|].
    exists s1. split; [exact Hg1|]. destruct Hm as (Hm & _). rewrite Ha in Hm. cbn [app] in Hm. apply app_inv_head in Hm. split; [congruence|].
    cbn [read_loop]. unfold read_var. rewrite (eqb_neq sep cl Hsc). destruct (good_eof s Hg) as [He _]. rewrite He, Ascii.eqb_refl. cbn [negb].
    unfold bind at 1. rewrite E. destruct (good_eof s1 Hg1) as [_ Hf]. now rewrite Hf.
  Qed.

  Lemma loop_reads v : v <> [] -> is_space cl = false -> is_digit cl = false -> sep <> cl ->
    (1 < length v -> is_space sep = false /\ is_digit sep = false) -> Forall (fun z => lo <= z <= hi)%Z v ->
    forall s fuel acc rest, i_good s = true -> i_after s = inside v ++ cl :: rest -> length v + 1 <= fuel ->
    exists s', loop fuel (Some sep) acc s = Ret (acc ++ v) s' /\ i_good s' = true /\ i_after s' = rest.
  Proof.
    intros Hne Hcs Hcd Hsc. induction v as [|x [|y v] IH]; [congruence| |]; intros Hsep HF s fuel acc rest Hg Ha Hfu;
      inversion_clear HF as [|? ? Hx HF']; (destruct fuel as [|fuel]; [cbn in Hfu; lia|]).
    - destruct (turn fuel acc s x cl rest Hsc Hg Hx Ha Hcd) as (s1 & Hg1 & Ha1 & ->). unfold bind.
      rewrite (extract_char_at (Some sep) s1 [] cl rest Hg1 Ha1 eq_refl Hcs). destruct fuel as [|fuel]; [cbn in Hfu; lia|].
      cbn [read_loop]. unfold read_var. rewrite Ascii.eqb_refl. eexists. split; [reflexivity|]. split; [exact Hg1|reflexivity].
    - destruct Hsep as [Hss Hsd]; [cbn; lia|]. rewrite inside_cons, <- app_assoc in Ha. cbn [app] in Ha.
      destruct (turn fuel acc s x sep _ Hsc Hg Hx Ha Hsd) as (s1 & Hg1 & Ha1 & ->). unfold bind.
      rewrite (extract_char_at (Some sep) s1 [] sep _ Hg1 Ha1 eq_refl Hss).
      destruct (IH ltac:(discriminate) ltac:(auto) HF' (advance ([] ++ [sep]) (inside (y :: v) ++ cl :: rest) s1) fuel (acc ++ [x]) rest) as (s' & E & H).
      + exact Hg1.
      + reflexivity.
      + cbn [length] in *. lia.
      + exists s'. rewrite E, <- app_assoc. auto.
  Qed.

  (** returning needs a closing delimiter that was read *)
  Lemma loop_closing fuel : sep <> cl -> forall acc s v s', loop fuel (Some sep) acc s = Ret v s' -> is_space cl = false /\ length acc < length v.
  Proof.
    intros Hsc. induction fuel as [|fuel IH]; intros acc s v s'; [discriminate|]. cbn [read_loop]. unfold read_var at 1. rewrite (eqb_neq sep cl Hsc).
    destruct (i_eof s); [discriminate|]. rewrite Ascii.eqb_refl. cbn [negb]. unfold bind at 1.
    destruct (rd s) as [x s1|e s1| | |]; try discriminate. destruct (i_failed s1); [discriminate|]. unfold bind.
    destruct (extract_char_cases (Some sep) s1) as [[Hg Hx]|[(Hg & Hb & Hx)|(w & c & r & Hg & Ha & Hw & Hc & Hx)]]; rewrite Hx; intros E.
    - apply IH in E. rewrite app_length in E. cbn [length] in E. split; [apply E|lia].
    - apply IH in E. rewrite app_length in E. cbn [length] in E. split; [apply E|lia].
    - destruct (Ascii.eqb_spec c cl) as [->|Hcc].
      + destruct fuel; [discriminate|]. cbn [read_loop] in E. unfold read_var in E. rewrite Ascii.eqb_refl in E. injection E as <- _.
        rewrite app_length. cbn [length]. split; [exact Hc|lia].
      + destruct (Ascii.eqb_spec c sep) as [->|Hcs].
        * apply IH in E. rewrite app_length in E. cbn [length] in E. split; [apply E|lia].
        * destruct fuel; [discriminate|]. cbn [read_loop] in E. unfold read_var in E. rewrite (eqb_neq c cl Hcc) in E.
          destruct (i_eof _); [discriminate|]. rewrite (eqb_neq c sep Hcs) in E. discriminate.
  Qed.
  (** a character that is neither delimiter ends it; the closing delimiter ends the list *)
  Lemma loop_other fuel acc s c v s' : c <> sep -> loop fuel (Some c) acc s = Ret v s' -> v = acc.
  Proof.
    intros Hcs. destruct fuel; [discriminate|]. cbn [read_loop]. unfold read_var. destruct (Ascii.eqb_spec c cl) as [->|Hcc].
    - unfold ret. congruence.
    - destruct (i_eof s); [discriminate|]. rewrite (eqb_neq c sep Hcs). discriminate.
  Qed.

  (** a closing digit is read as part of the last item *)
  Lemma read_all_digits s x r : i_good s = true -> i_after s = int_text x ++ r -> forallb is_digit r = true ->
    exists z s1, rd s = Ret z s1 /\ i_after s1 = [] /\ i_eof s1 = true.
  Proof.
    intros Hg Ha Hr. destruct (int_text_ok x) as (sg & ds & Ht & Hne & Hds & Hv). destruct (int_text_start x) as (c & t & Hc & Hs & _).
    unfold read_int. assert (i_after s = [] ++ c :: t ++ r) as Ha' by (rewrite Ha, Hc; reflexivity).
    rewrite (sentry_at s [] c (t ++ r) Hg Ha' eq_refl Hs). cbn [i_after advance]. replace (c :: t ++ r) with (sg ++ ds ++ r).
    2:{ rewrite app_assoc, <- Ht, Hc. reflexivity. }
    assert (take_sign (sg ++ ds ++ r) = (sg, match sg with [] => false | _ => true end, ds ++ r)) as ->.
    { destruct Hv as [[-> _]|[-> _]]; [|reflexivity]. destruct ds as [|d ds]; [congruence|].
      simpl in Hds. apply andb_true_iff in Hds as [Hd _]. apply digit_cases in Hd as (_ & H1 & H2). simpl. rewrite H1, H2. reflexivity. }
    assert (span is_digit (ds ++ r) = (ds ++ r, [])) as ->.
    { rewrite <- (app_nil_r (ds ++ r)) at 1. apply span_app; [|auto]. rewrite forallb_app, Hds, Hr. reflexivity. }
    cbv zeta. unfold if_eof. cbn [i_after advance]. destruct (ds ++ r) eqn:E; [now destruct ds|].
    destruct (_ <? lo)%Z; [|destruct (hi <? _)%Z]; eexists _, _; split; try reflexivity; split; reflexivity.
  Qed.
  Lemma loop_closing_digit v : v <> [] -> is_digit cl = true -> sep <> cl ->
    (1 < length v -> is_space sep = false /\ is_digit sep = false) -> Forall (fun z => lo <= z <= hi)%Z v ->
    forall s fuel acc u s', i_good s = true -> i_after s = inside v ++ [cl] -> loop fuel (Some sep) acc s <> Ret u s'.
  Proof.
    intros Hne Hcd Hsc. induction v as [|x [|y v] IH]; [congruence| |]; intros Hsep HF s fuel acc u s' Hg Ha;
      inversion_clear HF as [|? ? Hx HF']; (destruct fuel as [|fuel]; [discriminate|]).
    - destruct (read_all_digits s x [cl] Hg Ha) as (z & s1 & E & Ha1 & He1); [cbn; now rewrite Hcd|].
      cbn [read_loop]. unfold read_var. rewrite (eqb_neq sep cl Hsc). destruct (good_eof s Hg) as [He _]. rewrite He, Ascii.eqb_refl. cbn [negb].
      unfold bind at 1. rewrite E. destruct (i_failed s1); [discriminate|]. unfold bind.
      destruct (extract_char_cases (Some sep) s1) as [[Hg1 Hx1]|[(Hg1 & Hb & Hx1)|(w & c & r & Hg1 & Ha2 & _)]].
      + rewrite Hx1. destruct fuel as [|fuel]; [discriminate|]. cbn [read_loop]. unfold read_var. rewrite (eqb_neq sep cl Hsc). cbn [i_eof set_fail].
        rewrite He1. discriminate.
      + destruct (good_eof s1 Hg1). congruence.
      + destruct (good_eof s1 Hg1). congruence.
    - destruct Hsep as [Hss Hsd]; [cbn; lia|]. rewrite inside_cons, <- app_assoc in Ha. cbn [app] in Ha.
      destruct (turn fuel acc s x sep _ Hsc Hg Hx Ha Hsd) as (s1 & Hg1 & Ha1 & ->). unfold bind.
      rewrite (extract_char_at (Some sep) s1 [] sep _ Hg1 Ha1 eq_refl Hss). apply IH; auto. discriminate.
  Qed.

  (** a separating blank is skipped, a separating digit becomes part of the item *)
  Lemma loop_blank x y v acc fuel s u s' : sep <> cl -> is_space sep = true -> (lo <= x <= hi)%Z -> i_good s = true ->
    i_after s = inside (x :: y :: v) ++ [cl] -> loop fuel (Some sep) acc s = Ret u s' -> u = acc ++ [x].
  Proof.
    intros Hsc Hss Hx Hg Ha. destruct fuel as [|fuel]; [discriminate|]. rewrite inside_cons, <- app_assoc in Ha. cbn [app] in Ha.
    assert (is_digit sep = false) as Hsd. { destruct (is_digit sep) eqn:E; [|reflexivity]. apply digit_not_space in E. congruence. }
    destruct (turn fuel acc s x sep _ Hsc Hg Hx Ha Hsd) as (s1 & Hg1 & Ha1 & ->). unfold bind.
    destruct (int_text_start y) as (c & t & Hc & Hcs & _).
    assert (exists r, inside (y :: v) ++ [cl] = c :: r) as (r & Hr).
    { destruct v; [cbn [map separated]|rewrite inside_cons]; rewrite Hc; eexists; reflexivity. }
    rewrite Hr in Ha1. rewrite (extract_char_at (Some sep) s1 [sep] c r Hg1 Ha1); [| |exact Hcs].
    - apply loop_other. intros ->. congruence.
    - unfold blank. cbn. now rewrite Hss.
  Qed.
  Lemma loop_digit x y v acc fuel s u s' : sep <> cl -> is_space cl = false -> is_digit sep = true -> i_good s = true ->
    i_after s = inside (x :: y :: v) ++ [cl] -> loop fuel (Some sep) acc s = Ret u s' -> length u <= length acc + 1.
  Proof.
    intros Hsc Hcs Hsd Hg Ha. destruct fuel as [|fuel]; [discriminate|].
    assert (forall z l, forallb (fun c => negb (is_space c)) (inside (z :: l)) = true) as Hnb.
    { intros z l. revert z. assert (forall z, forallb (fun c => negb (is_space c)) (int_text z) = true) as Hz.
      { intros z. destruct (int_text_ok z) as (sg & ds & -> & _ & Hds & Hv). rewrite forallb_app.
        assert (forallb (fun c => negb (is_space c)) ds = true) as ->.
        { apply forallb_forall. intros c Hc. rewrite forallb_forall in Hds. now rewrite (digit_not_space c (Hds c Hc)). }
        destruct Hv as [[-> _]|[-> _]]; reflexivity. }
      induction l as [|w l IH]; intros z; [apply Hz|]. rewrite inside_cons, forallb_app, Hz. cbn [forallb].
      rewrite (digit_not_space sep Hsd). exact (IH w). }
    cbn [read_loop]. unfold read_var at 1. rewrite (eqb_neq sep cl Hsc). destruct (good_eof s Hg) as [He _]. rewrite He, Ascii.eqb_refl. cbn [negb].
    unfold bind at 1.
    (* what read_int leaves starts with no digit *)
    assert (forall z s1, rd s = Ret z s1 -> i_eof s1 = true \/ exists c r, i_after s1 = c :: r /\ is_digit c = false /\ is_space c = false) as Hrd.
    { intros z s1. unfold read_int. destruct (int_text_start x) as (c & t & Hc & Hs & _).
      assert (exists t', i_after s = [] ++ c :: t') as (t' & Ha').
      { rewrite Ha, inside_cons, Hc. eexists. reflexivity. }
      rewrite (sentry_at s [] c t' Hg Ha' eq_refl Hs). cbn [i_after advance].
      assert (forallb (fun c => negb (is_space c)) (c :: t') = true) as Hall.
      { cbn [app] in Ha'. rewrite <- Ha', Ha, forallb_app. rewrite (Hnb x (y :: v)). cbn. now rewrite Hcs. }
      destruct (take_sign (c :: t')) as [[sg neg] r0] eqn:Ets. destruct (span is_digit r0) as [ds r1] eqn:Esp.
      assert (r1 = [] \/ exists d r, r1 = d :: r /\ is_digit d = false /\ is_space d = false) as Hr1.
      { destruct (span_spec _ _ _ _ Esp) as (E1 & _ & [->|(d & r & -> & Hd)]); [auto|]. right. exists d, r. repeat split; auto.
        assert (In d (c :: t')) as Hin.
        { assert (In d r0) as Hin0 by (rewrite E1; apply in_or_app; right; left; reflexivity). unfold take_sign in Ets.
          destruct (Ascii.eqb c "-"); [injection Ets as _ _ <-; now right|]. destruct (Ascii.eqb c "+"); injection Ets as _ _ <-; [now right|exact Hin0]. }
        rewrite forallb_forall in Hall. specialize (Hall d Hin). now apply negb_true_iff in Hall. }
      assert (forall r2 s2, i_after s2 = r2 -> r2 = r1 -> i_eof (if_eof s2) = true \/ exists c0 r, i_after s2 = c0 :: r /\ is_digit c0 = false /\ is_space c0 = false) as Hfin.
      { intros r2 s2 E2 ->. unfold if_eof. rewrite E2. destruct Hr1 as [->|(d & r & -> & H)]; [left; reflexivity|right; eauto]. }
      cbv zeta. intros E. specialize (Hfin r1 (advance (sg ++ ds) r1 (advance [] (c :: t') s)) eq_refl eq_refl).
      assert (s1 = if_eof (advance (sg ++ ds) r1 (advance [] (c :: t') s)) \/ s1 = set_fail (if_eof (advance (sg ++ ds) r1 (advance [] (c :: t') s)))) as Hs1.
      { destruct ds as [|d ds]; [|destruct (_ <? lo)%Z; [|destruct (hi <? _)%Z]]; injection E as _ <-; auto. }
      destruct Hfin as [Hf|(c0 & r & Hf & Hd)].
      - left. destruct Hs1 as [->| ->]; exact Hf.
      - right. exists c0, r. split; [|exact Hd]. cbn [i_after advance] in Hf. subst r1. destruct Hs1 as [->| ->]; reflexivity. }
    destruct (rd s) as [z s1|e s1| | |] eqn:E; try discriminate. specialize (Hrd z s1 eq_refl).
    destruct (i_failed s1); [discriminate|]. unfold bind.
    destruct (extract_char_cases (Some sep) s1) as [[Hg1 Hx1]|[(Hg1 & Hb & Hx1)|(w & c & r & Hg1 & Ha2 & Hw & Hc & Hx1)]]; rewrite Hx1.
    - destruct Hrd as [He1|(c & r & Ha1 & _ & Hc)].
      + destruct fuel as [|fuel]; [discriminate|]. cbn [read_loop]. unfold read_var. rewrite (eqb_neq sep cl Hsc). cbn [i_eof set_fail].
        rewrite He1. discriminate.
      + destruct fuel as [|fuel]; [discriminate|]. cbn [read_loop]. unfold read_var. rewrite (eqb_neq sep cl Hsc). cbn [i_eof set_fail].
        destruct (i_eof s1); [discriminate|]. rewrite Ascii.eqb_refl. cbn [negb]. unfold bind. 
        destruct (tame_int lo hi (set_fail s1)) as (z2 & s2 & t2 & -> & _ & Hf). rewrite (Hf eq_refl). discriminate.
    - destruct (good_eof s1 Hg1) as [He1 _]. destruct Hrd as [He1'|(c & r & Ha1 & _ & Hc)]; [congruence|].
      unfold blank in Hb. rewrite Ha1 in Hb. cbn in Hb. rewrite Hc in Hb. discriminate.
    - destruct (good_eof s1 Hg1) as [He1 _]. destruct Hrd as [He1'|(c1 & r1 & Ha1 & Hd & Hc1)]; [congruence|].
      rewrite Ha2 in Ha1. destruct w as [|w0 w].
      + cbn [app] in Ha1. injection Ha1 as -> ->. intros H. apply loop_other in H; [|intros ->; congruence]. subst u.
        rewrite app_length. cbn. lia.
      + cbn [app] in Ha1. injection Ha1 as -> _. unfold blank in Hw. cbn in Hw. rewrite Hc1 in Hw. discriminate.
  Qed.

  Lemma written v o : o_text (write_sequence print_int op cl sep v o) = o_text o ++ op :: inside v ++ [cl].
  Proof.
    unfold write_sequence. cbn [put_text o_text].
    assert (forall l o1, o_text (write_loop print_int sep l o1) = o_text o1 ++ inside l) as ->.
    { induction l as [|x [|y l] IH]; intros o1.
      - cbn. now rewrite app_nil_r.
      - reflexivity.
      - cbn [write_loop]. cbn [write_loop] in IH. rewrite IH, inside_cons. cbn [put_text o_text print_int]. now rewrite <- !app_assoc. }
    cbn [o_text put_text]. now rewrite <- !app_assoc.
  Qed.

  (** ** reading what was written *)
  Lemma read_back v s rest : delimits op cl sep v -> Forall (fun z => lo <= z <= hi)%Z v -> i_good s = true ->
    i_after s = o_text (write_sequence print_int op cl sep v (mkO [] false)) ++ rest ->
    exists s', read_sequence rd op cl sep s = Ret v s' /\ i_good s' = true /\ i_after s' = rest.
  Proof.
    intros (Hop & Hcl & Hd) HF Hg Ha. rewrite written in Ha. cbn [o_text app] in Ha. rewrite <- app_assoc in Ha. cbn [app] in Ha.
    unfold read_sequence, bind at 1. rewrite (extract_char_at None s [] op _ Hg Ha eq_refl Hop). unfold read_var at 1. rewrite Ascii.eqb_refl. cbn [negb].
    unfold bind at 1. set (s1 := advance ([] ++ [op]) (inside v ++ cl :: rest) s). assert (i_good s1 = true) as Hg1 by exact Hg.
    destruct v as [|x t].
    - rewrite (extract_char_at (Some op) s1 [] cl rest Hg1 eq_refl eq_refl Hcl). unfold read_var at 1, bind. rewrite Ascii.eqb_refl. unfold ret at 1.
      cbn [read_loop]. unfold read_var. rewrite Ascii.eqb_refl. eexists. split; [reflexivity|]. split; [exact Hg|reflexivity].
    - destruct Hd as (Hcd & Hsc & Hm & Hsep). destruct (int_text_start x) as (c & u & Hc & Hcs & Hk).
      assert (exists r, inside (x :: t) ++ cl :: rest = c :: r) as (r & Hr).
      { destruct t; [cbn [map separated]|rewrite inside_cons]; rewrite Hc; eexists; reflexivity. }
      assert (i_after s1 = [] ++ c :: r) as Ha1 by exact Hr.
      rewrite (extract_char_at (Some op) s1 [] c r Hg1 Ha1 eq_refl Hcs). unfold read_var at 1.
      assert (c <> cl) as Hccl.
      { intros ->. destruct Hk as [Hk|Hk]; [congruence|]. specialize (Hm Hk). rewrite Hk in Hc. apply int_text_minus in Hc. lia. }
      rewrite (eqb_neq c cl Hccl). unfold bind at 1. unfold bind at 1. rewrite (putback_last s1 [] c r Hg1). unfold ret. cbv beta iota.
      set (s2 := advance [] (c :: r) s1).
      destruct (loop_reads (x :: t) ltac:(discriminate) Hcl Hcd Hsc) with (s := s2) (fuel := S (S (length (i_after s2)))) (acc := @nil Z) (rest := rest) as (s' & E & H).
      + intros Hl. apply Hsep. destruct t; [cbn in Hl; lia|discriminate].
      + exact HF.
      + exact Hg.
      + cbn [i_after s2 advance]. now rewrite Hr.
      + cbn [i_after s2 advance]. rewrite <- Hr. clear. rewrite app_length. cbn [length].
        assert (length (x :: t) <= length (inside (x :: t))) as Hl.
        { revert x. induction t as [|y t IH]; intros x.
          - destruct (int_text_start x) as (c & u & Hc & _). cbn. rewrite Hc. cbn. lia.
          - rewrite inside_cons, app_length. specialize (IH y). cbn [length] in *. lia. }
        cbn [length] in Hl. lia.
      + exists s'. rewrite E. auto.
  Qed.
  Lemma read_back_only v s' : Forall (fun z => lo <= z <= hi)%Z v ->
    read_sequence rd op cl sep (of_text (o_text (write_sequence print_int op cl sep v (mkO [] false)))) = Ret v s' -> i_good s' = true ->
    delimits op cl sep v.
  Proof.
    intros HF. rewrite written. cbn [o_text app]. set (s := of_text _). assert (i_good s = true) as Hg by reflexivity.
    unfold read_sequence, bind at 1.
    destruct (is_space op) eqn:Hop.
    { destruct (extract_char_cases None s) as [[Hg' Hx]|[(_ & Hb & Hx)|(w & c & r & _ & Ha & Hw & Hc & Hx)]]; rewrite Hx; try discriminate.
      unfold read_var at 1. assert (c <> op) as Hn by (intros ->; congruence). rewrite (eqb_neq c op Hn). discriminate. }
    rewrite (extract_char_at None s [] op (inside v ++ [cl]) Hg eq_refl eq_refl Hop). unfold read_var at 1. rewrite Ascii.eqb_refl. cbn [negb].
    unfold bind at 1. set (s1 := advance ([] ++ [op]) (inside v ++ [cl]) s). assert (i_good s1 = true) as Hg1 by exact Hg.
    assert (forall fuel u s2 s3, loop fuel (Some sep) [] s2 = Ret u s3 -> u <> [] -> is_space cl = false /\ sep <> cl) as Hcl.
    { intros fuel u s2 s3 E Hu. assert (sep <> cl) as Hsc.
      { intros ->. destruct fuel; [discriminate|]. cbn [read_loop] in E. unfold read_var in E. rewrite Ascii.eqb_refl in E. unfold ret in E. congruence. }
      split; [|exact Hsc]. eapply loop_closing; eauto. }
    destruct v as [|x t].
    - destruct (is_space cl) eqn:Hc.
      + destruct (extract_char_cases (Some op) s1) as [[Hg' _]|[(_ & Hb & Hx)|(w & c & r & _ & Ha & Hw & Hc' & _)]]; [congruence| |].
        2:{ cbn in Ha. assert (In c [cl]) as Hin by (rewrite Ha; apply in_or_app; right; left; reflexivity). destruct Hin as [<-|[]]. congruence. }
        rewrite Hx. unfold read_var at 1. assert (op <> cl) as Hn by (intros ->; congruence). rewrite (eqb_neq op cl Hn). unfold bind at 1. unfold bind at 1.
        cbn. destruct (Ascii.eqb_spec sep cl) as [->|Hsc].
        * unfold ret. intros E Hgs. injection E as <-. discriminate.
        * rewrite Ascii.eqb_refl. discriminate.
      + intros _ _. split; [exact Hop|]. split; [exact Hc|exact I].
    - destruct (int_text_start x) as (c & u & Hc & Hcs & Hk).
      assert (exists r, inside (x :: t) ++ [cl] = c :: r) as (r & Hr).
      { destruct t; [cbn [map separated]|rewrite inside_cons]; rewrite Hc; eexists; reflexivity. }
      assert (i_after s1 = [] ++ c :: r) as Ha1 by exact Hr.
      rewrite (extract_char_at (Some op) s1 [] c r Hg1 Ha1 eq_refl Hcs). unfold read_var at 1. destruct (Ascii.eqb_spec c cl) as [->|Hccl].
      { unfold ret at 1, bind. cbn [read_loop]. unfold read_var. rewrite Ascii.eqb_refl. discriminate. }
      unfold bind at 1. unfold bind at 1. rewrite (putback_last s1 [] c r Hg1). unfold ret. cbv beta iota.
      set (s2 := advance [] (c :: r) s1). assert (i_good s2 = true) as Hg2 by exact Hg. intros E _.
      assert (i_after s2 = inside (x :: t) ++ [cl]) as Ha2 by (symmetry; exact Hr).
      destruct (Hcl _ _ _ _ E ltac:(discriminate)) as [Hcl' Hsc].
      assert (t <> [] -> is_space sep = false /\ is_digit sep = false) as Hsep.
      { intros Ht. destruct t as [|y t]; [congruence|]. split.
        - destruct (is_space sep) eqn:Hss; [|reflexivity]. inversion_clear HF as [|? ? Hx _].
          apply (loop_blank x y t) in E; auto. discriminate.
        - destruct (is_digit sep) eqn:Hsd; [|reflexivity]. apply (loop_digit x y t) in E; auto. cbn in E. lia. }
      split; [exact Hop|]. split; [exact Hcl'|]. split; [|split; [exact Hsc|split; [|exact Hsep]]].
      + destruct (is_digit cl) eqn:Hcd; [|reflexivity]. exfalso.
        refine (loop_closing_digit (x :: t) _ Hcd Hsc _ HF s2 _ [] _ s' Hg2 Ha2 E); [discriminate|].
        intros Hl. apply Hsep. destruct t; [cbn in Hl; lia|discriminate].
      + intros Hm. destruct (Z.ltb_spec x 0); [|assumption]. destruct (int_text_neg x) as (u' & Hu'); [assumption|]. congruence.
  Qed.

  Lemma read_back_blank v x y s : is_space op = false -> is_space sep = true -> is_digit cl = false -> is_space cl = false -> cl <> "-"%char ->
    (lo <= x <= hi)%Z -> i_good s = true ->
    i_after s = o_text (write_sequence print_int op cl sep (x :: y :: v) (mkO [] false)) ->
    exists s', read_sequence rd op cl sep s = Exc EIosFailure s'.
  Proof.
    intros Hop Hss Hcd Hcl Hm Hx Hg Ha. rewrite written in Ha. cbn [o_text app] in Ha.
    unfold read_sequence, bind at 1. rewrite (extract_char_at None s [] op _ Hg Ha eq_refl Hop). unfold read_var at 1. rewrite Ascii.eqb_refl. cbn [negb].
    unfold bind at 1. set (s1 := advance ([] ++ [op]) (inside (x :: y :: v) ++ [cl]) s). assert (i_good s1 = true) as Hg1 by exact Hg.
    destruct (int_text_start x) as (c & u & Hc & Hcs & Hk).
    assert (exists r, inside (x :: y :: v) ++ [cl] = c :: r) as (r & Hr) by (rewrite inside_cons, Hc; eexists; reflexivity).
    assert (i_after s1 = [] ++ c :: r) as Ha1 by exact Hr.
    rewrite (extract_char_at (Some op) s1 [] c r Hg1 Ha1 eq_refl Hcs). unfold read_var at 1.
    assert (c <> cl) as Hccl by (intros ->; destruct Hk; congruence).
    rewrite (eqb_neq c cl Hccl). unfold bind at 1. unfold bind at 1. rewrite (putback_last s1 [] c r Hg1). unfold ret. cbv beta iota.
    set (s2 := advance [] (c :: r) s1). assert (i_good s2 = true) as Hg2 by exact Hg.
    assert (sep <> cl) as Hsc by (intros ->; congruence).
    assert (i_after s2 = int_text x ++ sep :: inside (y :: v) ++ [cl]) as Ha2.
    { cbn [i_after s2 advance]. rewrite <- Hr, inside_cons, <- app_assoc. reflexivity. }
    assert (is_digit sep = false) as Hsd. { destruct (is_digit sep) eqn:E; [|reflexivity]. apply digit_not_space in E. congruence. }
    destruct (turn (S (length (i_after s2))) [] s2 x sep _ Hsc Hg2 Hx Ha2 Hsd) as (s3 & Hg3 & Ha3 & ->). unfold bind.
    destruct (int_text_start y) as (c' & u' & Hc' & Hcs' & Hk').
    assert (exists r', inside (y :: v) ++ [cl] = c' :: r') as (r' & Hr').
    { destruct v; [cbn [map separated]|rewrite inside_cons]; rewrite Hc'; eexists; reflexivity. }
    rewrite Hr' in Ha3. rewrite (extract_char_at (Some sep) s3 [sep] c' r' Hg3 Ha3); [| |exact Hcs'].
    - cbn [read_loop]. unfold read_var. assert (c' <> cl) as H1 by (intros ->; destruct Hk'; congruence).
      assert (c' <> sep) as H2 by (intros ->; congruence). rewrite (eqb_neq c' cl H1), (eqb_neq c' sep H2).
      destruct (i_eof _); eexists; reflexivity.
    - unfold blank. cbn. now rewrite Hss.
  Qed.
End Delims.
