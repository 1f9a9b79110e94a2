(** StlioProofs.v -- lemmas about StreamModel and StlioModel. *)
From Verif Require Import Base StreamModel StlioModel StlioSpec.
From Coq Require DecimalFacts DecimalZ DecimalPos DecimalN.

(** ** Streams *)
Lemma span_spec p t : forall a b, span p t = (a, b) ->
  t = a ++ b /\ forallb p a = true /\ (b = [] \/ exists c r, b = c :: r /\ p c = false).
Proof.
  induction t as [|c r IH]; simpl; intros a b H.
  - injection H as <- <-. auto.
  - destruct (p c) eqn:Hc.
    + destruct (span p r) as [a' b'] eqn:Hs. injection H as <- <-.
      destruct (IH a' b' eq_refl) as (-> & Ha & Hb). split; [reflexivity|]. split; [simpl; rewrite Hc; exact Ha|exact Hb].
    + injection H as <- <-. split; [reflexivity|]. split; [reflexivity|]. right. eauto.
Qed.
Lemma span_app p a b : forallb p a = true -> (b = [] \/ exists c r, b = c :: r /\ p c = false) ->
  span p (a ++ b) = (a, b).
Proof.
  intros Ha Hb. induction a as [|c a IH]; simpl in *.
  - destruct Hb as [->|(c & r & -> & Hc)]; simpl; [reflexivity|]. rewrite Hc. reflexivity.
  - apply andb_true_iff in Ha as [Hc Ha]. rewrite Hc, (IH Ha). reflexivity.
Qed.

Lemma moved_refl s : moved s [] s.
Proof. repeat split. Qed.
Lemma moved_trans s1 t1 s2 t2 s3 : moved s1 t1 s2 -> moved s2 t2 s3 -> moved s1 (t1 ++ t2) s3.
Proof.
  intros (H1 & H2 & H3) (H4 & H5 & H6). repeat split.
  - rewrite H1, H4, app_assoc. reflexivity.
  - rewrite H5, H2, rev_app_distr, app_assoc. reflexivity.
  - congruence.
Qed.
Lemma moved_advance s t r : i_after s = t ++ r -> moved s t (advance t r s).
Proof. intros H. repeat split. exact H. Qed.
Lemma moved_length s t s' : moved s t s' -> length (i_after s) = length t + length (i_after s').
Proof. intros (H & _). rewrite H, app_length. reflexivity. Qed.
Lemma moved_set_fail s t s' : moved s t s' -> moved s t (set_fail s').
Proof. intros H. exact H. Qed.
Lemma moved_if_eof s t s' : moved s t s' -> moved s t (if_eof s').
Proof. intros H. unfold if_eof. destruct (i_after s'); exact H. Qed.
Lemma good_advance t r s : i_good (advance t r s) = i_good s.
Proof. reflexivity. Qed.
Lemma failed_good s : i_failed s = true -> i_good s = false.
Proof. unfold i_good, i_failed. destruct (i_eof s), (i_fail s), (i_bad s); simpl; congruence. Qed.
Lemma good_eof s : i_good s = true -> i_eof s = false /\ i_failed s = false.
Proof. unfold i_good, i_failed. destruct (i_eof s), (i_fail s), (i_bad s); simpl; auto; discriminate. Qed.

Lemma advance_advance t1 r1 t2 r2 s : advance t2 r2 (advance t1 r1 s) = advance (t1 ++ t2) r2 s.
Proof. unfold advance. simpl. rewrite rev_app_distr, app_assoc. reflexivity. Qed.

Lemma sentry_at s w c r : i_good s = true -> i_after s = w ++ c :: r -> blank w -> is_space c = false ->
  sentry false s = (true, advance w (c :: r) s).
Proof.
  intros Hg Ha Hw Hc. unfold sentry, skipws. rewrite Hg, Ha, (span_app is_space w (c :: r) Hw).
  - reflexivity.
  - right. eauto.
Qed.
(** the three outcomes of the skipping sentry *)
Lemma sentry_cases s :
  (i_good s = false /\ sentry false s = (false, set_fail s)) \/
  (i_good s = true /\ blank (i_after s) /\
     sentry false s = (false, set_fail (set_eof (advance (i_after s) [] s)))) \/
  (exists w c r, i_good s = true /\ i_after s = w ++ c :: r /\ blank w /\ is_space c = false /\
     sentry false s = (true, advance w (c :: r) s)).
Proof.
  destruct (i_good s) eqn:Hg.
  - destruct (span is_space (i_after s)) as [w b] eqn:Hs. destruct (span_spec _ _ _ _ Hs) as (Ha & Hw & Hb).
    destruct Hb as [->|(c & r & -> & Hc)].
    + right; left. rewrite app_nil_r in Ha. split; [reflexivity|]. split; [rewrite Ha; exact Hw|].
      unfold sentry, skipws. rewrite Hg, Hs. simpl. rewrite Ha. reflexivity.
    + right; right. exists w, c, r. repeat split; auto. apply sentry_at; assumption.
  - left. split; [reflexivity|]. unfold sentry. rewrite Hg. reflexivity.
Qed.

Lemma extract_char_at old s w c r : i_good s = true -> i_after s = w ++ c :: r -> blank w -> is_space c = false ->
  extract_char old s = Ret (Some c) (advance (w ++ [c]) r s).
Proof.
  intros Hg Ha Hw Hc. unfold extract_char. rewrite (sentry_at s w c r Hg Ha Hw Hc).
  cbn [i_after advance]. rewrite <- (advance_advance w (c :: r) [c] r s). reflexivity.
Qed.
Lemma extract_char_cases old s :
  (i_good s = false /\ extract_char old s = Ret old (set_fail s)) \/
  (i_good s = true /\ blank (i_after s) /\
     extract_char old s = Ret old (set_fail (set_eof (advance (i_after s) [] s)))) \/
  (exists w c r, i_good s = true /\ i_after s = w ++ c :: r /\ blank w /\ is_space c = false /\
     extract_char old s = Ret (Some c) (advance (w ++ [c]) r s)).
Proof.
  destruct (sentry_cases s) as [[Hg Hs]|[(Hg & Hb & Hs)|(w & c & r & Hg & Ha & Hw & Hc & Hs)]].
  - left. split; [exact Hg|]. unfold extract_char. rewrite Hs. reflexivity.
  - right; left. split; [exact Hg|]. split; [exact Hb|]. unfold extract_char. rewrite Hs. reflexivity.
  - right; right. exists w, c, r. repeat split; auto. apply extract_char_at; assumption.
Qed.

Lemma putback_last s w c r : i_good s = true ->
  putback c (advance (w ++ [c]) r s) = Ret tt (advance w (c :: r) s).
Proof.
  intros Hg. destruct s as [b a e f bd al]. unfold putback, sentry, clear_eof, advance, i_good in *. simpl in *.
  destruct e, f, bd; try discriminate. simpl. rewrite rev_app_distr. simpl. rewrite Ascii.eqb_refl. reflexivity.
Qed.

(** ** Printing *)
Lemma put_text_app t1 t2 o : put_text t2 (put_text t1 o) = put_text (t1 ++ t2) o.
Proof. unfold put_text. simpl. rewrite app_assoc. reflexivity. Qed.

Section Printing.
  Context {T : Type} (pr : T -> ostream -> ostream).
  (** the printed stream, item by item *)
  Definition tail_items (sep : text) (l : list T) (o : ostream) : ostream :=
    fold_left (fun o x => pr x (put_text sep o)) l o.
  Lemma print_loop_false op sep l : forall o, print_loop pr op sep false l o = (false, tail_items sep l o).
  Proof. induction l as [|x l IH]; intros o; simpl; [reflexivity|]. apply IH. Qed.
  Lemma write_loop_tail sep l : forall x o,
    write_loop pr sep (x :: l) o = tail_items [sep] l (pr x o).
  Proof. induction l as [|y l IH]; intros x o; [reflexivity|]. cbn [write_loop] in *. apply IH. Qed.
  Lemma print_with_cases op sep op' cl l o :
    print_with pr op sep op' cl l o =
    put_text cl (match l with [] => put_text op' o | x :: l' => tail_items sep l' (pr x (put_text op o)) end).
  Proof. unfold print_with. destruct l as [|x l]; [reflexivity|]. simpl. rewrite print_loop_false. reflexivity. Qed.
  Lemma write_sequence_is_print op cl sep l o :
    write_sequence pr op cl sep l o = print_with pr [op] [sep] [op] [cl] l o.
  Proof.
    rewrite print_with_cases. unfold write_sequence. destruct l as [|x l]; [reflexivity|].
    rewrite write_loop_tail. reflexivity.
  Qed.

  Lemma tail_items_plain txt sep l : plain pr txt -> forall o,
    tail_items sep l o = put_text (concat (map (fun x => sep ++ txt x) l)) o.
  Proof.
    intros Hp. induction l as [|x l IH]; intros o; simpl.
    - unfold put_text. rewrite app_nil_r. destruct o; reflexivity.
    - change (tail_items sep l (pr x (put_text sep o)) =
              put_text ((sep ++ txt x) ++ concat (map (fun y => sep ++ txt y) l)) o).
      rewrite IH, Hp, !put_text_app. f_equal. rewrite app_assoc. reflexivity.
  Qed.
  Lemma separated_cons sep x (l : list text) : separated sep (x :: l) = x ++ concat (map (fun y => sep ++ y) l).
  Proof.
    revert x; induction l as [|y l IH]; intros x.
    - simpl. rewrite app_nil_r. reflexivity.
    - change (separated sep (x :: y :: l)) with (x ++ sep ++ separated sep (y :: l)). rewrite IH. simpl.
      rewrite <- app_assoc. reflexivity.
  Qed.
  Lemma print_with_plain txt op sep op' cl l o : plain pr txt ->
    print_with pr op sep op' cl l o =
    put_text ((match l with [] => op' | _ => op end) ++ separated sep (map txt l) ++ cl) o.
  Proof.
    intros Hp. rewrite print_with_cases. destruct l as [|x l].
    - rewrite put_text_app. reflexivity.
    - rewrite (tail_items_plain txt) by exact Hp. rewrite Hp, !put_text_app. f_equal.
      cbn [map]. rewrite separated_cons, map_map, !app_assoc. reflexivity.
  Qed.
End Printing.

(** C34 *)
Lemma printing_formats (T : Type) (pr : T -> ostream -> ostream) (l : list T) (o : ostream) :
  print_array pr l o = write_sequence pr "[" "]" "," l o /\
  print_shared_array pr l o = write_sequence pr "[" "]" "," l o /\
  print_vector pr l o = write_sequence pr "[" "]" "," l o /\
  print_list pr l o = write_sequence pr "[" "]" "," l o /\
  print_set pr l o = write_sequence pr "{" "}" "," l o /\
  (forall txt, plain pr txt ->
     print_vector pr l o = put_text (chars "[" ++ separated (chars ",") (map txt l) ++ chars "]") o /\
     print_set pr l o = put_text (chars "{" ++ separated (chars ",") (map txt l) ++ chars "}") o).
Proof.
  repeat match goal with |- _ /\ _ => split end; try (symmetry; apply write_sequence_is_print); try reflexivity.
  intros txt Hp. split.
  - unfold print_vector. rewrite (print_with_plain pr txt) by exact Hp. destruct l; reflexivity.
  - unfold print_set. rewrite (print_with_plain pr txt) by exact Hp. destruct l; reflexivity.
Qed.
Lemma map_printing (K V : Type) prk prv (tk : K -> text) (tv : V -> text) (m : list (K * V)) o :
  plain prk tk -> plain prv tv ->
  print_map prk prv m o =
    put_text (chars "{" ++ (match m with [] => [] | _ => chars " " end) ++
              separated (chars ", ") (map (fun e => tk (fst e) ++ chars ":" ++ tv (snd e)) m) ++ chars " }") o /\
  forall op cl sep de,
  write_map_sequence prk prv op cl sep de m o =
    put_text ([op] ++ separated [sep] (map (fun e => tk (fst e) ++ [de] ++ tv (snd e)) m) ++ [cl]) o.
Proof.
  intros Hk Hv. split.
  - unfold print_map. rewrite (print_with_plain _ (fun e => tk (fst e) ++ chars ":" ++ tv (snd e))).
    + destruct m; reflexivity.
    + intros e o'. unfold print_item. rewrite Hv, Hk, !put_text_app. reflexivity.
  - intros op cl sep de. unfold write_map_sequence. rewrite write_sequence_is_print.
    rewrite (print_with_plain _ (fun e => tk (fst e) ++ [de] ++ tv (snd e))).
    + destruct m; reflexivity.
    + intros e o'. unfold print_item. rewrite Hv, Hk, !put_text_app. reflexivity.
Qed.

Lemma write_tuple_prefix tup n : forall o, 0 < n <= length tup ->
  exists o', write_tuple tup n o = Some o' /\
    o' = match firstn n tup with
         | [] => o
         | f :: l => fold_left (fun o g => g (put_text (chars ",") o)) l (f o)
         end.
Proof.
  induction n as [|n IH]; intros o Hn; [lia|].
  destruct (nth_error tup n) as [f|] eqn:Hf; [|apply nth_error_None in Hf; lia].
  destruct n as [|n].
  - destruct tup as [|g tup]; [discriminate|]. injection Hf as ->. eexists. split; reflexivity.
  - destruct (IH o ltac:(lia)) as (o1 & H1 & Ho1). exists (f (put_text (chars ",") o1)). split.
    + change (match write_tuple tup (S n) o with
              | Some o1 => option_map (fun f : ostream -> ostream => f (put_text (chars ",") o1)) (nth_error tup (S n))
              | None => None
              end = Some (f (put_text (chars ",") o1))). rewrite H1, Hf. reflexivity.
    + destruct tup as [|g tup]; [discriminate|]. simpl in Hf. simpl in Ho1.
      change (firstn (S (S n)) (g :: tup)) with (g :: firstn (S n) tup). cbv iota beta.
      assert (Hfn : firstn (S n) tup = firstn n tup ++ [f]).
      { clear -Hf. revert tup Hf; induction n as [|n IH]; intros [|h t] Hf; try discriminate.
        - injection Hf as ->. reflexivity.
        - change (firstn (S (S n)) (h :: t)) with (h :: firstn (S n) t). rewrite (IH t Hf). reflexivity. }
      rewrite Hfn, fold_left_app. simpl. rewrite Ho1. reflexivity.
Qed.
Lemma tuple_printing (comps : list text) : comps <> [] ->
  (forall o, print_tuple (map put_text comps) o =
    Some (put_text (chars "(" ++ separated (chars ",") comps ++ chars ")") o)) /\
  (forall A B (pa : A -> ostream -> ostream) pb (a : A) (b : B) ta tb o,
     pa a = put_text ta -> pb b = put_text tb ->
     print_pair pa pb (a, b) o = put_text (chars "(" ++ separated (chars ",") [ta; tb] ++ chars ")") o).
Proof.
  intros Hne. split.
  - intros o. unfold print_tuple.
    destruct (write_tuple_prefix (map put_text comps) (length (map put_text comps)) (put_text (chars "(") o))
      as (o' & H1 & Ho').
    { split; [|lia]. destruct comps; [congruence|]. simpl. lia. }
    rewrite H1. simpl. f_equal. rewrite firstn_all in Ho'. destruct comps as [|x l]; [congruence|].
    cbn [map] in Ho'. rewrite Ho', separated_cons.
    assert (Hf : forall l o1, fold_left (fun o g => g (put_text (chars ",") o)) (map put_text l) o1 =
              put_text (concat (map (fun y => chars "," ++ y) l)) o1).
    { clear. induction l as [|y l IH]; intros o1.
      - simpl. unfold put_text. rewrite app_nil_r. destruct o1; reflexivity.
      - cbn [map fold_left concat]. rewrite IH, !put_text_app. f_equal. }
    rewrite Hf, !put_text_app, !app_assoc. reflexivity.
  - intros A B pa pb a b ta tb o Ha Hb. unfold print_pair. cbn [fst snd]. rewrite Ha, Hb, !put_text_app.
    f_equal. simpl. rewrite <- ?app_assoc. reflexivity.
Qed.

(** ** Reading a laid-out list *)
Lemma reads_as_weaken {T} (rd : M istream T) alpha (fol fol' : ascii -> bool) x t :
  (forall c, fol' c = true -> fol c = true) -> reads_as rd alpha fol x t -> reads_as rd alpha fol' x t.
Proof. intros Hf [H1 H2]. split; [exact H1|]. intros s w c r Hg Hal Hw Ha Hc. eauto. Qed.

Section RoundTrip.
  Context {T : Type} (rd : M istream T) (txt : T -> text) (fol : ascii -> bool) (op cl sep : ascii) (alpha : bool).
  Hypothesis Hop : is_space op = false.
  Hypothesis Hcl : is_space cl = false.
  Hypothesis Hsep : is_space sep = false.
  Hypothesis Hsc : sep <> cl.
  Definition readable (x : T) : Prop :=
    reads_as rd alpha fol x (txt x) /\ forall t', txt x <> cl :: t'.

  Lemma eqb_neq (a b : ascii) : a <> b -> Ascii.eqb a b = false.
  Proof. apply Ascii.eqb_neq. Qed.

  Lemma body_nonempty v u : body txt fol cl sep v u -> u <> [].
  Proof. intros []; destruct w, (txt x), w'; discriminate. Qed.

  Lemma read_body v u : body txt fol cl sep v u -> Forall readable v ->
    forall s rest fuel acc, i_good s = true -> i_boolalpha s = alpha -> i_after s = u ++ rest ->
      length v + 1 <= fuel ->
      exists s', read_loop rd cl sep fuel (Some sep) acc s = Ret (acc ++ v) s' /\ i_good s' = true /\ moved s u s'.
  Proof.
    intros Hb. induction Hb as [x w w' Hw Hw' Hf|x w w' v u Hw Hw' Hf Hb IH];
      intros Hr s rest fuel acc Hg Hal Ha Hfuel; inversion Hr as [|? ? [Hx Hxc] Hv]; subst;
      (destruct fuel as [|fuel]; [simpl in Hfuel; lia|]);
      cbn [read_loop]; unfold read_var; rewrite (eqb_neq sep cl Hsc);
      destruct (good_eof s Hg) as [He _]; rewrite He, Ascii.eqb_refl; cbn [negb]; unfold bind at 1.
    - destruct Hx as [_ Hx]. destruct Hf as (c & t' & Hct & Hfc).
      rewrite <- !app_assoc in Ha. cbn [app] in Ha.
      assert (Hfl : exists r, i_after s = w ++ txt x ++ c :: r /\ w' ++ cl :: rest = c :: r).
      { exists (t' ++ rest). rewrite Ha. replace (w' ++ cl :: rest) with ((w' ++ [cl]) ++ rest)
          by (rewrite <- app_assoc; reflexivity). rewrite Hct. split; reflexivity. }
      destruct Hfl as (r & Hfl & Hwr).
      destruct (Hx s w c r Hg Hal Hw Hfl Hfc) as (s1 & Hrd & Hg1 & Hm1). rewrite Hrd.
      destruct (good_eof s1 Hg1) as [_ Hf1]. rewrite Hf1. unfold bind.
      assert (Ha1 : i_after s1 = w' ++ cl :: rest).
      { destruct Hm1 as (Hm1 & _). rewrite Hfl, app_assoc in Hm1. apply app_inv_head in Hm1. congruence. }
      rewrite (extract_char_at _ s1 w' cl rest Hg1 Ha1 Hw' Hcl).
      destruct fuel as [|fuel]; [simpl in Hfuel; lia|]. cbn [read_loop]. unfold read_var. rewrite Ascii.eqb_refl.
      unfold ret. eexists. split; [reflexivity|]. split; [exact Hg1|].
      replace (w ++ txt x ++ w' ++ [cl]) with ((w ++ txt x) ++ w' ++ [cl]) by (rewrite <- app_assoc; reflexivity).
      eapply moved_trans; [exact Hm1|]. apply moved_advance. rewrite Ha1, <- app_assoc. reflexivity.
    - destruct Hx as [_ Hx]. destruct Hf as (c & t' & Hct & Hfc).
      rewrite <- !app_assoc in Ha. cbn [app] in Ha.
      assert (Hfl : exists r, i_after s = w ++ txt x ++ c :: r /\ w' ++ sep :: u ++ rest = c :: r).
      { exists (t' ++ u ++ rest). rewrite Ha. replace (w' ++ sep :: u ++ rest) with ((w' ++ [sep]) ++ u ++ rest)
          by (rewrite <- app_assoc; reflexivity). rewrite Hct. split; reflexivity. }
      destruct Hfl as (r & Hfl & Hwr).
      destruct (Hx s w c r Hg Hal Hw Hfl Hfc) as (s1 & Hrd & Hg1 & Hm1). rewrite Hrd.
      destruct (good_eof s1 Hg1) as [_ Hf1]. rewrite Hf1. unfold bind.
      assert (Ha1 : i_after s1 = w' ++ sep :: u ++ rest).
      { destruct Hm1 as (Hm1 & _). rewrite Hfl, app_assoc in Hm1. apply app_inv_head in Hm1. congruence. }
      rewrite (extract_char_at _ s1 w' sep (u ++ rest) Hg1 Ha1 Hw' Hsep).
      destruct (IH Hv (advance (w' ++ [sep]) (u ++ rest) s1) rest fuel (acc ++ [x])) as (s2 & H2 & Hg2 & Hm2).
      + exact Hg1.
      + cbn [i_boolalpha advance]. destruct Hm1 as (_ & _ & ->). exact Hal.
      + reflexivity.
      + simpl in Hfuel. lia.
      + exists s2. rewrite H2, <- app_assoc. split; [reflexivity|]. split; [exact Hg2|].
        replace (w ++ txt x ++ w' ++ sep :: u) with ((w ++ txt x) ++ (w' ++ [sep]) ++ u)
          by (rewrite <- !app_assoc; reflexivity).
        eapply moved_trans; [exact Hm1|]. eapply moved_trans; [|exact Hm2]. apply moved_advance.
        rewrite Ha1, <- app_assoc. reflexivity.
  Qed.

  Lemma body_length v u : body txt fol cl sep v u -> Forall readable v -> length v <= length u.
  Proof.
    intros Hb. induction Hb as [x w w' Hw Hw' Hf|x w w' v u Hw Hw' Hf Hb IH]; intros Hr;
      inversion Hr as [|? ? [[(c & t' & Hc & _) _] _] Hv]; subst; rewrite Hc, !app_length; simpl.
    - lia.
    - specialize (IH Hv). lia.
  Qed.

  Lemma read_laid_out v t : layout txt fol op cl sep v t -> Forall readable v ->
    forall s w rest, i_good s = true -> i_boolalpha s = alpha -> blank w -> i_after s = w ++ t ++ rest ->
      exists s', read_sequence rd op cl sep s = Ret v s' /\ i_good s' = true /\ moved s (w ++ t) s'.
  Proof.
    intros Hl Hr s w rest Hg Hal Hw Ha. unfold read_sequence, bind at 1.
    destruct Hl as [w1 Hw1|v u Hb].
    - rewrite (extract_char_at None s w op ((w1 ++ [cl]) ++ rest) Hg Ha Hw Hop).
      unfold read_var at 1. rewrite Ascii.eqb_refl. cbn [negb]. unfold bind at 1.
      rewrite (extract_char_at _ (advance (w ++ [op]) ((w1 ++ [cl]) ++ rest) s) w1 cl rest); [|exact Hg| |exact Hw1|exact Hcl].
      2:{ simpl. rewrite <- app_assoc. reflexivity. }
      unfold read_var at 1, bind. rewrite Ascii.eqb_refl. unfold ret at 1. cbn [read_loop]. unfold read_var.
      rewrite Ascii.eqb_refl. unfold ret. rewrite advance_advance. eexists. split; [reflexivity|]. split; [exact Hg|].
      replace (w ++ op :: w1 ++ [cl]) with ((w ++ [op]) ++ w1 ++ [cl]) by (rewrite <- app_assoc; reflexivity).
      apply moved_advance. rewrite Ha. simpl. rewrite <- !app_assoc. simpl. reflexivity.
    - rewrite (extract_char_at None s w op (u ++ rest) Hg Ha Hw Hop).
      unfold read_var at 1. rewrite Ascii.eqb_refl. cbn [negb]. unfold bind at 1.
      set (s1 := advance (w ++ [op]) (u ++ rest) s).
      assert (Hg1 : i_good s1 = true) by exact Hg.
      assert (Hfirst : exists w1 c u', u = w1 ++ c :: u' /\ blank w1 /\ is_space c = false /\ c <> cl).
      { destruct Hb as [x w0 w' Hw0 Hw' Hf|x w0 w' v u Hw0 Hw' Hf Hb];
          inversion Hr as [|? ? [[(c & t' & Hc & Hcs) _] Hncl] Hv]; subst;
          exists w0, c; rewrite Hc in *; eexists; (split; [reflexivity|]; split; [exact Hw0|]; split; [exact Hcs|]);
          intros ->; apply (Hncl t'); reflexivity. }
      destruct Hfirst as (w1 & c & u' & Hu & Hw1 & Hcs & Hcc).
      rewrite (extract_char_at _ s1 w1 c (u' ++ rest) Hg1); [| |exact Hw1|exact Hcs].
      2:{ subst s1. simpl. rewrite Hu, <- app_assoc. reflexivity. }
      unfold read_var at 1, bind. rewrite (eqb_neq c cl Hcc). rewrite (putback_last s1 w1 c (u' ++ rest) Hg1).
      unfold ret. cbv beta.
      (* the blanks before the first item are consumed by the test for an empty list *)
      assert (Hb' : body txt fol cl sep v (c :: u')).
      { destruct Hb as [x w0 w' Hw0 Hw' Hf|x w0 w' v u Hw0 Hw' Hf Hb];
          inversion Hr as [|? ? [[(c1 & t' & Hc & Hcs') _] Hncl] Hv]; subst.
        - assert (Hww : w0 = w1 /\ txt x ++ w' ++ [cl] = c :: u').
          { pose proof (span_app is_space w0 (txt x ++ w' ++ [cl]) Hw0) as S1. rewrite Hu in S1.
            rewrite (span_app is_space w1 (c :: u') Hw1) in S1 by eauto.
            rewrite Hc in *. simpl in S1. specialize (S1 (or_intror (ex_intro _ c1 (ex_intro _ _ (conj eq_refl Hcs'))))).
            injection S1 as H1 H2 H3. subst. auto. }
          destruct Hww as [_ <-]. apply (body_last txt fol cl sep x [] w'); auto. reflexivity.
        - assert (Hww : w0 = w1 /\ txt x ++ w' ++ sep :: u = c :: u').
          { pose proof (span_app is_space w0 (txt x ++ w' ++ sep :: u) Hw0) as S1. rewrite Hu in S1.
            rewrite (span_app is_space w1 (c :: u') Hw1) in S1 by eauto.
            rewrite Hc in *. simpl in S1. specialize (S1 (or_intror (ex_intro _ c1 (ex_intro _ _ (conj eq_refl Hcs'))))).
            injection S1 as H1 H2 H3. subst. auto. }
          destruct Hww as [_ <-]. apply (body_cons txt fol cl sep x [] w' v u); auto. reflexivity. }
      destruct (read_body v (c :: u') Hb' Hr (advance w1 (c :: u' ++ rest) s1) rest
                  (S (S (length (i_after (advance w1 (c :: u' ++ rest) s1))))) []) as (s2 & H2 & Hg2 & Hm2).
      + exact Hg1.
      + exact Hal.
      + reflexivity.
      + pose proof (body_length v _ Hb' Hr). simpl in *. rewrite app_length. lia.
      + exists s2. split; [exact H2|]. split; [exact Hg2|].
        replace (w ++ op :: u) with ((w ++ [op]) ++ w1 ++ c :: u') by (rewrite <- app_assoc, Hu; reflexivity).
        eapply moved_trans; [apply moved_advance; rewrite Ha, <- app_assoc; reflexivity|].
        fold s1. eapply moved_trans; [|exact Hm2]. apply moved_advance. subst s1. simpl.
        rewrite Hu, <- app_assoc. reflexivity.
  Qed.
End RoundTrip.

(** printed text is laid out without blanks *)
Lemma separated_body {T} (txt : T -> text) fol cl sep v : fol cl = true -> fol sep = true -> v <> [] ->
  body txt fol cl sep v (separated [sep] (map txt v) ++ [cl]).
Proof.
  intros Hc Hs Hv. induction v as [|x v IH]; [congruence|]. destruct v as [|y v].
  - simpl. apply (body_last txt fol cl sep x [] []); try reflexivity. exists cl, []. auto.
  - change (separated [sep] (map txt (x :: y :: v))) with (txt x ++ sep :: separated [sep] (map txt (y :: v))).
    rewrite <- app_assoc. apply (body_cons txt fol cl sep x [] []); try reflexivity.
    + exists sep, []. auto.
    + apply IH. discriminate.
Qed.
Lemma separated_layout {T} (txt : T -> text) fol op cl sep v : fol cl = true -> fol sep = true ->
  layout txt fol op cl sep v ([op] ++ separated [sep] (map txt v) ++ [cl]).
Proof.
  intros Hc Hs. destruct v as [|x v].
  - apply (layout_nil txt fol op cl sep []). reflexivity.
  - apply layout_body. apply separated_body; auto. discriminate.
Qed.

(** ** Integers *)
Lemma uint_text_digits d : forallb is_digit (uint_text d) = true.
Proof. induction d; simpl; auto. Qed.
Lemma digits_acc d : forall acc : positive,
  fold_left (fun a c => 10 * a + digit_value c)%Z (uint_text d) (Z.pos acc) = Z.pos (Pos.of_uint_acc d acc).
Proof.
  induction d; intros acc; [reflexivity|..]; cbn [uint_text fold_left Pos.of_uint_acc]; rewrite <- IHd; f_equal;
  vm_compute (digit_value _); lia.
Qed.
Lemma digits_uint d : digits_value (uint_text d) = Z.of_N (Pos.of_uint d).
Proof.
  unfold digits_value. induction d; [reflexivity|..]; cbn [uint_text fold_left Pos.of_uint];
    try exact IHd; apply (digits_acc d).
Qed.
Lemma int_text_ok z : exists sg ds, int_text z = sg ++ ds /\ ds <> [] /\ forallb is_digit ds = true /\
  (sg = [] /\ digits_value ds = z \/ sg = chars "-" /\ digits_value ds = (- z)%Z).
Proof.
  unfold int_text. pose proof (DecimalZ.of_to z) as Hz. unfold Z.of_int in Hz.
  assert (Hne : match Z.to_int z with Decimal.Pos d => d | Decimal.Neg d => d end <> Decimal.Nil).
  { destruct z as [|p|p]; simpl; [discriminate|..]; intros Hn; pose proof (DecimalPos.Unsigned.to_uint_nonnil p); contradiction. }
  destruct (Z.to_int z) as [d|d].
  - exists [], (uint_text d). split; [reflexivity|]. split; [destruct d; simpl; congruence|].
    split; [apply uint_text_digits|]. left. split; [reflexivity|]. rewrite digits_uint. exact Hz.
  - exists (chars "-"), (uint_text d). split; [reflexivity|]. split; [destruct d; simpl; congruence|].
    split; [apply uint_text_digits|]. right. split; [reflexivity|]. rewrite digits_uint.
    unfold Z.of_uint in Hz. lia.
Qed.
Lemma digit_cases c : is_digit c = true ->
  is_space c = false /\ Ascii.eqb c "-" = false /\ Ascii.eqb c "+" = false.
Proof. destruct c as [[] [] [] [] [] [] [] []]; vm_compute; intuition congruence. Qed.

Definition not_digit (c : ascii) : bool := negb (is_digit c).

Lemma read_int_ok lo hi alpha z : (lo <= z <= hi)%Z ->
  reads_as (read_int lo hi) alpha not_digit z (int_text z).
Proof.
  intros Hz. destruct (int_text_ok z) as (sg & ds & Ht & Hne & Hds & Hv). rewrite Ht.
  assert (Hstart : exists c t', sg ++ ds = c :: t' /\ is_space c = false).
  { destruct Hv as [[-> _]|[-> _]].
    - destruct ds as [|c ds]; [congruence|]. exists c, ds. split; [reflexivity|].
      simpl in Hds. apply andb_true_iff in Hds as [Hc _]. apply digit_cases in Hc. tauto.
    - exists "-"%char, ds. split; reflexivity. }
  split; [exact Hstart|]. intros s w c r Hg Hal Hw Ha Hc.
  destruct Hstart as (c0 & t' & Hst & Hc0).
  assert (Ha' : i_after s = w ++ c0 :: (t' ++ c :: r)) by (rewrite Ha, Hst; reflexivity).
  unfold read_int. rewrite (sentry_at s w c0 (t' ++ c :: r) Hg Ha' Hw Hc0). cbn [i_after advance].
  replace (c0 :: t' ++ c :: r) with (sg ++ ds ++ c :: r) by (rewrite app_assoc, Hst; reflexivity).
  assert (Hts : take_sign (sg ++ ds ++ c :: r) =
                (sg, match sg with [] => false | _ => true end, ds ++ c :: r)).
  { destruct Hv as [[-> _]|[-> _]]; [|reflexivity]. destruct ds as [|d ds]; [congruence|].
    simpl in Hds. apply andb_true_iff in Hds as [Hd _]. apply digit_cases in Hd as (_ & H1 & H2).
    simpl. rewrite H1, H2. reflexivity. }
  rewrite Hts. rewrite (span_app is_digit ds (c :: r) Hds).
  2:{ right. exists c, r. split; [reflexivity|]. apply negb_true_iff. exact Hc. }
  assert (Hval : (if match sg with [] => false | _ => true end then - digits_value ds else digits_value ds)%Z = z).
  { destruct Hv as [[-> Hv]|[-> Hv]]; simpl; lia. }
  cbv zeta. rewrite Hval. destruct ds as [|d ds]; [congruence|].
  destruct (Z.ltb_spec z lo); [lia|]. destruct (Z.ltb_spec hi z); [lia|].
  eexists. split; [reflexivity|]. unfold if_eof. cbn [i_after advance]. split; [exact Hg|].
  rewrite advance_advance. apply moved_advance. rewrite Ha, <- !app_assoc. reflexivity.
Qed.

Lemma int_text_first z : forall t' c, is_digit c = false -> c <> "-"%char -> int_text z <> c :: t'.
Proof.
  intros t' c Hc Hm H. destruct (int_text_ok z) as (sg & ds & Ht & Hne & Hds & Hv). rewrite Ht in H.
  destruct Hv as [[-> _]|[-> _]].
  - destruct ds as [|d ds]; [congruence|]. simpl in H. injection H as <- _. simpl in Hds. rewrite Hc in Hds. discriminate.
  - simpl in H. congruence.
Qed.

(** ** Booleans *)
Lemma read_name_ok name v s r : i_after s = name ++ r -> read_name name v s = Ret v (advance name r s).
Proof.
  intros Ha. unfold read_name. rewrite Ha.
  assert (Hm : match_name name (name ++ r) = (name, r, [])).
  { clear. induction name as [|n name IH]; simpl; [destruct r; reflexivity|].
    rewrite Ascii.eqb_refl, IH. reflexivity. }
  rewrite Hm. reflexivity.
Qed.
Lemma read_bool_ok alpha b : reads_as read_bool alpha not_digit b (bool_text alpha b).
Proof.
  split.
  - destruct alpha, b; do 2 eexists; (split; [reflexivity|reflexivity]).
  - intros s w c r Hg Hal Hw Ha Hc. destruct alpha.
    + assert (Hcase : exists c0 t', bool_text true b = c0 :: t' /\ is_space c0 = false) by (destruct b; do 2 eexists; split; reflexivity).
      destruct Hcase as (c0 & t' & Hbt & Hc0). unfold read_bool.
      rewrite (sentry_at s w c0 (t' ++ c :: r) Hg); [|rewrite Ha, Hbt; reflexivity|exact Hw|exact Hc0].
      set (s1 := advance w (c0 :: t' ++ c :: r) s). change (i_boolalpha s1) with (i_boolalpha s). rewrite Hal.
      change (i_after s1) with (c0 :: t' ++ c :: r). cbv iota beta.
      assert (Ha1 : i_after s1 = bool_text true b ++ c :: r) by (rewrite Hbt; reflexivity).
      exists (advance (bool_text true b) (c :: r) s1). split; [|split; [exact Hg|]].
      * destruct b; injection Hbt as <- <-; simpl Ascii.eqb; cbv iota; apply read_name_ok; exact Ha1.
      * subst s1. rewrite advance_advance. apply moved_advance. rewrite Ha, <- app_assoc. reflexivity.
    + set (z := if b then 1%Z else 0%Z).
      assert (Ht : bool_text false b = int_text z) by (destruct b; reflexivity).
      destruct (read_int_ok (- 2 ^ 63) (2 ^ 63 - 1) false z) as [_ Hi]; [destruct b; split; discriminate|].
      assert (Hcase : exists c0 t', bool_text false b = c0 :: t' /\ is_space c0 = false) by (destruct b; do 2 eexists; split; reflexivity).
      destruct Hcase as (c0 & t' & Hbt & Hc0). unfold read_bool.
      rewrite (sentry_at s w c0 (t' ++ c :: r) Hg); [|rewrite Ha, Hbt; reflexivity|exact Hw|exact Hc0].
      set (s1 := advance w (c0 :: t' ++ c :: r) s). change (i_boolalpha s1) with (i_boolalpha s). rewrite Hal.
      destruct (Hi s1 [] c r) as (s2 & H2 & Hg2 & Hm2); [exact Hg|exact Hal|reflexivity| |exact Hc|].
      { rewrite <- Ht, Hbt. reflexivity. }
      rewrite H2. exists s2. split; [destruct b; reflexivity|]. split; [exact Hg2|].
      eapply moved_trans; [|rewrite Ht; exact Hm2]. apply moved_advance. rewrite Ha, Hbt. reflexivity.
Qed.
Lemma bool_text_first alpha b t' : bool_text alpha b <> "]"%char :: t'.
Proof. destruct alpha, b; discriminate. Qed.

(** ** Strings *)
Definition plain_string (t : text) : Prop := t <> [] /\ forallb (fun c => negb (is_space c)) t = true.
Lemma read_string_ok alpha t : plain_string t -> reads_as read_string alpha is_space t t.
Proof.
  intros [Hne Hns]. destruct t as [|c0 t']; [congruence|].
  assert (Hc0 : is_space c0 = false).
  { simpl in Hns. apply andb_true_iff in Hns as [Hns _]. apply negb_true_iff. exact Hns. }
  split; [eauto|]. intros s w c r Hg Hal Hw Ha Hc. unfold read_string.
  rewrite (sentry_at s w c0 (t' ++ c :: r) Hg Ha Hw Hc0). cbn [i_after advance].
  change (c0 :: t' ++ c :: r) with ((c0 :: t') ++ c :: r).
  rewrite (span_app _ (c0 :: t') (c :: r) Hns).
  2:{ right. exists c, r. split; [reflexivity|]. rewrite Hc. reflexivity. }
  eexists. split; [reflexivity|]. split; [exact Hg|]. unfold if_eof. cbn [i_after advance].
  rewrite advance_advance. apply moved_advance. rewrite Ha, <- app_assoc. reflexivity.
Qed.

(** ** Round trips *)
Lemma list_follow_not_digit c : list_follow c = true -> not_digit c = true.
Proof. destruct c as [[] [] [] [] [] [] [] []]; vm_compute; congruence. Qed.

Lemma vector_round_trip {T} (rd : M istream T) (txt : T -> text) alpha v t :
  Forall (readable rd txt list_follow "]" alpha) v -> layout txt list_follow "[" "]" "," v t ->
  forall s w rest, i_good s = true -> i_boolalpha s = alpha -> blank w -> i_after s = w ++ t ++ rest ->
    exists s', read_vector rd s = Ret v s' /\ i_good s' = true /\ moved s (w ++ t) s' /\ i_after s' = rest.
Proof.
  intros Hr Hl s w rest Hg Hal Hw Ha.
  destruct (read_laid_out rd txt list_follow "[" "]" "," alpha eq_refl eq_refl eq_refl ltac:(discriminate) v t Hl Hr
              s w rest Hg Hal Hw Ha) as (s' & H1 & H2 & H3).
  exists s'. split; [exact H1|]. split; [exact H2|]. split; [exact H3|].
  destruct H3 as (H3 & _). rewrite Ha, app_assoc in H3. apply app_inv_head in H3. congruence.
Qed.
Lemma vector_reads_as {T} (rd : M istream T) (txt : T -> text) alpha v fol :
  Forall (readable rd txt list_follow "]" alpha) v ->
  reads_as (read_vector rd) alpha fol v (chars "[" ++ separated (chars ",") (map txt v) ++ chars "]").
Proof.
  intros Hr. split.
  - do 2 eexists. split; reflexivity.
  - intros s w c r Hg Hal Hw Ha _.
    destruct (vector_round_trip rd txt alpha v _ Hr (separated_layout txt list_follow "[" "]" "," v eq_refl eq_refl)
                s w (c :: r) Hg Hal Hw Ha) as (s' & H1 & H2 & H3 & _).
    exists s'. auto.
Qed.

Lemma int_readable lo hi alpha z : (lo <= z <= hi)%Z -> readable (read_int lo hi) int_text list_follow "]" alpha z.
Proof.
  intros Hz. split.
  - eapply reads_as_weaken; [exact list_follow_not_digit|]. apply read_int_ok. exact Hz.
  - intros t'. apply int_text_first; [reflexivity|discriminate].
Qed.
Lemma bool_readable alpha b : readable read_bool (bool_text alpha) list_follow "]" alpha b.
Proof.
  split.
  - eapply reads_as_weaken; [exact list_follow_not_digit|]. apply read_bool_ok.
  - intros t'. apply bool_text_first.
Qed.

Lemma int_round_trip lo hi (v : list Z) alpha t : Forall (fun z => lo <= z <= hi)%Z v ->
  layout int_text list_follow "[" "]" "," v t ->
  forall s w rest, i_good s = true -> i_boolalpha s = alpha -> blank w -> i_after s = w ++ t ++ rest ->
    exists s', read_vector (read_int lo hi) s = Ret v s' /\ i_good s' = true /\
      i_after s' = rest /\ i_before s' = rev (w ++ t) ++ i_before s.
Proof.
  intros Hv Hl s w rest Hg Hal Hw Ha.
  destruct (vector_round_trip (read_int lo hi) int_text alpha v t) with (s := s) (w := w) (rest := rest)
    as (s' & H1 & H2 & (_ & H3 & _) & H4); auto.
  - eapply Forall_impl; [|exact Hv]. intros z Hz. apply int_readable. exact Hz.
  - exists s'. auto.
Qed.
Lemma bool_round_trip (v : list bool) alpha t : layout (bool_text alpha) list_follow "[" "]" "," v t ->
  forall s w rest, i_good s = true -> i_boolalpha s = alpha -> blank w -> i_after s = w ++ t ++ rest ->
    exists s', read_vector read_bool s = Ret v s' /\ i_good s' = true /\
      i_after s' = rest /\ i_before s' = rev (w ++ t) ++ i_before s.
Proof.
  intros Hl s w rest Hg Hal Hw Ha.
  destruct (vector_round_trip read_bool (bool_text alpha) alpha v t) with (s := s) (w := w) (rest := rest)
    as (s' & H1 & H2 & (_ & H3 & _) & H4); auto.
  - apply Forall_forall. intros b _. apply bool_readable.
  - exists s'. auto.
Qed.

(** printed texts *)
Lemma print_int_text v o : print_vector print_int v o =
  put_text (chars "[" ++ separated (chars ",") (map int_text v) ++ chars "]") o.
Proof. apply (printing_formats Z print_int v o). intros x o'. reflexivity. Qed.
Lemma print_bool_text v o : print_vector print_bool v o =
  put_text (chars "[" ++ separated (chars ",") (map (bool_text (o_boolalpha o)) v) ++ chars "]") o.
Proof.
  unfold print_vector. rewrite print_with_cases.
  assert (Ht : forall l o1, o_boolalpha o1 = o_boolalpha o ->
    tail_items print_bool (chars ",") l o1 =
    put_text (concat (map (fun x => chars "," ++ bool_text (o_boolalpha o) x) l)) o1).
  { induction l as [|x l IH]; intros o1 Ho1.
    - simpl. unfold put_text. rewrite app_nil_r. destruct o1; reflexivity.
    - change (tail_items print_bool (chars ",") l (print_bool x (put_text (chars ",") o1)) =
              put_text ((chars "," ++ bool_text (o_boolalpha o) x) ++
                        concat (map (fun x => chars "," ++ bool_text (o_boolalpha o) x) l)) o1).
      rewrite IH by exact Ho1. unfold print_bool. cbn [o_boolalpha put_text]. rewrite Ho1, !put_text_app.
      rewrite <- !app_assoc. reflexivity. }
  destruct v as [|x v]; [rewrite put_text_app; reflexivity|].
  rewrite Ht by reflexivity. unfold print_bool. cbn [o_boolalpha put_text]. rewrite !put_text_app.
  cbn [map]. rewrite separated_cons, map_map, <- !app_assoc. reflexivity.
Qed.

Lemma printed_ints_read_back lo hi (v : list Z) alpha : Forall (fun z => lo <= z <= hi)%Z v ->
  forall s rest, i_good s = true -> i_boolalpha s = alpha ->
    i_after s = o_text (print_vector print_int v (mkO [] alpha)) ++ rest ->
    exists s', read_vector (read_int lo hi) s = Ret v s' /\ i_good s' = true /\ i_after s' = rest.
Proof.
  intros Hv s rest Hg Hal Ha. rewrite print_int_text in Ha.
  destruct (int_round_trip lo hi v alpha _ Hv (separated_layout int_text list_follow "[" "]" "," v eq_refl eq_refl)
     s [] rest Hg Hal eq_refl Ha) as (s' & H1 & H2 & H3 & _). exists s'. auto.
Qed.
Lemma printed_bools_read_back (v : list bool) alpha :
  forall s rest, i_good s = true -> i_boolalpha s = alpha ->
    i_after s = o_text (print_vector print_bool v (mkO [] alpha)) ++ rest ->
    exists s', read_vector read_bool s = Ret v s' /\ i_good s' = true /\ i_after s' = rest.
Proof.
  intros s rest Hg Hal Ha. rewrite print_bool_text in Ha.
  destruct (bool_round_trip v alpha _ (separated_layout (bool_text alpha) list_follow "[" "]" "," v eq_refl eq_refl)
     s [] rest Hg Hal eq_refl Ha) as (s' & H1 & H2 & H3 & _). exists s'. auto.
Qed.

(** nested lists of any depth *)
Fixpoint nest_text (n : nat) : nest n -> text :=
  match n with
  | O => int_text
  | S m => fun l => chars "[" ++ separated (chars ",") (map (nest_text m) l) ++ chars "]"
  end.
Lemma nest_print_text n : plain (nest_print n) (nest_text n).
Proof.
  induction n as [|n IH]; intros x o; [reflexivity|].
  change (print_vector (nest_print n) x o = put_text (nest_text (S n) x) o).
  apply (printing_formats (nest n) (nest_print n) x o). exact IH.
Qed.
Lemma nest_readable lo hi alpha n : forall x, nest_ok lo hi n x ->
  readable (nest_read lo hi n) (nest_text n) list_follow "]" alpha x.
Proof.
  induction n as [|n IH]; intros x Hx.
  - apply int_readable. exact Hx.
  - split; [|intros t'; discriminate]. apply (vector_reads_as (nest_read lo hi n) (nest_text n) alpha x list_follow).
    eapply Forall_impl; [|exact Hx]. exact IH.
Qed.
Lemma printed_nests_read_back lo hi n (v : list (nest n)) alpha : nest_ok lo hi (S n) v ->
  forall s rest, i_good s = true -> i_boolalpha s = alpha ->
    i_after s = o_text (nest_print (S n) v (mkO [] alpha)) ++ rest ->
    exists s', nest_read lo hi (S n) s = Ret v s' /\ i_good s' = true /\ i_after s' = rest.
Proof.
  intros Hv s rest Hg Hal Ha. rewrite (nest_print_text (S n)) in Ha.
  destruct (vector_round_trip (nest_read lo hi n) (nest_text n) alpha v _
     (Forall_impl _ (nest_readable lo hi alpha n) Hv)
     (separated_layout (nest_text n) list_follow "[" "]" "," v eq_refl eq_refl)
     s [] rest Hg Hal eq_refl Ha) as (s' & H1 & H2 & _ & H3). exists s'. auto.
Qed.

(** ** Strings do not read back *)
Lemma list_string_plain t : list_string t -> forallb (fun c => negb (is_space c)) t = true.
Proof.
  intros [_ H]. rewrite forallb_forall in *. intros c Hc. specialize (H c Hc).
  destruct (is_space c); [discriminate|reflexivity].
Qed.

Lemma strings_throw (v : list text) s : v <> [] -> Forall list_string v -> i_good s = true ->
  i_after s = o_text (print_vector print_string v (mkO [] false)) ->
  exists s', read_vector read_string s = Exc EIosFailure s'.
Proof.
  intros Hne Hv Hg Ha.
  assert (Hp : print_vector print_string v (mkO [] false) =
    put_text (chars "[" ++ separated (chars ",") (map (fun t => t) v) ++ chars "]") (mkO [] false)).
  { apply (printing_formats text print_string v (mkO [] false)). intros x o. reflexivity. }
  rewrite Hp in Ha. cbn [o_text put_text app chars String.list_ascii_of_string] in Ha.
  rewrite map_id in Ha. change ([","%char]) with (chars ",") in Ha.
  set (u := separated (chars ",") v ++ ["]"%char]) in *.
  assert (Hu : forallb (fun c => negb (is_space c)) u = true).
  { subst u. rewrite forallb_app. simpl. rewrite andb_true_r. clear -Hv. induction v as [|x v IH]; [reflexivity|].
    inversion Hv as [|? ? Hx Hv']; subst. apply list_string_plain in Hx. specialize (IH Hv').
    destruct v as [|y v]; [exact Hx|].
    change (separated [","%char] (x :: y :: v)) with (x ++ [","%char] ++ separated [","%char] (y :: v)).
    rewrite !forallb_app, Hx, IH. reflexivity. }
  assert (Hc : exists c u', u = c :: u' /\ c <> "]"%char).
  { subst u. destruct v as [|x v]; [congruence|]. inversion Hv as [|? ? [Hxn Hx] Hv']; subst.
    destruct x as [|c x]; [congruence|]. simpl in Hx. apply andb_true_iff in Hx as [Hx _].
    rewrite separated_cons. do 2 eexists. split; [reflexivity|]. intros ->. discriminate. }
  destruct Hc as (c & u' & Huc & Hcc). rewrite Huc in *.
  assert (Hcs : is_space c = false).
  { simpl in Hu. apply andb_true_iff in Hu as [Hu _]. apply negb_true_iff. exact Hu. }
  unfold read_vector, read_sequence, bind at 1.
  rewrite (extract_char_at None s [] "[" (c :: u') Hg Ha eq_refl eq_refl).
  unfold read_var at 1. rewrite Ascii.eqb_refl. cbn [negb]. unfold bind at 1.
  set (s1 := advance ([] ++ ["["%char]) (c :: u') s).
  assert (Hg1 : i_good s1 = true) by exact Hg.
  rewrite (extract_char_at _ s1 [] c u' Hg1 eq_refl eq_refl Hcs).
  unfold read_var at 1, bind at 1. rewrite (proj2 (Ascii.eqb_neq c "]") Hcc).
  unfold bind at 1. rewrite (putback_last s1 [] c u' Hg1). unfold ret at 1.
  set (s2 := advance [] (c :: u') s1). assert (Hg2 : i_good s2 = true) by exact Hg.
  cbn [read_loop]. unfold read_var at 1. change (Ascii.eqb "," "]") with false. cbv iota.
  destruct (good_eof s2 Hg2) as [He2 _]. rewrite He2. change (negb (Ascii.eqb "," ",")) with false. cbv iota.
  unfold bind at 1.
  assert (Hrd : read_string s2 = Ret (c :: u') (set_eof (advance (c :: u') [] s2))).
  { unfold read_string. rewrite (sentry_at s2 [] c u' Hg2 eq_refl eq_refl Hcs). cbn [i_after advance].
    rewrite <- (app_nil_r (c :: u')) at 1. rewrite (span_app _ (c :: u') [] Hu) by auto.
    unfold if_eof. cbn [i_after advance]. reflexivity. }
  rewrite Hrd. unfold i_failed at 1. cbn [i_fail i_bad set_eof advance].
  assert (Hf2 : i_fail s2 || i_bad s2 = false) by (apply good_eof; exact Hg2).
  change (i_fail s) with (i_fail s2). change (i_bad s) with (i_bad s2). rewrite Hf2. unfold bind at 1.
  set (s3 := set_eof (advance (c :: u') [] s2)).
  assert (Hex : extract_char (Some ","%char) s3 = Ret (Some ","%char) (set_fail s3)).
  { unfold extract_char, sentry. unfold i_good. change (i_eof s3) with true. reflexivity. }
  rewrite Hex. cbn [read_loop length i_after advance s2]. unfold read_var.
  change (Ascii.eqb "," "]") with false. cbv iota. change (i_eof (set_fail s3)) with true. cbv iota.
  eexists. reflexivity.
Qed.

Lemma spaced_strings_read_back (v : list text) t : Forall list_string v ->
  layout (fun t => t) is_space "[" "]" "," v t ->
  forall s w rest, i_good s = true -> blank w -> i_after s = w ++ t ++ rest ->
    exists s', read_vector read_string s = Ret v s' /\ i_good s' = true /\ i_after s' = rest.
Proof.
  intros Hv Hl s w rest Hg Hw Ha.
  destruct (read_laid_out read_string (fun t => t) is_space "[" "]" "," (i_boolalpha s) eq_refl eq_refl eq_refl
              ltac:(discriminate) v t Hl) with (s := s) (w := w) (rest := rest) as (s' & H1 & H2 & H3); auto.
  - eapply Forall_impl; [|exact Hv]. intros x Hx. split.
    + apply read_string_ok. split; [apply Hx|apply list_string_plain; exact Hx].
    + intros t' ->. destruct Hx as [_ Hx]. discriminate.
  - exists s'. split; [exact H1|]. split; [exact H2|].
    destruct H3 as (H3 & _). rewrite Ha, app_assoc in H3. apply app_inv_head in H3. congruence.
Qed.

(** ** Arbitrary input *)
Section AnyInput.
  Context {T : Type} (rd : M istream T) (op cl sep : ascii).
  Hypothesis Htame : tame rd.
  Hypothesis Hcl : is_space cl = false.
  Hypothesis Hoc : op <> cl.
  Hypothesis Hsc : sep <> cl.

  Lemma read_loop_total fuel : forall s ch acc,
    (if i_eof s then 1 else 2 + length (i_after s)) <= fuel ->
    match read_loop rd cl sep fuel (Some ch) acc s with
    | Ret v s' => (ch = cl /\ v = acc /\ s' = s) \/
                  (ch = sep /\ exists v' u, v = acc ++ v' /\ moved s u s' /\ items rd cl sep v' u)
    | Exc e _ => e = EIosFailure
    | _ => False
    end.
  Proof.
    induction fuel as [|fuel IH]; intros s ch acc Hfuel; [destruct (i_eof s); simpl in Hfuel; lia|].
    cbn [read_loop]. unfold read_var. destruct (Ascii.eqb_spec ch cl) as [->|Hch].
    - unfold ret. left. auto.
    - destruct (i_eof s) eqn:He; [reflexivity|].
      destruct (Ascii.eqb_spec ch sep) as [->|Hse]; cbn [negb]; [|reflexivity].
      unfold bind at 1. destruct (Htame s) as (x & s1 & t & Hrd & Hm1 & _). rewrite Hrd.
      destruct (i_failed s1) eqn:Hf1; [reflexivity|]. unfold bind.
      assert (Hy : yields rd x t) by (exists s, s1; auto).
      pose proof (moved_length _ _ _ Hm1) as Hlen.
      destruct (extract_char_cases (Some sep) s1) as [[Hg1 Hx]|[(Hg1 & Hb1 & Hx)|(w & c & r & Hg1 & Ha1 & Hw & Hc & Hx)]];
        rewrite Hx.
      + assert (He1 : i_eof s1 = true).
        { unfold i_good in Hg1. unfold i_failed in Hf1. apply orb_false_iff in Hf1 as [H1 H2]. rewrite H1, H2 in Hg1.
          destruct (i_eof s1); [reflexivity|discriminate]. }
        destruct fuel as [|fuel]; [lia|]. cbn [read_loop]. unfold read_var.
        destruct (Ascii.eqb_spec sep cl); [contradiction|]. cbn [i_eof set_fail]. rewrite He1. reflexivity.
      + destruct fuel as [|fuel]; [lia|]. cbn [read_loop]. unfold read_var.
        destruct (Ascii.eqb_spec sep cl); [contradiction|]. reflexivity.
      + specialize (IH (advance (w ++ [c]) r s1) c (acc ++ [x])).
        assert (Hrest : (if i_eof (advance (w ++ [c]) r s1) then 1 else 2 + length (i_after (advance (w ++ [c]) r s1))) <= fuel).
        { cbn [i_eof i_after advance]. rewrite Ha1, app_length in Hlen. simpl in Hlen.
          destruct (i_eof s1); lia. }
        specialize (IH Hrest).
        assert (Hm2 : moved s1 (w ++ [c]) (advance (w ++ [c]) r s1)).
        { apply moved_advance. rewrite Ha1, <- app_assoc. reflexivity. }
        destruct (read_loop rd cl sep fuel (Some c) (acc ++ [x]) (advance (w ++ [c]) r s1)) as [v s'|e s'| | |];
          try exact IH.
        right. split; [reflexivity|]. destruct IH as [(-> & -> & ->)|(-> & v' & u & -> & Hm3 & Hit)].
        * exists [x], (t ++ w ++ [cl]). split; [reflexivity|]. split; [eapply moved_trans; eassumption|].
          apply items_last; assumption.
        * exists (x :: v'), (t ++ w ++ sep :: u). split; [rewrite <- app_assoc; reflexivity|]. split.
          -- replace (t ++ w ++ sep :: u) with (t ++ (w ++ [sep]) ++ u) by (rewrite <- !app_assoc; reflexivity).
             eapply moved_trans; [exact Hm1|]. eapply moved_trans; [exact Hm2|exact Hm3].
          -- apply items_cons; assumption.
  Qed.

  Lemma read_sequence_total s :
    match read_sequence rd op cl sep s with
    | Ret v s' => exists t, moved s t s' /\ accepted rd op cl sep v t
    | Exc e _ => e = EIosFailure
    | Ub r => r = UbUninit /\ (i_good s = false \/ blank (i_after s))
    | Abort | Fuel => False
    end.
  Proof.
    unfold read_sequence, bind at 1.
    destruct (extract_char_cases None s) as [[Hg Hx]|[(Hg & Hb & Hx)|(w & c & r & Hg & Ha & Hw & Hc & Hx)]]; rewrite Hx.
    - cbn. auto.
    - cbn. auto.
    - unfold read_var at 1. destruct (Ascii.eqb_spec c op) as [->|Hop]; cbn [negb]; [|reflexivity].
      unfold bind at 1. set (s1 := advance (w ++ [op]) r s).
      assert (Hm0 : moved s (w ++ [op]) s1).
      { apply moved_advance. rewrite Ha, <- app_assoc. reflexivity. }
      assert (Hg1 : i_good s1 = true) by exact Hg.
      destruct (extract_char_cases (Some op) s1) as [[Hg2 Hx2]|[(Hg2 & Hb2 & Hx2)|(w1 & c1 & r1 & Hg2 & Ha2 & Hw1 & Hc1 & Hx2)]];
        rewrite Hx2.
      + congruence.
      + (* end of input after the bracket: putback clears eofbit but the stream stays failed *)
        unfold read_var at 1, bind at 1. destruct (Ascii.eqb_spec op cl); [contradiction|].
        unfold bind at 1, ret. set (s2 := set_fail (set_eof (advance (i_after s1) [] s1))).
        assert (Hpb : putback op s2 = Ret tt (set_fail (clear_eof s2))).
        { unfold putback, sentry. unfold i_good at 1. cbn [i_fail clear_eof s2 set_fail set_eof].
          rewrite orb_true_r. reflexivity. }
        rewrite Hpb. set (s3 := set_fail (clear_eof s2)). cbn [read_loop].
        unfold read_var. destruct (Ascii.eqb_spec sep cl); [contradiction|].
        change (i_eof s3) with false. cbv iota. rewrite Ascii.eqb_refl. cbn [negb]. unfold bind at 1.
        destruct (Htame s3) as (x & s4 & t & Hrd & _ & Hf). rewrite Hrd, (Hf eq_refl). reflexivity.
      + unfold read_var at 1, bind at 1. destruct (Ascii.eqb_spec c1 cl) as [->|Hcc].
        * unfold ret at 1. cbn [read_loop]. unfold read_var. rewrite Ascii.eqb_refl. unfold ret.
          exists ((w ++ [op]) ++ w1 ++ [cl]). split.
          -- eapply moved_trans; [exact Hm0|]. apply moved_advance. rewrite Ha2, <- app_assoc. reflexivity.
          -- exists w, w1, [cl]. split; [exact Hw|]. split; [exact Hw1|]. split; [rewrite <- app_assoc; reflexivity|auto].
        * unfold bind at 1. rewrite (putback_last s1 w1 c1 r1 Hg1). unfold ret. cbv beta.
          set (s2 := advance w1 (c1 :: r1) s1).
          assert (Hfu : (if i_eof s2 then 1 else 2 + length (i_after s2)) <= S (S (length (i_after s2)))).
          { destruct (i_eof s2); lia. }
          pose proof (read_loop_total _ s2 sep [] Hfu) as Hloop.
          destruct (read_loop rd cl sep (S (S (length (i_after s2)))) (Some sep) [] s2) as [v s'|e s'| | |];
            try exact Hloop; try contradiction.
          destruct Hloop as [(Hs & _)|(_ & v' & u & -> & Hm & Hit)]; [contradiction|].
          exists ((w ++ [op]) ++ w1 ++ u). split.
          -- eapply moved_trans; [exact Hm0|]. eapply moved_trans; [|exact Hm]. apply moved_advance. exact Ha2.
          -- exists w, w1, u. split; [exact Hw|]. split; [exact Hw1|]. split; [rewrite <- app_assoc; reflexivity|auto].
  Qed.
End AnyInput.

(** on blank input, or on a stream that is not good, the first comparison uses an indeterminate value *)
Lemma read_sequence_blank {T} (rd : M istream T) op cl sep s : i_good s = false \/ blank (i_after s) ->
  read_sequence rd op cl sep s = Ub UbUninit.
Proof.
  intros H. unfold read_sequence, bind at 1.
  destruct (extract_char_cases None s) as [[Hg Hx]|[(Hg & Hb & Hx)|(w & c & r & Hg & Ha & Hw & Hc & Hx)]]; rewrite Hx;
    try reflexivity.
  exfalso. destruct H as [H|H]; [congruence|]. rewrite Ha in H. unfold blank in H. rewrite forallb_app in H.
  simpl in H. rewrite Hc, andb_false_r in H. discriminate.
Qed.

(** the readers of the standard types are tame *)
Lemma tame_int lo hi : tame (read_int lo hi).
Proof.
  intros s. unfold read_int.
  destruct (sentry_cases s) as [[Hg Hs]|[(Hg & Hb & Hs)|(w & c & r & Hg & Ha & Hw & Hc & Hs)]]; rewrite Hs.
  - exists 0%Z, (set_fail s), []. split; [reflexivity|]. split; [apply moved_set_fail, moved_refl|]. reflexivity.
  - do 2 eexists. exists (i_after s). split; [reflexivity|]. split; [|reflexivity].
    apply (moved_advance s (i_after s) []). rewrite app_nil_r. reflexivity.
  - cbn [i_after advance]. destruct (take_sign (c :: r)) as [[sg neg] r1] eqn:Hts.
    destruct (span is_digit r1) as [ds r2] eqn:Hsp. apply span_spec in Hsp as (Hr1 & _ & _).
    assert (Hsg : c :: r = sg ++ r1).
    { clear -Hts. unfold take_sign in Hts. destruct (Ascii.eqb c "-"); [injection Hts as <- _ <-; reflexivity|].
      destruct (Ascii.eqb c "+"); injection Hts as <- _ <-; reflexivity. }
    set (s2 := if_eof (advance (sg ++ ds) r2 (advance w (c :: r) s))).
    assert (Hm : moved s (w ++ sg ++ ds) s2).
    { apply moved_if_eof. rewrite advance_advance. apply moved_advance. rewrite Ha, Hsg, Hr1, <- !app_assoc. reflexivity. }
    assert (Hnf : i_failed s = true -> False).
    { intros Hf. apply failed_good in Hf. congruence. }
    destruct ds as [|d ds].
    + do 2 eexists. eexists. split; [reflexivity|]. split; [apply moved_set_fail; exact Hm|]. intros H; destruct (Hnf H).
    + cbv zeta. destruct (Z.ltb _ lo); [|destruct (Z.ltb hi _)]; do 2 eexists; eexists;
        (split; [reflexivity|]; split; [first [exact Hm|apply moved_set_fail; exact Hm]|intros H; destruct (Hnf H)]).
Qed.
Lemma tame_string : tame read_string.
Proof.
  intros s. unfold read_string.
  destruct (sentry_cases s) as [[Hg Hs]|[(Hg & Hb & Hs)|(w & c & r & Hg & Ha & Hw & Hc & Hs)]]; rewrite Hs.
  - exists [], (set_fail s), []. split; [reflexivity|]. split; [apply moved_set_fail, moved_refl|]. reflexivity.
  - do 2 eexists. exists (i_after s). split; [reflexivity|]. split; [|reflexivity].
    apply (moved_advance s (i_after s) []). rewrite app_nil_r. reflexivity.
  - cbn [i_after advance]. destruct (span (fun c => negb (is_space c)) (c :: r)) as [t r2] eqn:Hsp.
    apply span_spec in Hsp as (Hr1 & _ & _).
    set (s2 := if_eof (advance t r2 (advance w (c :: r) s))).
    assert (Hm : moved s (w ++ t) s2).
    { apply moved_if_eof. rewrite advance_advance. apply moved_advance. rewrite Ha, Hr1, <- !app_assoc. reflexivity. }
    assert (Hnf : i_failed s = true -> False).
    { intros Hf. apply failed_good in Hf. congruence. }
    destruct t as [|d t]; do 2 eexists; eexists;
        (split; [reflexivity|]; split; [first [exact Hm|apply moved_set_fail; exact Hm]|intros H; destruct (Hnf H)]).
Qed.
Lemma read_name_tame name v s : exists x s' t, read_name name v s = Ret x s' /\ moved s t s' /\
  (i_failed s = true -> i_failed s' = true).
Proof.
  unfold read_name. destruct (match_name name (i_after s)) as [[a b] d] eqn:Hm.
  assert (Hab : i_after s = a ++ b).
  { clear v. revert a b d Hm. generalize (i_after s). induction name as [|n name IH]; intros t a b d Hm.
    - destruct t; injection Hm as <- <- <-; reflexivity.
    - destruct t as [|c r]; [injection Hm as <- <- <-; reflexivity|]. simpl in Hm.
      destruct (Ascii.eqb n c); [|injection Hm as <- <- <-; reflexivity].
      destruct (match_name name r) as [[a' b'] d'] eqn:Hm'. injection Hm as <- <- <-.
      rewrite (IH _ _ _ _ Hm'). reflexivity. }
  pose proof (moved_advance s a b Hab) as Hmv.
  destruct d; do 2 eexists; exists a; (split; [reflexivity|]); (split; [first [exact Hmv|apply moved_set_fail, moved_if_eof; exact Hmv]|]).
  - auto.
  - reflexivity.
Qed.
Lemma tame_bool : tame read_bool.
Proof.
  intros s. unfold read_bool.
  destruct (sentry_cases s) as [[Hg Hs]|[(Hg & Hb & Hs)|(w & c & r & Hg & Ha & Hw & Hc & Hs)]]; rewrite Hs.
  - exists false, (set_fail s), []. split; [reflexivity|]. split; [apply moved_set_fail, moved_refl|]. reflexivity.
  - do 2 eexists. exists (i_after s). split; [reflexivity|]. split; [|reflexivity].
    apply (moved_advance s (i_after s) []). rewrite app_nil_r. reflexivity.
  - set (s1 := advance w (c :: r) s).
    assert (Hm1 : moved s w s1) by (apply moved_advance; exact Ha).
    assert (Hnf : i_failed s = true -> False).
    { intros Hf. apply failed_good in Hf. congruence. }
    destruct (i_boolalpha s1).
    + change (i_after s1) with (c :: r). cbv iota.
      destruct (Ascii.eqb c "t").
      * destruct (read_name_tame (chars "true") true s1) as (x & s' & t & H1 & H2 & H3). rewrite H1.
        exists x, s', (w ++ t). split; [reflexivity|]. split; [eapply moved_trans; eassumption|intros H; destruct (Hnf H)].
      * destruct (read_name_tame (chars "false") false s1) as (x & s' & t & H1 & H2 & H3). rewrite H1.
        exists x, s', (w ++ t). split; [reflexivity|]. split; [eapply moved_trans; eassumption|intros H; destruct (Hnf H)].
    + destruct (tame_int (- 2 ^ 63) (2 ^ 63 - 1) s1) as (x & s' & t & H1 & H2 & H3). rewrite H1.
      destruct (Z.eqb x 0); [|destruct (Z.eqb x 1)]; do 2 eexists; exists (w ++ t); (split; [reflexivity|]);
        (split; [first [eapply moved_trans; [exact Hm1|exact H2]|apply moved_set_fail; eapply moved_trans; [exact Hm1|exact H2]]|intros H; destruct (Hnf H)]).
Qed.

(** what the integer reader accepts *)
Lemma yields_int lo hi x t : yields (read_int lo hi) x t -> int_token x t /\ (lo <= x <= hi)%Z.
Proof.
  intros (s & s' & Hrd & Hm & Hf). unfold read_int in Hrd.
  destruct (sentry_cases s) as [[Hg Hs]|[(Hg & Hb & Hs)|(w & c & r & Hg & Ha & Hw & Hc & Hs)]]; rewrite Hs in Hrd.
  - injection Hrd as <- <-. discriminate.
  - injection Hrd as <- <-. discriminate.
  - cbn [i_after advance] in Hrd. destruct (take_sign (c :: r)) as [[sg neg] r1] eqn:Hts.
    destruct (span is_digit r1) as [ds r2] eqn:Hsp. apply span_spec in Hsp as (Hr1 & Hds & _).
    assert (Hsg : c :: r = sg ++ r1 /\ ((sg = [] \/ sg = chars "+") /\ neg = false \/ sg = chars "-" /\ neg = true)).
    { clear -Hts. unfold take_sign in Hts. destruct (Ascii.eqb_spec c "-") as [->|].
      - injection Hts as <- <- <-. split; [reflexivity|]. right. auto.
      - destruct (Ascii.eqb_spec c "+") as [->|]; injection Hts as <- <- <-; (split; [reflexivity|]); left; auto. }
    destruct Hsg as [Hsg Hneg].
    set (s2 := if_eof (advance (sg ++ ds) r2 (advance w (c :: r) s))) in *.
    assert (Hm2 : moved s (w ++ sg ++ ds) s2).
    { apply moved_if_eof. rewrite advance_advance. apply moved_advance. rewrite Ha, Hsg, Hr1, <- !app_assoc. reflexivity. }
    destruct ds as [|d ds]; [injection Hrd as <- <-; discriminate|]. cbv zeta in Hrd.
    destruct (Z.ltb_spec (if neg then - digits_value (d :: ds) else digits_value (d :: ds)) lo);
      [injection Hrd as <- <-; discriminate|].
    destruct (Z.ltb_spec hi (if neg then - digits_value (d :: ds) else digits_value (d :: ds)));
      [injection Hrd as <- <-; discriminate|].
    injection Hrd as Hx Hs2. rewrite <- Hs2 in Hm.
    assert (Ht : t = w ++ sg ++ d :: ds).
    { destruct Hm as (H1 & _), Hm2 as (H2 & _). rewrite H1 in H2. apply app_inv_tail in H2. exact H2. }
    split; [|rewrite <- Hx; lia]. exists w, sg, (d :: ds). split; [exact Hw|]. split; [exact Ht|].
    split; [discriminate|]. split; [exact Hds|]. rewrite <- Hx.
    destruct Hneg as [[Hsg' ->]|[Hsg' ->]]; auto.
Qed.

Lemma items_int lo hi v u : items (read_int lo hi) "]" "," v u -> int_items lo hi v u.
Proof.
  intros H. induction H as [x t w Hy Hw|x t w v u Hy Hw _ IH].
  - destruct (yields_int lo hi x t Hy). apply int_items_last; assumption.
  - destruct (yields_int lo hi x t Hy). apply (int_items_cons lo hi x t w v u); assumption.
Qed.
Lemma read_ints_total lo hi s :
  match read_vector (read_int lo hi) s with
  | Ret v s' => exists w w1 u, blank w /\ blank w1 /\ i_after s = (w ++ chars "[" ++ w1 ++ u) ++ i_after s' /\
                  (v = [] /\ u = chars "]" \/ int_items lo hi v u)
  | Exc e _ => e = EIosFailure
  | Ub r => r = UbUninit /\ (i_good s = false \/ blank (i_after s))
  | Abort | Fuel => False
  end.
Proof.
  pose proof (read_sequence_total (read_int lo hi) "[" "]" "," (tame_int lo hi) ltac:(discriminate) ltac:(discriminate) s) as H.
  unfold read_vector. destruct (read_sequence (read_int lo hi) "[" "]" "," s); try exact H.
  destruct H as (t & (Hm & _) & w & w1 & u & Hw & Hw1 & -> & Hu). exists w, w1, u.
  split; [exact Hw|]. split; [exact Hw1|]. split; [exact Hm|].
  destruct Hu as [Hu|Hu]; [left; exact Hu|right; apply items_int; exact Hu].
Qed.

Lemma standard_readers_tame : (forall lo hi, tame (read_int lo hi)) /\ tame read_bool /\ tame read_string.
Proof. split; [exact tame_int|]. split; [exact tame_bool|exact tame_string]. Qed.
Lemma ints_read_back (lo hi : Z) (v : list Z) (alpha : bool) : Forall (fun z => lo <= z <= hi)%Z v ->
  (forall s rest, i_good s = true -> i_boolalpha s = alpha ->
     i_after s = o_text (print_vector print_int v (mkO [] alpha)) ++ rest ->
     exists s', read_vector (read_int lo hi) s = Ret v s' /\ i_good s' = true /\ i_after s' = rest) /\
  (forall t s w rest, layout int_text list_follow "[" "]" "," v t ->
     i_good s = true -> i_boolalpha s = alpha -> blank w -> i_after s = w ++ t ++ rest ->
     exists s', read_vector (read_int lo hi) s = Ret v s' /\ i_good s' = true /\
       i_after s' = rest /\ i_before s' = rev (w ++ t) ++ i_before s).
Proof.
  intros Hv. split; [apply printed_ints_read_back; exact Hv|].
  intros t s w rest Hl. apply (int_round_trip lo hi v alpha t Hv Hl).
Qed.
Lemma bools_read_back (v : list bool) (alpha : bool) :
  (forall s rest, i_good s = true -> i_boolalpha s = alpha ->
     i_after s = o_text (print_vector print_bool v (mkO [] alpha)) ++ rest ->
     exists s', read_vector read_bool s = Ret v s' /\ i_good s' = true /\ i_after s' = rest) /\
  (forall t s w rest, layout (bool_text alpha) list_follow "[" "]" "," v t ->
     i_good s = true -> i_boolalpha s = alpha -> blank w -> i_after s = w ++ t ++ rest ->
     exists s', read_vector read_bool s = Ret v s' /\ i_good s' = true /\
       i_after s' = rest /\ i_before s' = rev (w ++ t) ++ i_before s).
Proof.
  split; [apply printed_bools_read_back|]. intros t s w rest Hl. apply (bool_round_trip v alpha t Hl).
Qed.
