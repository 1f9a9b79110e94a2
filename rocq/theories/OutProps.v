(** OutProps.v -- the properties C100 and C101 of printing to streams that fail or have a width.  Statements only;
    the proofs are in OutProofs.v. *)
From Verif Require Import Base StreamModel StlioModel StlioSpec WordModel MaskModel OutModel OutSpec OutProofs.

(** ** C100: printing to a stream whose buffer may refuse or throw at any point.  First: everything printed consists
    of pieces, in the order of the text, and nothing is written after one was refused. *)
Theorem C100_lists (E : env) (a : bool) (T : Type) (pr : T -> M sink unit) (ps : T -> list text) :
  (forall x, sends E a a (pr x) (ps x)) ->
  forall l,
  sends E a a (sprint_vector E pr l) (bracketed (chars "[") (chars ",") (chars "]") (map ps l)) /\
  sends E a a (sprint_array E pr l) (bracketed (chars "[") (chars ",") (chars "]") (map ps l)) /\
  sends E a a (sprint_shared_array E pr l) (bracketed (chars "[") (chars ",") (chars "]") (map ps l)) /\
  sends E a a (sprint_list E pr l) (bracketed (chars "[") (chars ",") (chars "]") (map ps l)) /\
  sends E a a (sprint_set E pr l) (bracketed (chars "{") (chars ",") (chars "}") (map ps l)) /\
  forall op cl sep, sends E a a (swrite_sequence E pr op cl sep l) (bracketed [op] [sep] [cl] (map ps l)).
Proof. exact (send_lists E a T pr ps). Qed.
Print Assumptions C100_lists.

Theorem C100_pairs_tuples_maps (E : env) (a : bool) (K V : Type) (prk : K -> M sink unit) (prv : V -> M sink unit)
  (pk : K -> list text) (pv : V -> list text) :
  (forall k, sends E a a (prk k) (pk k)) -> (forall v, sends E a a (prv v) (pv v)) ->
  (forall p, sends E a a (sprint_pair E prk prv p)
               (bracketed (chars "(") (chars ",") (chars ")") [pk (fst p); pv (snd p)])) /\
  (forall f q fs qs, sends E a a f q -> Forall2 (sends E a a) fs qs ->
     sends E a a (sprint_tuple E f fs) (bracketed (chars "(") (chars ",") (chars ")") (q :: qs))) /\
  (forall m, sends E a a (sprint_map E prk prv m)
     (bracketed (match m with [] => chars "{" | _ => chars "{ " end) (chars ", ") (chars " }")
        (map (fun e => pk (fst e) ++ [chars ":"] ++ pv (snd e)) m))) /\
  (forall op cl sep de m, sends E a a (swrite_map_sequence E prk prv op cl sep de m)
     (bracketed [op] [sep] [cl] (map (fun e => pk (fst e) ++ [[de]] ++ pv (snd e)) m))).
Proof. exact (send_others E a K V prk prv pk pv). Qed.
Print Assumptions C100_pairs_tuples_maps.

Theorem C100_items (E : env) (a : bool) :
  (forall t, sends E a a (insert E t) [t]) /\
  (forall z, sends E a a (insert_int E z) [int_text z]) /\
  (forall b, sends E a a (insert_bool E b) [bool_text a b]) /\
  (forall w, sends E a (match w with [] => a | _ => true end) (sprint_word E w) (word_pieces w)) /\
  (forall n (v : nest n), sends E a a (snest_print E n v) (nest_pieces n v)).
Proof. exact (send_items E a). Qed.
Print Assumptions C100_items.

(** What that means for a stream that was good: the buffer has got a beginning of the text; all of it if the stream
    is good afterwards; a stream that is not good afterwards is bad; if the stream throws on badbit, printing returns
    only when all was written; if it throws on neither badbit nor failbit, printing always returns. *)
Theorem C100_good_stream (E : env) (a b : bool) (f : M sink unit) (ps : list text) : sends E a b f ps ->
  forall s, s_alpha s = a -> s_good s = true -> exists t, shown E (s_width s) ps t /\
    (forall s', f s = Ret tt s' -> exists u v, s_text s' = s_text s ++ u /\ t = u ++ v) /\
    (forall e s', f s = Exc e s' -> exists u v, s_text s' = s_text s ++ u /\ t = u ++ v) /\
    (forall s', f s = Ret tt s' -> s_good s' = true ->
       s_text s' = s_text s ++ t /\ s_alpha s' = b /\ (ps <> [] -> s_width s' = 0)) /\
    (forall s', f s = Ret tt s' -> s_good s' = false -> s_bad s' = true) /\
    (m_bad (e_mask E) = true -> forall s', f s = Ret tt s' -> s_good s' = true) /\
    (m_bad (e_mask E) = false -> m_fail (e_mask E) = false -> exists s', f s = Ret tt s') /\
    (takes_all E -> exists s', f s = Ret tt s' /\ s_good s' = true) /\
    ((exists s', f s = Ret tt s') \/ (exists e s', f s = Exc e s')).
Proof. exact (sends_meaning E a b f ps). Qed.
Print Assumptions C100_good_stream.

(** nothing is written to a stream that is not good *)
Theorem C100_other_stream (E : env) (a b : bool) (f : M sink unit) (ps : list text) : sends E a b f ps ->
  forall s, s_good s = false ->
  exists s', (f s = Ret tt s' \/ f s = Exc EIosFailure s' /\ masked E s') /\
    s_good s' = false /\ s_text s' = s_text s.
Proof. exact (sends_not_good E a b f ps). Qed.
Print Assumptions C100_other_stream.

(** the stream throws as its exception mask says, and only then: printing returns if no bit of the mask is set afterwards, and throws
    otherwise.  (A library may leave a stream alone that was not good before.) *)
Theorem C100_mask (E : env) (a b : bool) (f : M sink unit) (ps : list text) : sends E a b f ps ->
  forall s, s_good s = true \/ (e_strict E = true /\ ps <> []) ->
  (forall s', f s = Ret tt s' -> ~ masked E s') /\ (forall e s', f s = Exc e s' -> masked E s').
Proof. exact (sends_mask E a b f ps). Qed.
Print Assumptions C100_mask.

(** with a buffer that takes everything this is the printing of StlioModel.v and WordModel.v, for all printers *)
Theorem C100_unfailing (E : env) : takes_all E ->
  (forall T (spr : T -> M sink unit) pr, (forall x, mirrors (spr x) (pr x)) -> forall l,
     mirrors (sprint_vector E spr l) (print_vector pr l) /\
     mirrors (sprint_array E spr l) (print_array pr l) /\
     mirrors (sprint_shared_array E spr l) (print_shared_array pr l) /\
     mirrors (sprint_set E spr l) (print_set pr l) /\
     mirrors (sprint_list E spr l) (print_list pr l) /\
     forall op cl sep, mirrors (swrite_sequence E spr op cl sep l) (write_sequence pr op cl sep l)) /\
  (forall K V (sk : K -> M sink unit) (sv : V -> M sink unit) pk pv,
     (forall k, mirrors (sk k) (pk k)) -> (forall v, mirrors (sv v) (pv v)) ->
     (forall m, mirrors (sprint_map E sk sv m) (print_map pk pv m)) /\
     (forall op cl sep de m,
        mirrors (swrite_map_sequence E sk sv op cl sep de m) (write_map_sequence pk pv op cl sep de m)) /\
     (forall p, mirrors (sprint_pair E sk sv p) (print_pair pk pv p))) /\
  (forall f g fs gs, mirrors f g -> Forall2 mirrors fs gs ->
     exists h, mirrors (sprint_tuple E f fs) h /\ forall o, print_tuple (g :: gs) o = Some (h o)) /\
  (forall w, mirrors (sprint_word E w) (print_word w)) /\
  (forall z, mirrors (insert_int E z) (print_int z)) /\
  (forall b, mirrors (insert_bool E b) (print_bool b)) /\
  (forall t, mirrors (insert E t) (print_string t)).
Proof. exact (unfailing E). Qed.
Print Assumptions C100_unfailing.

(** a buffer with room for five characters; one that throws at the first comma *)
Definition room5 (m : mask) : env := mkEnv m true true " " false (fun o t => (5 - List.length o, None)).
Definition hates_commas (m : mask) : env :=
  mkEnv m false false "*" false
    (fun o t => if existsb (Ascii.eqb ",") t then (0, Some (EUser 7)) else (List.length t, None)).
Definition start (w : nat) : sink := mkSink [] false w false false false.
Definition on_bad : mask := mkMask false false true.
Definition on_fail : mask := mkMask false true false.
Example C100_example :
  (sprint_vector (room5 no_mask) (insert_int (room5 no_mask)) [12; -3; 7]%Z (start 0) =
     Ret tt (mkSink (chars "[12,-") false 0 false true true)) /\
  (sprint_vector (room5 on_bad) (insert_int (room5 on_bad)) [12; -3; 7]%Z (start 0) =
     Exc EIosFailure (mkSink (chars "[12,-") false 0 false false true)) /\
  (sprint_vector (room5 on_fail) (insert_int (room5 on_fail)) [12; -3; 7]%Z (start 0) =
     Exc EIosFailure (mkSink (chars "[12,-") false 0 false true true)) /\
  (sprint_vector (room5 on_bad) (insert_int (room5 on_bad)) [1; 2]%Z (start 0) =
     Ret tt (mkSink (chars "[1,2]") false 0 false false false)) /\
  (sprint_set (hates_commas no_mask) (insert_int (hates_commas no_mask)) [1; 2]%Z (start 0) =
     Ret tt (mkSink (chars "{1") false 0 false false true)) /\
  (sprint_set (hates_commas on_bad) (insert_int (hates_commas on_bad)) [1; 2]%Z (start 0) =
     Exc (EUser 7) (mkSink (chars "{1") false 0 false false true)) /\
  (sprint_word (room5 on_bad) [true; false; true; true; false; true] (start 0) =
     Exc EIosFailure (mkSink (chars "10110") false 0 false false true)).
Proof. repeat split. Qed.
Example C100_items_example : forall x, sends (room5 on_fail) false false (insert_int (room5 on_fail) x) [int_text x].
Proof. exact (proj1 (proj2 (C100_items (room5 on_fail) false))). Qed.
Example C100_takes_all_example : exists E, takes_all E /\ exists w, w <> [] /\ s_good (start 0) = true /\
  sprint_word E w (start 0) = Ret tt (mkSink (chars "101") true 0 false false false).
Proof.
  exists (mkEnv on_bad true true " " false (fun _ t => (List.length t, None))). split.
  - intros o p [H|H]; simpl in H; [lia|congruence].
  - exists [true; false; true]. repeat split. discriminate.
Qed.

(** ** C101: intended statement: a width set on the stream applies to the printed list, set, array, pair or word:
    the conclusion of the following without the negations.  False for every width above one (and words of more than
    one bit): it is used up by the opening bracket (the first bit). *)
Theorem C101_width_refuted (E : env) (a : bool) (T : Type) (pr : T -> M sink unit) (ps : T -> list text) :
  (forall x, sends E a a (pr x) (ps x)) -> takes_all E ->
  forall s, s_alpha s = a -> s_good s = true -> 2 <= s_width s ->
  let padded f t := exists s' t', f s = Ret tt s' /\ s_text s' = s_text s ++ t' /\ filled E (s_width s) t t' in
  (forall l, ~ padded (sprint_vector E pr l) (concat (bracketed (chars "[") (chars ",") (chars "]") (map ps l)))) /\
  (forall l, ~ padded (sprint_list E pr l) (concat (bracketed (chars "[") (chars ",") (chars "]") (map ps l)))) /\
  (forall l, ~ padded (sprint_set E pr l) (concat (bracketed (chars "{") (chars ",") (chars "}") (map ps l)))) /\
  (forall p, ~ padded (sprint_pair E pr pr p)
                 (concat (bracketed (chars "(") (chars ",") (chars ")") [ps (fst p); ps (snd p)]))) /\
  (forall w, 2 <= List.length w -> ~ padded (sprint_word E w) (concat (word_pieces w))).
Proof. exact (width_refuted E a T pr ps). Qed.
Print Assumptions C101_width_refuted.

(** Missing: the above.  What holds: nothing is padded but the first piece; widths up to one are right; a text adjusted to the right is the text
    printed without a width after the padding of its bracket; words of at most one bit and single items are padded as
    they should; and the width is used up, so that what follows is printed without. *)
Theorem C101_width_partial (E : env) :
  (forall w op ps t, e_left E = false -> shown E w (op :: ps) t ->
     t = repeat (e_fill E) (w - List.length op) ++ concat (op :: ps)) /\
  (forall ps t, shown E 0 ps t -> t = concat ps) /\
  (forall w op sep cl l t, w <= 1 -> List.length op = 1 -> shown E w (bracketed op sep cl l) t ->
     filled E w (concat (bracketed op sep cl l)) t) /\
  (forall w b t, List.length b <= 1 -> shown E w (word_pieces b) t -> filled E w (concat (word_pieces b)) t) /\
  (forall w p t, shown E w [p] t -> filled E w p t) /\
  (forall a b f ps g qs c s s1 s2, sends E a b f ps -> ps <> [] -> sends E b c g qs ->
     s_alpha s = a -> s_good s = true -> f s = Ret tt s1 -> s_good s1 = true ->
     g s1 = Ret tt s2 -> s_good s2 = true -> s_text s2 = s_text s1 ++ concat qs).
Proof. exact (width_partial E). Qed.
Print Assumptions C101_width_partial.

Definition wide : env := mkEnv on_bad true true "." false (fun _ t => (List.length t, None)).
Example C101_hypotheses : takes_all wide /\ s_good (start 9) = true /\ 2 <= s_width (start 9).
Proof. split; [|simpl; auto with arith]. intros o p [H|H]; simpl in H; [lia|congruence]. Qed.
Example C101_example :
  (sprint_vector wide (insert_int wide) [1; 2; 3]%Z (start 9) =
     Ret tt (mkSink (chars "........[1,2,3]") false 0 false false false)) /\
  (sprint_word wide [true; false] (start 4) = Ret tt (mkSink (chars "...10") true 0 false false false)) /\
  (insert_int wide 42 (start 5) = Ret tt (mkSink (chars "...42") false 0 false false false)) /\
  shown wide 9 (bracketed (chars "[") (chars ",") (chars "]") [[chars "1"]; [chars "2"]]) (chars "........[1,2]").
Proof.
  repeat split. exists (chars "........["). split; [|reflexivity]. split; [reflexivity|]. exists 8. reflexivity.
Qed.
