(** SyncProps.v -- properties C93, C94 and C95: the library's global state used by several threads.  Statements only; the lemmas are in
    SyncProofs.v. *)
From Coq Require Import Strings.String Lists.List.
From Verif Require Import Base RandomModel RandomSpec SyncModel SyncSpec SyncProofs.

(** ** C93: threads that draw from randomisers -- even each from its own -- get what they would get one after the other.
    Intended: forall ts s0, (forall i p, nth_error ts i = Some p -> guarded false false p /\ constructed_before s0 p) ->
      forall sch, exists c, crun .. sch (fork s0 ts) = inl c /\ as_if_sequential .. s0 ts c.
    Refuted: whenever two threads begin with draws, also from different randomisers, they race for the generator's engine ... *)
Theorem C93_refuted :
  forall (T G Ds : Type) (next : G -> Z * G) (dmake : T -> T -> Ds) (ddraw : Ds -> draw (T * Ds))
    (ts : list (list (stm (rop T)))) (s0 : rst G Ds) (i j k k' : nat) (d d' : Ds) c c' p q,
  i <> j -> nth_error ts i = Some (StDo (RGet k) :: p) -> nth_error ts j = Some (StDo (RGet k') :: q) ->
  randomisers s0 k = Some d -> randomisers s0 k' = Some d' -> ddraw d = Ask c -> ddraw d' = Ask c' ->
  exists sch cf, crun (rop_code next dmake ddraw) sch (fork s0 ts) = inl cf /\ race_at LEngine cf.
Proof. exact @draws_race. Qed.
Print Assumptions C93_refuted.
(** ... and even if the race does no other harm, both may draw the same output of the engine. *)
Theorem C93_same_output_refuted :
  forall (T G Ds : Type) (next : G -> Z * G) (dmake : T -> T -> Ds) (ddraw : Ds -> draw (T * Ds)) (s0 : rst G Ds) (k k' : nat) (d d' : Ds) f f',
  randomisers s0 k = Some d -> randomisers s0 k' = Some d' -> ddraw d = Ask (fun z => Done (f z)) -> ddraw d' = Ask (fun z => Done (f' z)) ->
  exists sch c, crun (rop_code next dmake ddraw) sch (fork s0 [[StDo (RGet k)]; [StDo (RGet k')]]) = inl c /\ (forall t, In t (threads c) -> finished t) /\
    map outs (threads c) = [[(RGet k, Some (fst (f (fst (next (generator s0))))))]; [(RGet k', Some (fst (f' (fst (next (generator s0))))))]] /\
    generator (shared c) = snd (next (generator s0)).
Proof. exact @draws_same. Qed.
Print Assumptions C93_same_output_refuted.
(** What holds: if all draws and constructions are made with one mutex held, or by the same thread, every schedule of the threads is free of data
    races and deadlocks, gives what the calls give one after the other in the order of their completion, and the draws use up the output of the
    generator, nothing skipped and nothing used twice.
    Missing: threads that draw without a mutex. *)
Theorem C93_threads_partial :
  forall (T G Ds : Type) (next : G -> Z * G) (dmake : T -> T -> Ds) (ddraw : Ds -> draw (T * Ds)) (ts : list (list (stm (rop T)))) (s0 : rst G Ds),
  protected ts -> (forall i p, nth_error ts i = Some p -> constructed_before s0 p) ->
  forall sch, exists c, crun (rop_code next dmake ddraw) sch (fork s0 ts) = inl c /\ as_if_sequential (rstep next dmake ddraw) s0 ts c /\
    (idle c -> exists cs n, concat cs = outputs next n (generator s0) /\ generator (shared c) = advance next n (generator s0) /\
      draws dmake ddraw (randomisers s0) (map snd (history c)) cs (results c) (randomisers (shared c))) /\
    exists sch' c', crun (rop_code next dmake ddraw) (sch ++ sch') (fork s0 ts) = inl c' /\ forall t, In t (threads c') -> finished t.
Proof. exact @random_good. Qed.
Print Assumptions C93_threads_partial.

(** a counter as engine, a distribution that adds the output to its lower bound, and one that needs two outputs *)
Definition count (g : Z) : Z * Z := (g, (g + 1)%Z).
Definition add_one (d : Z * Z) : draw (Z * (Z * Z)) := Ask (fun z => Done ((fst d + z)%Z, d)).
Definition add_two (d : Z * Z) : draw (Z * (Z * Z)) := Ask (fun y => Ask (fun z => Done ((fst d + y + z)%Z, d))).
Definition two_randomisers : rst Z (Z * Z) := mkRst (fun k => match k with 0 => Some (100, 200)%Z | 1 => Some (500, 600)%Z | _ => None end) 7%Z.
Definition locked_draws : list (list (stm (rop Z))) :=
  [[StLock; StDo (RGet 0); StUnlock; StLock; StDo (RNew 2 1000 2000)%Z; StDo (RGet 2); StUnlock]; [StLock; StDo (RGet 1); StUnlock]].
Example C93_example :
  protected locked_draws /\ (forall i p, nth_error locked_draws i = Some p -> constructed_before two_randomisers p) /\
  exists c, crun (rop_code count pair add_two) [1;0;1;1;0;1;1;0;1;1;1;0;1;1; 0;0;0;0;0;0;0;0;0;0;0;0;0;0;0;0;0;0;0;0;0;0;0;0] (fork two_randomisers locked_draws) = inl c /\
    map (fun t => map snd (outs t)) (threads c) = [[Some 119; None; Some 1023]; [Some 515]]%Z /\ generator (shared c) = 13%Z.
Proof.
  split; [|split].
  - left. intros [|[|i]] p E; [| |destruct i; discriminate]; injection E as <-; cbn; tauto.
  - intros [|[|i]] p E; [| |destruct i; discriminate]; injection E as <-; intros [|[|[|n]]] k Ek; cbn in Ek; try discriminate; try (destruct n; discriminate).
    + injection Ek as <-. left. discriminate.
    + injection Ek as <-. right. exists 1000%Z, 2000%Z. right. left. reflexivity.
    + injection Ek as <-. left. discriminate.
  - eexists. vm_compute. split; [reflexivity|]. split; reflexivity.
Qed.
(** the same draws without the mutex: both threads get the output 7 *)
Example C93_same_example :
  exists c, crun (rop_code count pair add_one) [0; 0; 0; 1; 1; 1; 0; 1; 0; 0; 1; 1] (fork two_randomisers [[StDo (RGet 0)]; [StDo (RGet 1)]]) = inl c /\
    map (fun t => map snd (outs t)) (threads c) = [[Some 107]; [Some 507]]%Z /\ generator (shared c) = 8%Z.
Proof. eexists. vm_compute. split; [reflexivity|]. split; reflexivity. Qed.

(** ** C94: HELPER_TEST_FAILURES is the number of the checks that have failed in all threads.
    Intended: forall ts n, (forall i p, nth_error ts i = Some p -> guarded false false p) -> n + total_failed ts < 2 ^ 31 ->
      forall sch, exists c, crun check_code sch (fork n ts) = inl c /\ ~ race c /\ (idle c -> shared c = n + failed (map snd (history c))).
    Refuted: whenever the first checks of two threads fail, the threads race for the counter, and one of the failures may not be counted. *)
Theorem C94_refuted :
  forall (ts : list (list (stm check))) (n : Z) (i j : nat) p q, i <> j -> (n < 2 ^ 31 - 1)%Z ->
  nth_error ts i = Some (StDo CheckFails :: p) -> nth_error ts j = Some (StDo CheckFails :: q) ->
  (exists sch c, crun check_code sch (fork n ts) = inl c /\ race c) /\
  (exists sch c, crun check_code sch (fork n ts) = inl c /\ idle c /\ map snd (history c) = [CheckFails; CheckFails] /\ shared c = (n + 1)%Z).
Proof. exact checks_race. Qed.
Print Assumptions C94_refuted.
(** What holds: if the checks are made with one mutex held, or by the same thread, every failure is counted once under every schedule.
    Missing: checks of several threads without a mutex. *)
Theorem C94_failures_partial :
  forall (ts : list (list (stm check))) (n : Z), protected ts -> (n + total_failed ts < 2 ^ 31)%Z ->
  forall sch, exists c, crun check_code sch (fork n ts) = inl c /\ ~ race c /\
    (idle c -> shared c = (n + failed (map snd (history c)))%Z) /\
    ((forall t, In t (threads c) -> finished t) -> shared c = (n + total_failed ts)%Z) /\
    exists sch' c', crun check_code (sch ++ sch') (fork n ts) = inl c' /\ forall t, In t (threads c') -> finished t.
Proof. exact checks_good. Qed.
Print Assumptions C94_failures_partial.
(** As long as no check fails, no mutex is needed. *)
Theorem C94_passing_partial :
  forall (ts : list (list (stm check))) (n : Z), (forall p, In p ts -> ~ In CheckFails (does p) /\ guarded false false p) ->
  forall sch, exists c, crun check_code sch (fork n ts) = inl c /\ ~ race c /\ shared c = n.
Proof. exact checks_pass. Qed.
Print Assumptions C94_passing_partial.

Definition locked_checks : list (list (stm check)) :=
  [[StLock; StDo CheckFails; StDo CheckPasses; StUnlock]; [StLock; StDo CheckFails; StUnlock; StLock; StDo CheckFails; StUnlock]].
Example C94_example :
  protected locked_checks /\ total_failed locked_checks = 3%Z /\
  exists c, crun check_code [1;0;1;0;1;0;1;0;1;1;0;0;0;1;0;0;0;0;0;0;1;1;1;1;1;1] (fork 5%Z locked_checks) = inl c /\ (forall t, In t (threads c) -> finished t) /\ shared c = 8%Z.
Proof.
  split; [|split; [reflexivity|]].
  - left. intros [|[|i]] p E; [| |destruct i; discriminate]; injection E as <-; cbn; tauto.
  - eexists. vm_compute. split; [reflexivity|]. split; [|reflexivity]. intros t [<-|[<-|[]]]; split; reflexivity.
Qed.

Example C94_passing_example :
  let ts := [[StDo CheckPasses; StDo CheckPasses]; [StLock; StDo CheckPasses; StUnlock; StDo CheckPasses]; [StDo CheckPasses]] in
  (forall p, In p ts -> ~ In CheckFails (does p) /\ guarded false false p) /\
  exists c, crun check_code [2;0;1;1;0;0;2;1;0;1;1;1] (fork 4%Z ts) = inl c /\ length (log c) = 5 /\ shared c = 4%Z.
Proof.
  split.
  - intros p [<-|[<-|[<-|[]]]]; cbn; (split; [intuition discriminate|intuition]).
  - eexists. vm_compute. split; [reflexivity|]. split; reflexivity.
Qed.

(** ** C95: each use of HELPER_WARN_ONCE or HELPER_DEPRECATED reports once however many threads come by it, and reports come out whole.
    Intended: forall ts s0, (forall i p, nth_error ts i = Some p -> guarded false false p) -> forall sch, exists c,
      crun report_code sch (fork s0 ts) = inl c /\ ~ race c /\ (idle c -> err (shared c) = err s0 ++ reported .. (map snd (history c))).
    Refuted: whenever two threads first come by the same use, they race for its flag, and both may report. *)
Theorem C95_refuted :
  forall (text : Type) (ts : list (list (stm (report text)))) (s0 : rep text) (i j : nat) p q (site : nat) (l l' : list text),
  i <> j -> first_time s0 site = true -> nth_error ts i = Some (StDo (Once site l) :: p) -> nth_error ts j = Some (StDo (Once site l') :: q) ->
  (exists sch c, crun report_code sch (fork s0 ts) = inl c /\ race_at site c) /\
  (exists sch c, crun report_code sch (fork s0 ts) = inl c /\ map snd (history c) = [Once site l; Once site l'] /\ err (shared c) = err s0 ++ l ++ l').
Proof. exact @once_twice. Qed.
Print Assumptions C95_refuted.
(** What holds: if the reports are made with one mutex held, or by the same thread, they come out whole, one after the other, and each use
    of HELPER_WARN_ONCE reports once. *)
Theorem C95_once_partial :
  forall (text : Type) (ts : list (list (stm (report text)))) (s0 : rep text), protected ts ->
  forall sch, exists c, crun report_code sch (fork s0 ts) = inl c /\ ~ race c /\ merged ts (history c) /\
    (idle c -> err (shared c) = err s0 ++ reported (fun k => negb (first_time s0 k)) (map snd (history c))) /\
    exists sch' c', crun report_code (sch ++ sch') (fork s0 ts) = inl c' /\ forall t, In t (threads c') -> finished t.
Proof. exact @reports_good. Qed.
Print Assumptions C95_once_partial.
(** HELPER_NOTIFY, HELPER_WARN and HELPER_ERROR need no mutex to be free of data races; nothing is lost or inserted twice, and the insertions of
    each thread come in its order, but between them may come those of other threads.
    Missing: whole reports, and HELPER_WARN_ONCE, without a mutex. *)
Theorem C95_warnings_partial :
  forall (text : Type) (ts : list (list (stm (report text)))) (s0 : rep text),
  (forall p, In p ts -> warns p /\ guarded false false p) ->
  forall sch, exists c w, crun report_code sch (fork s0 ts) = inl c /\ ~ race c /\ err (shared c) = err s0 ++ w /\ interleaves (map inserts ts) w /\
    ((forall t, In t (threads c) -> finished t) -> length w = list_sum (map (fun p => length (inserts p)) ts)).
Proof. exact @warns_good. Qed.
Print Assumptions C95_warnings_partial.

Definition quiet : rep string := mkRep (fun _ => true) [].
Definition warning (x : string) : list string := ["WARNING: "; x; ""; "
"]%string.
Definition locked_reports : list (list (stm (report string))) :=
  [[StLock; StDo (Once 0 (warning "a")); StDo (Warn (warning "b")); StUnlock]; [StLock; StDo (Once 0 (warning "a")); StDo (Once 1 (warning "c")); StUnlock]].
Example C95_example :
  protected locked_reports /\
  exists c, crun report_code [0;1;0;0;0;1;0;0;0;0;0;0;0;0;0;0;0;0;0;0;0;1;1;1;1;1;1;1;1;1;1;1;1;1;1] (fork quiet locked_reports) = inl c /\
    (forall t, In t (threads c) -> finished t) /\ err (shared c) = warning "a" ++ warning "b" ++ warning "c".
Proof.
  split.
  - left. intros [|[|i]] p E; [| |destruct i; discriminate]; injection E as <-; cbn; tauto.
  - eexists. vm_compute. split; [reflexivity|]. split; [|reflexivity]. intros t [<-|[<-|[]]]; split; reflexivity.
Qed.
(** without the mutex reports are torn *)
Example C95_torn_example :
  let ts := [[StDo (Warn (warning "a"))]; [StDo (Warn (warning "b"))]] in
  (forall p, In p ts -> warns p /\ guarded false false p) /\
  exists c, crun report_code [0;0;1;1;1;0;0;1;0;1;0;1] (fork quiet ts) = inl c /\
    err (shared c) = ["WARNING: "; "WARNING: "; "b"; "a"; ""; ""; "
"; "
"]%string.
Proof.
  split.
  - intros p [<-|[<-|[]]]; (split; [intros site l [H|[]]; discriminate|cbn; auto]).
  - eexists. vm_compute. split; reflexivity.
Qed.
