(** TraceMemProofs.v -- lemmas about TraceMemModel.v. *)
From Verif Require Import Base StreamModel TraceModel TraceSpec TraceMemModel TraceMemSpec.
Open Scope list_scope.
Open Scope nat_scope.

Section P.
Context (P : platform).

(** ** insertions *)
Lemma insert_cases t s :
  (exists bs, insert t s = Ret tt (mkMS (heap s) (out s ++ t) (nomem s) bs) /\ (breaks s = [] -> bs = [])) \/
  (exists bs, insert t s = Exc EIosFailure (mkMS (heap s) (out s) (nomem s) bs) /\ breaks s = true :: bs).
Proof.
  unfold insert. destruct (breaks s) as [|[] bs].
  - left. exists []. auto.
  - right. exists bs. auto.
  - left. exists bs. split; [reflexivity|discriminate].
Qed.

(** ** one frame: [h] before the block of the symbols, [k] freed blocks after it *)
Definition inside (h : list (option block)) (L : list text) (s : mstate) : Prop := exists k, heap s = h ++ Some (Strings L) :: repeat None k.

Lemma load_symbols h L s : inside h L s -> load (length h) s = Ret (Strings L) s.
Proof. intros [k E]. unfold load. rewrite E, nth_error_app_mid. reflexivity. Qed.

Lemma repeat_snoc (A : Type) (x : A) k : repeat x k ++ [x] = repeat x (S k).
Proof. induction k as [|k IH]; [reflexivity|]. cbn [repeat app]. rewrite IH. reflexivity. Qed.

(** the text of a frame when nothing throws *)
Definition good (R : res mstate unit) (h : list (option block)) (L : list text) : Prop :=
  match R with
  | Ret _ s' => inside h L s'
  | Exc e s' => e = EIosFailure /\ exists l, heap s' = h ++ Some (Strings L) :: l
  | Ub r => r = UbNull
  | _ => False
  end.

Ltac ins t s :=
  let bs := fresh "bs" in let E := fresh "E" in let N := fresh "N" in
  destruct (insert_cases t s) as [(bs & E & N)|(bs & E & N)]; rewrite E; cbn [heap out nomem breaks]; clear E.

Lemma frame_good h L i a s t : inside h L s -> nth_error L i = Some t -> good (frame_memory P (Some (length h)) i a s) h L.
Proof.
  intros H Ht. unfold frame_memory. destruct (dladdr P a) as [sname|].
  - unfold string_at, bind. rewrite (load_symbols h L s H), Ht. cbn [ret].
    destruct H as [k Hk]. unfold ret, cxa_demangle.
    assert (PLAIN : forall s0, heap s0 = heap s ->
      good (match match sname with Some n => insert n | None => undefined UbNull end s0 with
            | Ret _ s1 => match insert newline s1 with Ret _ s2 => free None s2 | Exc e s2 => Exc e s2 | Ub r => Ub r | Abort => Abort | Fuel => Fuel end
            | Exc e s1 => Exc e s1 | Ub r => Ub r | Abort => Abort | Fuel => Fuel end) h L).
    { intros s0 E0. destruct sname as [n|]; [|reflexivity].
      ins n s0; [|cbn; split; [reflexivity|]; eexists; rewrite E0; exact Hk].
      ins newline (mkMS (heap s0) (out s0 ++ n) (nomem s0) bs); cbn; [exists k|split; [reflexivity|eexists]]; cbn; rewrite E0; exact Hk. }
    destruct (hd false (nomem s)); [apply PLAIN; reflexivity|].
    destruct (demangle P t) as [d|]; [|apply PLAIN; reflexivity].
    unfold bind, malloc, ret. cbn [heap out nomem breaks]. unfold load. cbn [heap]. rewrite nth_error_app_mid. cbn [Nat.eqb].
    match goal with |- context [insert d ?s0] => ins d s0 end; [|split; [reflexivity|]; eexists; cbn [heap]; rewrite Hk, <- app_assoc; reflexivity].
    match goal with |- context [insert newline ?s0] => ins newline s0 end; [|split; [reflexivity|]; eexists; cbn [heap]; rewrite Hk, <- app_assoc; reflexivity].
    unfold free. cbn [heap]. rewrite nth_error_app_mid, upd_app_mid. exists (S k). cbn [heap]. rewrite Hk, <- app_assoc. cbn [app].
    rewrite repeat_snoc. reflexivity.
  - destruct H as [k Hk]. unfold bind.
    ins (int_text (Z.of_nat i)) s; [|split; [reflexivity|eexists; exact Hk]].
    repeat match goal with |- context [insert ?t ?s0] => ins t s0; [|split; [reflexivity|eexists; exact Hk]] end.
    exists k. exact Hk.
Qed.

Lemma frames_good l : forall h L i s, inside h L s -> i + length l = length L ->
  good (frames_memory P (Some (length h)) i l s) h L.
Proof.
  induction l as [|a l IH]; intros h L i s H Hl; cbn [frames_memory]; [exact H|].
  cbn [length] in Hl. destruct (nth_error L i) as [t|] eqn:Ht; [|apply nth_error_None in Ht; lia].
  pose proof (frame_good h L i a s t H Ht) as G. unfold bind.
  destruct (frame_memory P (Some (length h)) i a s) as [u s1|e s1|r| |]; cbn [good] in *; try exact G.
  apply IH; [exact G|lia].
Qed.

(** ** the whole function *)
Lemma trace_memory s : symbols_ok P = true ->
  match stack_trace_memory P s with
  | Ret _ s' => nothing_left s s'
  | Exc e s' => e = EIosFailure /\ left_over (Strings (map (symbol P) (firstn 128 (stack P)))) s s'
  | Ub r => r = UbNull
  | _ => False
  end.
Proof.
  intros Hok. unfold stack_trace_memory. rewrite Hok. unfold bind at 1 2, malloc, ret.
  set (L := map (symbol P) (firstn CALLSTACK_SIZE (stack P))). unfold bind.
  set (s0 := mkMS (heap s ++ [Some (Strings L)]) (out s) (nomem s) (breaks s)).
  pose proof (frames_good (firstn CALLSTACK_SIZE (stack P)) (heap s) L 0 s0) as G.
  assert (H0 : inside (heap s) L s0) by (exists 0; reflexivity).
  specialize (G H0 ltac:(unfold L; rewrite map_length; reflexivity)).
  destruct (frames_memory P (Some (length (heap s))) 0 (firstn CALLSTACK_SIZE (stack P)) s0) as [u s1|e s1|r| |]; cbn [good] in G; try exact G.
  - destruct G as [k E]. unfold free. rewrite E, nth_error_app_mid, upd_app_mid. exists (S k). reflexivity.
  - destruct G as [-> [l E]]. split; [reflexivity|]. exists (Some (Strings L) :: l). split; [exact E|left; reflexivity].
Qed.

Lemma trace_returns s s' : stack_trace_memory P s = Ret tt s' -> nothing_left s s'.
Proof.
  intros E. destruct (symbols_ok P) eqn:Hok.
  - pose proof (trace_memory s Hok) as G. rewrite E in G. exact G.
  - unfold stack_trace_memory in E. rewrite Hok in E. unfold bind at 1 in E. unfold ret at 1 in E.
    destruct (ndebug P); [|discriminate E].
    assert (K : forall l i s0 s1, frames_memory P None i l s0 = Ret tt s1 -> heap s1 = heap s0).
    { induction l as [|a l IH]; intros i s0 s1 H; cbn [frames_memory] in H; [injection H as <-; reflexivity|].
      unfold bind at 1 in H. unfold frame_memory in H. destruct (dladdr P a); [discriminate H|]. revert H. unfold bind.
      repeat match goal with |- context [insert ?t ?s2] => ins t s2; [|discriminate] end. intro H. apply IH in H. exact H. }
    unfold bind in E. destruct (frames_memory P None 0 (firstn CALLSTACK_SIZE (stack P)) s) as [u s1|e s1|r| |] eqn:F; try discriminate E.
    destruct u. apply K in F. injection E as <-. exists 0. rewrite app_nil_r. exact F.
Qed.

Lemma trace_throws s e s' : stack_trace_memory P s = Exc e s' -> symbols_ok P = true ->
  e = EIosFailure /\ left_over (Strings (map (symbol P) (firstn 128 (stack P)))) s s'.
Proof. intros E Hok. pose proof (trace_memory s Hok) as G. rewrite E in G. exact G. Qed.

(** ** the text is that of TraceModel.v *)
Definition same (R : res mstate unit) (T : res text unit) : Prop :=
  match R, T with
  | Ret _ s', Ret _ t => out s' = t /\ breaks s' = [] /\ nomem s' = []
  | Ub r, Ub r' => r = r'
  | Abort, Abort => True
  | _, _ => False
  end.
Lemma insert_quiet t s : breaks s = [] -> insert t s = Ret tt (mkMS (heap s) (out s ++ t) (nomem s) []).
Proof. unfold insert. intros ->. reflexivity. Qed.

Lemma frame_text h L i a s : symbols_ok P = true -> inside h L s -> nth_error L i = Some (symbol P a) -> breaks s = [] -> nomem s = [] ->
  same (frame_memory P (Some (length h)) i a s) (frame_line P i a (out s)).
Proof.
  intros Hok H Ht Hb Hn. unfold frame_memory, frame_line. rewrite Hok. destruct (dladdr P a) as [sname|].
  - unfold string_at, bind. rewrite (load_symbols h L s H), Ht. cbn [ret]. unfold ret, cxa_demangle. rewrite Hn. cbn [hd tl].
    destruct (demangle P (symbol P a)) as [d|].
    + unfold bind, malloc, ret. cbn [heap out nomem breaks]. unfold load. cbn [heap]. rewrite nth_error_app_mid. cbn [Nat.eqb].
      rewrite insert_quiet by exact Hb. cbn [heap out nomem breaks]. rewrite insert_quiet by reflexivity. cbn [heap out nomem breaks].
      unfold free. cbn [heap]. rewrite nth_error_app_mid. cbn. auto.
    + destruct sname as [n|]; [|cbn; auto]. rewrite insert_quiet by exact Hb. cbn [heap out nomem breaks]. rewrite insert_quiet by reflexivity.
      cbn. auto.
  - unfold bind. rewrite insert_quiet by exact Hb. rewrite !insert_quiet by reflexivity. cbn. auto.
Qed.

Lemma frames_text l : forall h i s pre, symbols_ok P = true -> inside h (map (symbol P) (pre ++ l)) s -> i = length pre -> breaks s = [] -> nomem s = [] ->
  same (frames_memory P (Some (length h)) i l s) (frame_lines P i l (out s)).
Proof.
  induction l as [|a l IH]; intros h i s pre Hok H Hi Hb Hn; cbn [frames_memory frame_lines]; [cbn; auto|].
  set (L := map (symbol P) (pre ++ a :: l)) in *.
  assert (Ht : nth_error L i = Some (symbol P a)).
  { unfold L. rewrite map_app. cbn [map]. subst i. rewrite <- (map_length (symbol P) pre). apply nth_error_app_mid. }
  pose proof (frame_good h L i a s _ H Ht) as G. pose proof (frame_text h L i a s Hok H Ht Hb Hn) as T. unfold bind.
  destruct (frame_memory P (Some (length h)) i a s) as [u s1|e s1|r| |], (frame_line P i a (out s)) as [u2 t|e2 t|r2| |]; cbn [same good] in *;
    try contradiction; try exact T.
  destruct T as (<- & Hb1 & Hn1). apply (IH h (S i) s1 (pre ++ [a]) Hok); [|rewrite app_length; cbn; lia|exact Hb1|exact Hn1].
  rewrite <- app_assoc. exact G.
Qed.

Lemma trace_text s : breaks s = [] -> nomem s = [] -> symbols_ok P = true ->
  match stack_trace_memory P s, stack_trace_enabled P (out s) with
  | Ret _ s', Ret _ t => out s' = t
  | Ub r, Ub r' => r = r'
  | _, _ => False
  end.
Proof.
  intros Hb Hn Hok. unfold stack_trace_memory, stack_trace_enabled. rewrite Hok. cbn [orb].
  unfold bind at 1 2. unfold malloc, ret. unfold bind.
  set (L := map (symbol P) (firstn CALLSTACK_SIZE (stack P))) in *.
  set (s0 := mkMS (heap s ++ [Some (Strings L)]) (out s) (nomem s) (breaks s)) in *.
  pose proof (frames_text (firstn CALLSTACK_SIZE (stack P)) (heap s) 0 s0 [] Hok) as T.
  assert (H0 : inside (heap s) (map (symbol P) ([] ++ firstn CALLSTACK_SIZE (stack P))) s0) by (exists 0; reflexivity).
  assert (HL : 0 + length (firstn CALLSTACK_SIZE (stack P)) = length L) by (unfold L; rewrite map_length; reflexivity).
  pose proof (frames_good (firstn CALLSTACK_SIZE (stack P)) (heap s) L 0 s0 H0 HL) as G.
  specialize (T H0 eq_refl Hb Hn).
  change (out s0) with (out s) in T.
  destruct (frames_memory P (Some (length (heap s))) 0 (firstn CALLSTACK_SIZE (stack P)) s0) as [u s1|e s1|r| |],
    (frame_lines P 0 (firstn CALLSTACK_SIZE (stack P)) (out s)) as [u2 t|e2 t|r2| |]; cbn [same] in T; try contradiction; try exact T.
  destruct T as (<- & _). destruct G as [k E]. unfold free. rewrite E, nth_error_app_mid. reflexivity.
Qed.

(** ** defined if all names are known, whatever throws and whatever memory the demangler finds *)
Lemma frame_known h L i a s t : inside h L s -> nth_error L i = Some t -> known P a ->
  forall r, frame_memory P (Some (length h)) i a s <> Ub r.
Proof.
  intros H Ht Hk r E. pose proof (frame_good h L i a s t H Ht) as G. rewrite E in G. cbn in G. subst r. revert E.
  unfold frame_memory. unfold known in Hk. destruct (dladdr P a) as [sname|].
  - unfold string_at, bind. rewrite (load_symbols h L s H), Ht. cbn [ret]. unfold ret, cxa_demangle.
    destruct sname as [n|]; [|congruence].
    assert (PLAIN : forall s0,
      match insert n s0 with
            | Ret _ s1 => match insert newline s1 with Ret _ s2 => free None s2 | Exc e s2 => Exc e s2 | Ub r => Ub r | Abort => Abort | Fuel => Fuel end
            | Exc e s1 => Exc e s1 | Ub r => Ub r | Abort => Abort | Fuel => Fuel end <> Ub UbNull).
    { intros s0. ins n s0; [|discriminate]. match goal with |- context [insert newline ?s1] => ins newline s1 end; discriminate. }
    destruct (hd false (nomem s)); [apply PLAIN|].
    destruct (demangle P t) as [d|]; [|apply PLAIN].
    unfold bind, malloc, ret. cbn [heap out nomem breaks]. unfold load. cbn [heap]. rewrite nth_error_app_mid. cbn [Nat.eqb].
    match goal with |- context [insert d ?s0] => ins d s0 end; [|discriminate].
    match goal with |- context [insert newline ?s0] => ins newline s0 end; [|discriminate].
    unfold free. cbn [heap]. rewrite nth_error_app_mid. discriminate.
  - unfold bind. ins (int_text (Z.of_nat i)) s; [|discriminate].
    repeat match goal with |- context [insert ?t ?s0] => ins t s0; [|discriminate] end. discriminate.
Qed.
Lemma frames_known l : forall h L i s, inside h L s -> i + length l = length L -> Forall (known P) l ->
  forall r, frames_memory P (Some (length h)) i l s <> Ub r.
Proof.
  induction l as [|a l IH]; intros h L i s H Hl Hk r; cbn [frames_memory]; [discriminate|].
  cbn [length] in Hl. destruct (nth_error L i) as [t|] eqn:Ht; [|apply nth_error_None in Ht; lia].
  inversion Hk as [|? ? Ka Kl]; subst.
  pose proof (frame_good h L i a s t H Ht) as G. pose proof (frame_known h L i a s t H Ht Ka) as N. unfold bind.
  destruct (frame_memory P (Some (length h)) i a s) as [u s1|e s1|r'| |]; cbn [good] in *; try discriminate; [|apply N].
  apply (IH h L); [exact G|lia|exact Kl].
Qed.
Lemma trace_known s : symbols_ok P = true -> Forall (known P) (firstn 128 (stack P)) ->
  (exists s', stack_trace_memory P s = Ret tt s' /\ nothing_left s s') \/
  (exists s', stack_trace_memory P s = Exc EIosFailure s').
Proof.
  intros Hok Hk. pose proof (trace_memory s Hok) as G.
  assert (N : forall r, stack_trace_memory P s <> Ub r).
  { intros r E. unfold stack_trace_memory in E. rewrite Hok in E. unfold bind at 1 2 in E. unfold malloc, ret in E. unfold bind in E.
    set (L := map (symbol P) (firstn CALLSTACK_SIZE (stack P))) in *.
    set (s0 := mkMS (heap s ++ [Some (Strings L)]) (out s) (nomem s) (breaks s)) in *.
    assert (H0 : inside (heap s) L s0) by (exists 0; reflexivity).
    assert (HL : 0 + length (firstn CALLSTACK_SIZE (stack P)) = length L) by (unfold L; rewrite map_length; reflexivity).
    pose proof (frames_good (firstn CALLSTACK_SIZE (stack P)) (heap s) L 0 s0 H0 HL) as G1.
    pose proof (frames_known (firstn CALLSTACK_SIZE (stack P)) (heap s) L 0 s0 H0 HL Hk) as N1.
    destruct (frames_memory P (Some (length (heap s))) 0 (firstn CALLSTACK_SIZE (stack P)) s0) as [u s1|e s1|r'| |]; try discriminate E.
    - destruct G1 as [k Ek]. unfold free in E. rewrite Ek, nth_error_app_mid in E. discriminate E.
    - exact (N1 r' eq_refl). }
  destruct (stack_trace_memory P s) as [[] s'|e s'|r| |]; try contradiction.
  - left. exists s'. auto.
  - right. exists s'. destruct G as [-> _]. reflexivity.
  - destruct (N r eq_refl).
Qed.

(** ** a stream that throws at the first insertion *)
Lemma trace_first s a l bs : symbols_ok P = true -> stack P = a :: l -> known P a -> breaks s = true :: bs ->
  exists s', stack_trace_memory P s = Exc EIosFailure s'.
Proof.
  intros Hok Es Hk Hb. unfold stack_trace_memory. rewrite Hok, Es. unfold bind at 1 2. unfold malloc, ret. unfold CALLSTACK_SIZE. cbn [firstn map frames_memory].
  set (l' := firstn 127 l). clearbody l'.
  unfold frame_memory. unfold known in Hk. destruct (dladdr P a) as [sname|].
  - destruct sname as [n|]; [|congruence]. unfold string_at, bind, load. cbn [heap]. rewrite nth_error_app_mid. cbn [nth_error ret]. unfold ret, cxa_demangle. cbn [heap out nomem breaks].
    destruct (hd false (nomem s)); [|destruct (demangle P (symbol P a)) as [d|]].
    + unfold insert. cbn [breaks]. rewrite Hb. eexists. reflexivity.
    + unfold bind, malloc, ret. cbn [heap out nomem breaks]. rewrite nth_error_app_mid. cbn [Nat.eqb]. unfold insert. cbn [breaks]. rewrite Hb. eexists. reflexivity.
    + unfold insert. cbn [breaks]. rewrite Hb. eexists. reflexivity.
  - unfold bind, insert. cbn [breaks]. rewrite Hb. eexists. reflexivity.
Qed.
Lemma trace_first_leaks s a l bs : symbols_ok P = true -> stack P = a :: l -> known P a -> breaks s = true :: bs ->
  exists s', stack_trace_memory P s = Exc EIosFailure s' /\ left_over (Strings (map (symbol P) (firstn 128 (stack P)))) s s'.
Proof.
  intros Hok Es Hk Hb. destruct (trace_first s a l bs Hok Es Hk Hb) as [s' E]. exists s'. split; [exact E|].
  exact (proj2 (trace_throws s _ s' E Hok)).
Qed.
End P.
