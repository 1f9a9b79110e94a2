(** LruPerfProps.v -- the properties C86-C88: an LRU cache used in front of a function.  Statements
    only; the lemmas are in LruPerfProofs.v and LruTightProofs.v. *)
From Verif Require Import Base StdOrd LruModel LruPerfSpec LruPerfProofs LruTightProofs.

(** ** C86 *)
Theorem C86_memoisation :
  forall (L V : Type) (ltb : L -> L -> bool), SWO ltb ->
  forall f : L -> V, (forall a b, eqvb ltb a b = true -> f a = f b) ->
  forall (m : Z) (ls : list L), (0 < m < 2 ^ 64)%Z ->
  option_map (map snd) (answers ltb f m ls) = Some (map f ls).
Proof. exact @memo. Qed.
Print Assumptions C86_memoisation.

Example C86_example :
  answers Nat.ltb (fun n => n * n) 2 [3; 4; 3; 5; 4; 3] =
    Some [(false, 9); (false, 16); (true, 9); (false, 25); (false, 16); (false, 9)] /\
  answers mod10_ltb (fun n => Nat.modulo n 10) 2 [13; 4; 3; 24; 33] =
    Some [(false, 3); (false, 4); (true, 3); (true, 4); (true, 3)].
Proof. vm_compute. split; reflexivity. Qed.
(** the hypothesis on f is needed: equivalent labels share one stored value *)
Example C86_needs_compatible_function :
  answers mod10_ltb (fun n => n) 2 [13; 3] = Some [(false, 13); (true, 13)].
Proof. vm_compute. reflexivity. Qed.

(** ** C87 *)
Theorem C87_hit_iff_recent :
  forall (L V : Type) (ltb : L -> L -> bool), SWO ltb ->
  forall f : L -> V, (forall a b, eqvb ltb a b = true -> f a = f b) ->
  forall m pre l post h b, (0 < m < 2 ^ 64)%Z ->
  hits ltb f m (pre ++ l :: post) = Some h -> nth_error h (length pre) = Some b ->
  b = true <-> recent ltb m pre l.
Proof. exact @hits_recent. Qed.
Print Assumptions C87_hit_iff_recent.

Theorem C87_every_request_answered :
  forall (L V : Type) (ltb : L -> L -> bool), SWO ltb ->
  forall f : L -> V, (forall a b, eqvb ltb a b = true -> f a = f b) ->
  forall m ls, (0 < m < 2 ^ 64)%Z -> exists h, hits ltb f m ls = Some h /\ length h = length ls.
Proof. exact @hits_total. Qed.
Print Assumptions C87_every_request_answered.

Theorem C87_larger_cache_no_worse :
  forall (L V : Type) (ltb : L -> L -> bool), SWO ltb ->
  forall f : L -> V, (forall a b, eqvb ltb a b = true -> f a = f b) ->
  forall m m' ls, (0 < m <= m')%Z -> (m' < 2 ^ 64)%Z ->
  exists h h' n n', hits ltb f m ls = Some h /\ hits ltb f m' ls = Some h' /\
    misses ltb f m ls = Some n /\ misses ltb f m' ls = Some n' /\
    Forall2 (fun b b' => b = true -> b' = true) h h' /\ n' <= n.
Proof. exact @larger. Qed.
Print Assumptions C87_larger_cache_no_worse.

Example C87_example :
  hits Nat.ltb (fun n => n) 3 [1; 2; 3; 1; 4; 2; 5; 1] =
    Some [false; false; false; true; false; false; false; false] /\
  hits Nat.ltb (fun n => n) 4 [1; 2; 3; 1; 4; 2; 5; 1] =
    Some [false; false; false; true; false; true; false; true].
Proof. vm_compute. split; reflexivity. Qed.
Example C87_example_recent : recent Nat.ltb 3 [7; 1; 2; 2; 1; 8] 2 /\ ~ recent Nat.ltb 2 [7; 1] 8.
Proof.
  split.
  - exists [7; 1; 2], 2, [1; 8]. vm_compute. auto.
  - intros (a & b & c & E & Hb & _).
    assert (Hin : In b [7; 1]) by (rewrite E; apply in_or_app; simpl; auto).
    destruct Hin as [<-|[<-|[]]]; discriminate.
Qed.

(** ** C88 *)
Theorem C88_competitive :
  forall (L V : Type) (ltb : L -> L -> bool), SWO ltb ->
  forall f : L -> V, (forall a b, eqvb ltb a b = true -> f a = f b) ->
  forall (m : Z) (h : nat) ls contents, (0 < m < 2 ^ 64)%Z -> (Z.of_nat h <= m)%Z ->
  strategy ltb h [] ls contents ->
  exists n, misses ltb f m ls = Some n /\
    ((m - Z.of_nat h + 1) * Z.of_nat n
     <= m * Z.of_nat (faults ltb [] ls contents) + (m - Z.of_nat h + 1) * m)%Z.
Proof. exact @competitive. Qed.
Print Assumptions C88_competitive.

(** the bound cannot be improved: there are sequences, as long as one likes, on which the cache evaluates the
    function at every request, m times as often as another strategy has to fetch m-h+1 labels *)
Theorem C88_reached :
  forall (V : Type) (f : nat -> V) (m h n : nat), 0 < h <= m -> (Z.of_nat m < 2 ^ 64)%Z ->
  exists ls contents, strategy Nat.ltb h [] ls contents /\
    misses Nat.ltb f (Z.of_nat m) ls = Some (h + n * m) /\
    faults Nat.ltb [] ls contents = h + n * (m - h + 1).
Proof. exact @tight. Qed.
Print Assumptions C88_reached.

Theorem C88_best_factor :
  forall (V : Type) (f : nat -> V) (m h p q b : nat), 0 < h <= m -> (Z.of_nat m < 2 ^ 64)%Z ->
  (forall ls contents n, strategy Nat.ltb h [] ls contents -> misses Nat.ltb f (Z.of_nat m) ls = Some n ->
     p * n <= q * faults Nat.ltb [] ls contents + b) ->
  p * m <= q * (m - h + 1).
Proof. exact @best_factor. Qed.
Print Assumptions C88_best_factor.

(** a cache with three places against two places used with knowledge of the future: three rounds *)
Example C88_example_reached :
  let ls := [0; 1; 2; 3; 0; 4; 5; 3; 6; 7; 5] in
  let other := [[0]; [0; 1]; [2; 0]; [3; 0]; [3; 0]; [4; 3]; [5; 3]; [5; 3]; [6; 5]; [7; 5]; [7; 5]] in
  strategy Nat.ltb 2 [] ls other /\ faults Nat.ltb [] ls other = 2 + 3 * 2 /\
  misses Nat.ltb (fun n => n) 3 ls = Some (2 + 3 * 3).
Proof.
  assert (H : forall (s s' : list nat), (forall x, In x s' -> In x s) ->
            forall x, among Nat.ltb x s' = true -> among Nat.ltb x s = true).
  { intros s s' Hs x Hx. apply existsb_exists in Hx as (y & Hy & E). apply existsb_exists. exists y. auto. }
  cbn [strategy length]. repeat split; try lia; try (vm_compute; reflexivity); apply H; simpl; intuition.
Qed.
(** the hypothesis of the last theorem is met with the numbers of the bound itself *)
Example C88_example_factor : forall ls contents n, strategy Nat.ltb 2 [] ls contents ->
  misses Nat.ltb (fun n => n) 3 ls = Some n -> 2 * n <= 3 * faults Nat.ltb [] ls contents + 6.
Proof.
  intros ls contents n Hs Hn.
  destruct (C88_competitive nat nat Nat.ltb swo_nat (fun n => n)
    (fun a b E => proj1 (same a b) E) 3 2 ls contents ltac:(lia) ltac:(lia) Hs) as (n' & Hn' & Hb).
  rewrite Hn in Hn'. injection Hn' as <-. lia.
Qed.

(** the best strategy with two places on a cyclic sequence, which is the worst for LRU *)
Example C88_example :
  let ls := [1; 2; 3; 1; 2; 3; 1] in
  let best := [[1]; [1; 2]; [1; 3]; [1; 3]; [2; 3]; [2; 3]; [1; 3]] in
  strategy Nat.ltb 2 [] ls best /\ faults Nat.ltb [] ls best = 5 /\
  misses Nat.ltb (fun n => n) 2 ls = Some 7 /\ misses Nat.ltb (fun n => n) 3 ls = Some 3.
Proof.
  assert (H : forall (s s' : list nat), (forall x, In x s' -> In x s) ->
            forall x, among Nat.ltb x s' = true -> among Nat.ltb x s = true).
  { intros s s' Hs x Hx. apply existsb_exists in Hx as (y & Hy & E). apply existsb_exists. exists y. auto. }
  cbn [strategy length]. repeat split; try lia; try (vm_compute; reflexivity); apply H; simpl; intuition.
Qed.
