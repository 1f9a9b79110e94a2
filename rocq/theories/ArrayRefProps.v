(** ArrayRefProps.v -- property C152: references to elements of arrays. *)
From Verif Require Import Base ArrayModel ArraySpec ArrayRefSpec ArrayRefProofs.
Open Scope nat_scope.

(** C152: a reference to an element of an array stays a reference to that element while the program goes on with
    other arrays, with the elements, or fails, until the array is destroyed, assigned from an array of another size,
    reallocated or resized to another size, from when on it must not be used; moving and swapping arrays takes the
    references along.
    [p1] runs before the reference [r] to a[i] is taken, [p2] after it.  The reference is the one that element [i] of
    array [a'] would give, and reading it reads that element; nothing is claimed once another array has been moved
    to the one with the element. *)
Theorem C152_references : forall V (sz : Z) (dflt : V) neq (eq_dec : forall x y : V, {x = y} + {x <> y}),
  (0 < sz)%Z -> (forall x y, neq x y = true <-> x <> y) ->
  forall n p1 l1 m1 p2 l2 m2 a i own l,
    sexec sz dflt eq_dec (vinit n) p1 = Some (l1, m1) -> sexec sz dflt eq_dec m1 p2 = Some (l2, m2) ->
    lookup m1 a = Some (own, l) -> i < length l ->
    exists s1 r s2,
      run sz dflt neq p1 (init n) = Ret l1 s1 /\ elem_ref a i s1 = Ret r s1 /\ run sz dflt neq p2 s1 = Ret l2 s2 /\
      match fate_of sz dflt eq_dec m1 p2 a with
      | InArray a' => elem_ref a' i s2 = Ret r s2 /\
          exists own' l' c, lookup m2 a' = Some (own', l') /\ length l' = length l /\ nth_error l' i = Some c /\
            load (fst r) (snd r) s2 = match c with Some v => Ret v s2 | None => Ub UbUninit end
      | Released => load (fst r) (snd r) s2 = Ub UbDangling
      | MovedOver => True
      end.
Proof. exact (fun V sz dflt neq eq_dec H1 H2 => reference_fate sz dflt neq eq_dec H1 H2). Qed.
(** after {1,2,3} a reference to the last element is taken; it follows the elements through a failing resize, an
    assignment of the same size, a move and a swap, and ends with a resize *)
Example C152_example :
  let p1 := [(OpFrom 0 (SList (fun v => v) [1; 2; 3]%Z), None); (OpFrom 1 (SList (fun v => v) [7; 8; 9]%Z), None)] in
  let m1 := mkVst [VArr true [Some 1; Some 2; Some 3]; VArr true [Some 7; Some 8; Some 9]; VDead; VDead]%Z 0 0 in
  let p2 := [(OpResize 0 5 None, Some 2); (OpAssign 0 1, None); (OpMove 2 0, None); (OpSwap 2 1, None); (OpSet 1 2 (AVal 4%Z), None)] in
  sexec 4 0%Z Z.eq_dec (vinit 4) p1 = Some ([ODone; ODone], m1) /\
  sexec 4 0%Z Z.eq_dec m1 p2 = Some ([OExc (EUser 0); ODone; ODone; ODone; ODone],
    mkVst [VArr false []; VArr true [Some 7; Some 8; Some 4]; VArr true [Some 7; Some 8; Some 9]; VDead]%Z 1 1) /\
  fate_of 4 0%Z Z.eq_dec m1 p2 0 = InArray 1 /\
  fate_of 4 0%Z Z.eq_dec m1 (p2 ++ [(OpAssignRange 1 (SRange (fun v => v) 2 0 1), None)]) 0 = Released /\
  fate_of 4 0%Z Z.eq_dec m1 [(OpMoveAssign 0 1, None)] 0 = MovedOver.
Proof. vm_compute. repeat split. Qed.
Print Assumptions C152_references.
