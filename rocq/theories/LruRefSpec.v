(** LruRefSpec.v -- what a client that passes on references expects: that it makes no difference, i.e. what happens if every
    get yields a value. *)
From Verif Require Import Base StdOrd LruModel LruSpec LruRefModel.

Section LruRefSpec.
  Context {T : Type} (ltb : T -> T -> bool).
  Notation rlist := (rlist T T).

  (** arguments as values, or the exception thrown by a get *)
  Fixpoint spec_eval (s : rlist) (e : cexp T) : rlist * (T + exn) :=
    match e with
    | CLit x => (s, inl x)
    | CGet e' => match spec_eval s e' with
                 | (s', inl x) => match spec_step ltb s' (OGet x) with
                                  | (s'', RVal v) => (s'', inl v)
                                  | (s'', RThrow ex) => (s'', inr ex)
                                  | (s'', _) => (s'', inr ERuntime)
                                  end
                 | r => r
                 end
    end.
  (** two arguments, [e1] first *)
  Definition spec_two (s : rlist) (e1 e2 : cexp T) : rlist * (T * T + exn) :=
    match spec_eval s e1 with
    | (s1, inl x) => match spec_eval s1 e2 with
                     | (s2, inl y) => (s2, inl (x, y))
                     | (s2, inr ex) => (s2, inr ex)
                     end
    | (s1, inr ex) => (s1, inr ex)
    end.
  Definition after (f : T -> op T T) (r : rlist * (T + exn)) : rlist * out T :=
    match r with (s, inl x) => spec_step ltb s (f x) | (s, inr ex) => (s, RThrow ex) end.
  Definition spec_cstep (ltr : bool) (s : rlist) (st : cst T) : rlist * out T :=
    match st with
    | SPut l v =>
        match (if ltr then spec_two s l v else spec_two s v l) with
        | (s', inl (x, y)) => spec_step ltb s' (if ltr then OPut x y else OPut y x)
        | (s', inr ex) => (s', RThrow ex)
        end
    | SHas e => after OHas (spec_eval s e)
    | SAge e => after OAge (spec_eval s e)
    | SGet e => after OGet (spec_eval s e)
    end.
  Fixpoint spec_crun (ltr : bool) (s : rlist) (p : list (cst T)) : rlist * list (out T) :=
    match p with
    | [] => (s, [])
    | st :: t => let (s', r) := spec_cstep ltr s st in let (s'', rs) := spec_crun ltr s' t in (s'', r :: rs)
    end.

  (** how many times get is called in an argument *)
  Fixpoint gets (e : cexp T) : Z := match e with CLit _ => 0 | CGet e' => gets e' + 1 end%Z.
  Definition is_get (e : cexp T) : Prop := (0 < gets e)%Z.
  (** the cache has more places than elements are got in evaluating the arguments of a put, counting only the outermost get of
      the argument evaluated first *)
  Definition roomy (cap : Z) (ltr : bool) (st : cst T) : Prop :=
    match st with
    | SPut l v => let '(e1, e2) := if ltr then (l, v) else (v, l) in
                  (is_get e1 -> 1 + gets e2 < cap)%Z /\ (is_get e2 -> 1 < cap)%Z
    | _ => True
    end.

  (** the reference [r] designates the element that a put evicts: the cache is full, and it is the oldest one *)
  Definition evicted (c : cache T T) (r : vref T) : Prop :=
    current_size c = maximum_size c /\
    match r with
    | VVal _ => False
    | VNode a => exists n, In n (c_elems c) /\ n_addr n = a /\ n_age n = (maximum_size c - 1)%Z
    end.
End LruRefSpec.
