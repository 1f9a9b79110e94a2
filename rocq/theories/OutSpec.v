(** OutSpec.v -- what printing a text in pieces should do to a stream whose buffer may fail. *)
From Verif Require Import Base StreamModel StlioModel StlioSpec MaskModel OutModel.

(** [t'] is [t] filled up to [w] characters on the right or on the left *)
Definition filled (E : env) (w : nat) (t t' : text) : Prop :=
  List.length t' = Nat.max w (List.length t) /\
  exists k, t' = if e_left E then t ++ repeat (e_fill E) k else repeat (e_fill E) k ++ t.
(** the text of the pieces [ps] printed one after the other: a width applies to the first *)
Definition shown (E : env) (w : nat) (ps : list text) (t : text) : Prop :=
  match ps with
  | [] => t = []
  | p :: ps' => exists p', filled E w p p' /\ t = p' ++ concat ps'
  end.

(** the buffer does not take all of [p] or throws *)
Definition refuses (E : env) (o p : text) : Prop :=
  fst (e_dev E o p) < List.length p \/ snd (e_dev E o p) <> None.
(** [u] is what a buffer that has taken [o] takes of [t] when it is printed in pieces until one is refused *)
Definition cut (E : env) (o t u : text) : Prop :=
  exists x p y, t = x ++ p ++ y /\ refuses E (o ++ x) p /\ u = x ++ firstn (fst (e_dev E (o ++ x) p)) p.

(** Printing stops at a failed write: with badbit in the mask by an exception, without failbit and badbit silently *)
Definition stops (E : env) (r : res sink unit) (s' : sink) : Prop :=
  (r = Ret tt s' /\ m_bad (e_mask E) = false) \/
  (exists e, r = Exc e s' /\ (e = EIosFailure \/ exists o p, snd (e_dev E o p) = Some e) /\
     (m_bad (e_mask E) = true \/ m_fail (e_mask E) = true /\ e_strict E = true)).

(** a bit of the exception mask is set *)
Definition masked (E : env) (s : sink) : Prop :=
  (m_eof (e_mask E) = true /\ s_eof s = true) \/ (m_fail (e_mask E) = true /\ s_fail s = true) \/ (m_bad (e_mask E) = true /\ s_bad s = true).

(** The exception mask is heeded: whoever gets an exception finds a bit of the mask set, and whoever gets none finds no bit of the mask
    set that was not set before; none at all if a piece was to be written to a stream that was not good and says so by failbit *)
Definition heeds (E : env) (f : M sink unit) (ps : list text) : Prop := forall s,
  (s_hit E s = false -> forall s', f s = Ret tt s' -> s_hit E s' = false) /\
  (s_good s = false -> e_strict E = true -> ps <> [] -> forall s', f s = Ret tt s' -> s_hit E s' = false) /\
  (forall e s', f s = Exc e s' -> s_hit E s' = true).

(** [f], started with boolalpha = [a], prints the pieces [ps] and leaves boolalpha = [b] *)
Definition sends (E : env) (a b : bool) (f : M sink unit) (ps : list text) : Prop :=
  (forall s, s_alpha s = a -> s_good s = true -> exists t, shown E (s_width s) ps t /\
     ((exists s', f s = Ret tt s' /\ s_good s' = true /\ s_text s' = s_text s ++ t /\ s_alpha s' = b /\
         s_width s' = match ps with [] => s_width s | _ => 0 end) \/
      (exists s' u, stops E (f s) s' /\ s_bad s' = true /\ s_eof s' = false /\ s_text s' = s_text s ++ u /\ cut E (s_text s) t u))) /\
  (forall s, s_good s = false -> exists s', s_good s' = false /\ s_text s' = s_text s /\ s_bad s' = s_bad s /\ s_eof s' = s_eof s /\
     (f s = Ret tt s' \/ f s = Exc EIosFailure s' /\ e_strict E = true /\ s_hit E s' = true)) /\
  heeds E f ps.

(** the pieces of a sequence whose items have the pieces [l] *)
Fixpoint joined (sep : text) (l : list (list text)) : list text :=
  match l with
  | [] => []
  | [x] => x
  | x :: l' => x ++ sep :: joined sep l'
  end.
Definition bracketed (op sep cl : text) (l : list (list text)) : list text := op :: joined sep l ++ [cl].
Definition word_pieces (w : list bool) : list text :=
  match w with [] => [chars "e"] | _ => map (fun b : bool => if b then chars "1" else chars "0") w end.

(** a buffer that takes everything *)
Definition takes_all (E : env) : Prop := forall o p, ~ refuses E o p.

(** lists of integers nested to depth [n] *)
Fixpoint snest_print (E : env) (n : nat) : nest n -> M sink unit :=
  match n with O => insert_int E | S k => sprint_vector E (snest_print E k) end.
Fixpoint nest_pieces (n : nat) : nest n -> list text :=
  match n with
  | O => fun z => [int_text z]
  | S k => fun l => bracketed (chars "[") (chars ",") (chars "]") (map (nest_pieces k) l)
  end.

(** what StreamModel.v keeps of a stream, and agreement with a printer on its streams *)
Definition view (s : sink) : ostream := mkO (s_text s) (s_alpha s).
Definition mirrors (f : M sink unit) (g : ostream -> ostream) : Prop :=
  forall s, s_good s = true -> s_width s = 0 ->
  exists s', f s = Ret tt s' /\ s_good s' = true /\ s_width s' = 0 /\ view s' = g (view s).
