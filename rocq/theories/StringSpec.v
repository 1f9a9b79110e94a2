(** StringSpec.v -- what to_string and c_str should do.  Only the syntax of values and programs is taken from the model. *)
From Verif Require Import Base StreamModel WordModel StringModel.

(** ** Printed values as sequences of pieces *)
Inductive piece := Chars (t : text) | ABool (b : bool) | Bits (w : list bool).
(** the pieces of several values, with [sep] between *)
Definition joined (sep : text) (l : list (list piece)) : list piece :=
  match l with
  | [] => []
  | p :: l' => p ++ concat (map (fun q => Chars sep :: q) l')
  end.
Fixpoint pieces (v : value) : list piece :=
  match v with
  | VInt z => [Chars (int_text z)]
  | VBool b => [ABool b]
  | VText t => [Chars t]
  | VWord w => [Bits w]
  | VVector l | VLinked l => Chars (chars "[") :: joined (chars ",") (map pieces l) ++ [Chars (chars "]")]
  | VSet l => Chars (chars "{") :: joined (chars ",") (map pieces l) ++ [Chars (chars "}")]
  | VMap m => Chars (match m with [] => chars "{" | _ => chars "{ " end)
              :: joined (chars ", ") (map (fun e => pieces (fst e) ++ Chars (chars ":") :: pieces (snd e)) m)
              ++ [Chars (chars " }")]
  | VPair x y => Chars (chars "(") :: joined (chars ",") [pieces x; pieces y] ++ [Chars (chars ")")]
  end.
(** a bool is printed by name after boolalpha, otherwise as a number; printing a word that is not empty leaves boolalpha set *)
Fixpoint text_of (alpha : bool) (ps : list piece) : text :=
  match ps with
  | [] => []
  | Chars t :: ps' => t ++ text_of alpha ps'
  | ABool b :: ps' => (if alpha then if b then chars "true" else chars "false" else if b then chars "1" else chars "0")
                      ++ text_of alpha ps'
  | Bits [] :: ps' => chars "e" ++ text_of alpha ps'
  | Bits w :: ps' => map (fun b : bool => if b then "1"%char else "0"%char) w ++ text_of true ps'
  end.
(** a bool is printed before any word that is not empty *)
Inductive exposes_bool : list piece -> Prop :=
| exp_here : forall b ps, exposes_bool (ABool b :: ps)
| exp_chars : forall t ps, exposes_bool ps -> exposes_bool (Chars t :: ps)
| exp_empty : forall ps, exposes_bool ps -> exposes_bool (Bits [] :: ps).
(** a word that is not empty is printed *)
Definition prints_word (ps : list piece) : Prop := exists w, w <> [] /\ In (Bits w) ps.

(** ** Programs with pointers *)
(** statement that ends the validity of pointers into [k], and that give pointer [p] another value *)
Definition disturbs (k : nat) (o : cop) : Prop :=
  match o with CNew j _ _ | CSet j _ | CDestroy j => j = k | _ => False end.
Definition rebinds (p : nat) (o : cop) : Prop :=
  match o with CBind q _ | CBindValue q _ => q = p | _ => False end.
(** the last statement about the variable [k] gave it class [c] and contents [t] *)
Inductive holds (k : nat) : list cop -> string_class -> text -> Prop :=
| holds_new : forall p c t, holds k (p ++ [CNew k c t]) c t
| holds_set : forall p c t t', holds k p c t -> holds k (p ++ [CSet k t']) c t'
| holds_keep : forall p c t o, holds k p c t -> ~ disturbs k o -> holds k (p ++ [o]) c t.
(** no NUL in a text *)
Definition nul_free (t : text) : Prop := Forall (fun c => nat_of_ascii c <> 0) t.
