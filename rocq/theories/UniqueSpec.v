(** UniqueSpec.v -- values of nested printable types and how StlioModel.v and WordModel.v print them, for C158.  Definitions only. *)
From Verif Require Import Base StreamModel StlioModel WordModel.

(** which operator<< of container.hpp (50-58, 60-68, 127-135, 155-158, 238-246) prints a sequence *)
Inductive seq_kind := KArray | KShared | KVector | KStdList | KSet.
Inductive shape := PInt | PBool | PStr | PWord | PSeq (k : seq_kind) (s : shape) | PMap (k v : shape) | PPair (a b : shape) | PTuple (l : shapes)
(** the components of a tuple, at least one *)
with shapes := POne (a : shape) | PMore (a : shape) (l : shapes).
Fixpoint val (s : shape) : Type :=
  match s with
  | PInt => Z | PBool => bool | PStr => text | PWord => word
  | PSeq _ s => list (val s) | PMap k v => list (val k * val v) | PPair a b => (val a * val b)%type
  | PTuple l => vals l
  end
with vals (l : shapes) : Type := match l with POne a => val a | PMore a l => (val a * vals l)%type end.
Definition print_seq {T} (k : seq_kind) (pr : T -> ostream -> ostream) : list T -> ostream -> ostream :=
  match k with KArray => print_array pr | KShared => print_shared_array pr | KVector => print_vector pr | KStdList => print_list pr | KSet => print_set pr end.
(** print_tuple gives a stream if there are components *)
Definition print_some (tup : list (ostream -> ostream)) (o : ostream) : ostream := match print_tuple tup o with Some o' => o' | None => o end.
Fixpoint print (s : shape) : val s -> ostream -> ostream :=
  match s with
  | PInt => print_int | PBool => print_bool | PStr => print_string | PWord => print_word
  | PSeq k s => print_seq k (print s)
  | PMap k v => print_map (print k) (print v)
  | PPair a b => print_pair (print a) (print b)
  | PTuple l => fun t => print_some (printers l t)
  end
with printers (l : shapes) : vals l -> list (ostream -> ostream) :=
  match l with POne a => fun x => [print a x] | PMore a l => fun t => print a (fst t) :: printers l (snd t) end.
(** characters that end an item *)
Definition ends_item (c : ascii) : bool :=
  Ascii.eqb c "," || Ascii.eqb c "]" || Ascii.eqb c "}" || Ascii.eqb c ")" || Ascii.eqb c ":" || Ascii.eqb c " ".
(** all strings in the value are not empty and contain none of these *)
Fixpoint tidy (s : shape) : val s -> Prop :=
  match s with
  | PInt | PBool | PWord => fun _ => True
  | PStr => fun t => t <> [] /\ forallb (fun c => negb (ends_item c)) t = true
  | PSeq _ s => fun l => Forall (tidy s) l
  | PMap k v => fun l => Forall (fun e => tidy k (fst e) /\ tidy v (snd e)) l
  | PPair a b => fun p => tidy a (fst p) /\ tidy b (snd p)
  | PTuple l => all_tidy l
  end
with all_tidy (l : shapes) : vals l -> Prop := match l with POne a => tidy a | PMore a l => fun t => tidy a (fst t) /\ all_tidy l (snd t) end.
(** no strings at all *)
Fixpoint no_strings (s : shape) : bool :=
  match s with
  | PInt | PBool | PWord => true
  | PStr => false
  | PSeq _ s => no_strings s
  | PMap k v => no_strings k && no_strings v
  | PPair a b => no_strings a && no_strings b
  | PTuple l => none_strings l
  end
with none_strings (l : shapes) : bool := match l with POne a => no_strings a | PMore a l => no_strings a && none_strings l end.
