(** TraceSpec.v -- what a stack trace should look like. *)
From Verif Require Import Base StreamModel TraceModel.
Open Scope list_scope.

(** frame number [i] at address [a] is described by the line [l] *)
Definition describes (P : platform) (i : nat) (a : Z) (l : text) : Prop :=
  match dladdr P a with
  | None => l = int_text (Z.of_nat i) ++ chars " " ++ pointer_text P a
  | Some sname => demangle P (symbol P a) = Some l \/ (demangle P (symbol P a) = None /\ sname = Some l)
  end.
(** a name is known for the frame, or dladdr knows nothing about it *)
Definition has_name (P : platform) (a : Z) : Prop :=
  dladdr P a = Some None -> demangle P (symbol P a) <> None.
(** no name contains a line break *)
Definition no_break (t : text) : Prop := ~ In (ascii_of_nat 10) t.
Definition clean (P : platform) : Prop :=
  (forall a n, dladdr P a = Some (Some n) -> no_break n) /\
  (forall t d, demangle P t = Some d -> no_break d) /\ (forall a, no_break (pointer_text P a)).
(** the text consisting of the lines [ls] *)
Definition text_of (ls : list text) : text := concat (map (fun l => l ++ [ascii_of_nat 10]) ls).
