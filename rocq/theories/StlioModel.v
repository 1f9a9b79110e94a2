(** StlioModel.v -- printing and reading of sequences: include/stlio.hpp:56-217,278-283 and the
    printing operators of include/container.hpp (50-69, 127-135, 155-158, 238-246, 292-300).

    An element printer is an arbitrary function on output streams, an element reader an arbitrary
    computation on input streams; the range [first,last) is the list of its elements. *)
From Verif Require Import Base StreamModel.

Section Writing.
  Context {T : Type} (pr : T -> ostream -> ostream).
  Notation putc c := (put_text [c]).

  (** stlio.hpp:56-71 write_sequence (and 74-89 write_pointer_sequence, 92-139 the map versions, with
      [pr] printing what the pointer or the iterator refers to) *)
  Fixpoint write_loop (sep : ascii) (l : list T) (o : ostream) : ostream :=
    match l with
    | [] => o
    | x :: l' => let o1 := pr x o in
                 write_loop sep l' (match l' with [] => o1 | _ => putc sep o1 end)
    end.
  Definition write_sequence (op cl sep : ascii) (l : list T) (o : ostream) : ostream :=
    putc cl (write_loop sep l (putc op o)).

  (** container.hpp:50-58 (Array), 60-68 (SharedArray), 127-135 (vector), 238-246 (set), 292-300 (map):
      for(auto x : a) { os << (first ? op : sep) << x; first=false; } if(first) { os << op'; } os << cl; *)
  Fixpoint print_loop (op sep : text) (first : bool) (l : list T) (o : ostream) : bool * ostream :=
    match l with
    | [] => (first, o)
    | x :: l' => print_loop op sep false l' (pr x (put_text (if first then op else sep) o))
    end.
  Definition print_with (op sep op' cl : text) (l : list T) (o : ostream) : ostream :=
    let '(first, o1) := print_loop op sep true l o in
    put_text cl (if first then put_text op' o1 else o1).
  Definition print_array := print_with (chars "[") (chars ",") (chars "[") (chars "]").
  Definition print_shared_array := print_with (chars "[") (chars ",") (chars "[") (chars "]").
  Definition print_vector := print_with (chars "[") (chars ",") (chars "[") (chars "]").
  Definition print_set := print_with (chars "{") (chars ",") (chars "{") (chars "}").
  (** container.hpp:155-158 std::list, through write_sequence *)
  Definition print_list := write_sequence "[" "]" ",".
End Writing.

(** stlio.hpp:92-107: what write_map_sequence prints for one item; [de] is the descriptor *)
Definition print_item {K V} (prk : K -> ostream -> ostream) (prv : V -> ostream -> ostream) (de : text)
  (e : K * V) (o : ostream) : ostream := prv (snd e) (put_text de (prk (fst e) o)).
(** container.hpp:292-300 printing of maps *)
Definition print_map {K V} (prk : K -> ostream -> ostream) (prv : V -> ostream -> ostream)
  (m : list (K * V)) (o : ostream) : ostream :=
  print_with (print_item prk prv (chars ":")) (chars "{ ") (chars ", ") (chars "{") (chars " }") m o.
(** stlio.hpp:92-107 *)
Definition write_map_sequence {K V} (prk : K -> ostream -> ostream) (prv : V -> ostream -> ostream)
  (op cl sep de : ascii) (m : list (K * V)) (o : ostream) : ostream :=
  write_sequence (print_item prk prv [de]) op cl sep m o.

(** stlio.hpp:211-217 pairs *)
Definition print_pair {A B} (pa : A -> ostream -> ostream) (pb : B -> ostream -> ostream)
  (p : A * B) (o : ostream) : ostream :=
  put_text (chars ")") (pb (snd p) (put_text (chars ",") (pa (fst p) (put_text (chars "(") o)))).
(** stlio.hpp:193-199 write_tuple<N>: the components are given by their printers; N=0 does not compile
    (unbounded template recursion): [None] *)
Fixpoint write_tuple (tup : list (ostream -> ostream)) (n : nat) (o : ostream) : option ostream :=
  match n with
  | O => None
  | S m =>
      let last o1 := option_map (fun f : ostream -> ostream => f o1) (nth_error tup m) in
      match m with
      | O => last o
      | _ => match write_tuple tup m o with
             | Some o1 => last (put_text (chars ",") o1)
             | None => None
             end
      end
  end.
(** stlio.hpp:219-223 *)
Definition print_tuple (tup : list (ostream -> ostream)) (o : ostream) : option ostream :=
  option_map (put_text (chars ")")) (write_tuple tup (List.length tup) (put_text (chars "(") o)).

Section Reading.
  Context {T : Type} (rd : M istream T).

  (** stlio.hpp:170-183: the loop of read_sequence; [c] is initialised here *)
  Fixpoint read_loop (cl sep : ascii) (fuel : nat) (c : cvar) (v : list T) : M istream (list T) :=
    match fuel with
    | O => fun _ => Fuel
    | S fuel' =>
        read_var c (fun ch =>
          if Ascii.eqb ch cl then ret v
          else fun s =>
            if i_eof s then Exc EIosFailure s
            else if negb (Ascii.eqb ch sep) then Exc EIosFailure s
            else (x <- rd ;;
                  fun s1 => if i_failed s1 then Exc EIosFailure s1
                            else (c' <- extract_char c ;; read_loop cl sep fuel' c' (v ++ [x]))%M s1)%M s)
    end.
  (** stlio.hpp:144-190 read_sequence.  Each turn of the loop either ends or consumes a character,
      so the remaining length bounds the number of turns. *)
  Definition read_sequence (op cl sep : ascii) : M istream (list T) :=
    (c <- extract_char None ;;
     read_var c (fun ch =>
       if negb (Ascii.eqb ch op) then throw EIosFailure
       else
         c1 <- extract_char c ;;
         c2 <- read_var c1 (fun ch1 =>
                 if Ascii.eqb ch1 cl then ret c1
                 else (putback ch1 ;;; ret (Some sep))) ;;
         fun s => read_loop cl sep (S (S (List.length (i_after s)))) c2 [] s))%M.
  (** stlio.hpp:278-283 operator>> for vectors *)
  Definition read_vector : M istream (list T) := read_sequence "[" "]" ",".
End Reading.
