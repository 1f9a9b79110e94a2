(** PlaceModel.v -- the macros of include/macros.hpp and include/test.hpp as statements: what a compiler reads when they stand where the
    grammar wants one statement.  Definitions only.

    - Tokens up to a semicolon are one token; of the statements of the language there are blocks, if and those that end in a semicolon.
    - Of a block in a replacement text only the braces matter here; what it does is in MacroModel.v and TestModel.v. *)
From Verif Require Import Base ArgsModel.
From Coq Require Import String.
Local Open Scope string_scope.
Open Scope list_scope.
Open Scope nat_scope.

(** ** Statements and their tokens *)
Inductive tok := KSemi | KOpen | KClose | KIf (c : nat) | KElse | KPlain (s : string).
Inductive stmt :=
| Empty                                                (* ; *)
| Plain (s : string)                                   (* s; *)
| Block (l : list stmt)
| If (c : nat) (t : stmt) (e : option stmt).

(** [stmt.stmt]: an else belongs to the nearest if that allows it *)
Inductive read (A : Type) := Got (a : A) (rest : list tok) | Bad | NoFuel.
Arguments Got {A}. Arguments Bad {A}. Arguments NoFuel {A}.
Fixpoint parse_stmt (n : nat) (l : list tok) : read stmt :=
  match n with
  | O => NoFuel
  | S n' =>
      match l with
      | KSemi :: r => Got Empty r
      | KPlain s :: KSemi :: r => Got (Plain s) r
      | KOpen :: r => match parse_list n' r with
                      | Got ss (KClose :: r') => Got (Block ss) r'
                      | Got _ _ | Bad => Bad
                      | NoFuel => NoFuel
                      end
      | KIf c :: r => match parse_stmt n' r with
                      | Got s (KElse :: r') => match parse_stmt n' r' with
                                               | Got e r'' => Got (If c s (Some e)) r''
                                               | Bad => Bad
                                               | NoFuel => NoFuel
                                               end
                      | Got s r' => Got (If c s None) r'
                      | Bad => Bad
                      | NoFuel => NoFuel
                      end
      | _ => Bad
      end
  end
with parse_list (n : nat) (l : list tok) : read (list stmt) :=
  match n with
  | O => NoFuel
  | S n' =>
      match l with
      | [] | KClose :: _ => Got [] l
      | _ => match parse_stmt n' l with
             | Got s r => match parse_list n' r with Got ss r' => Got (s :: ss) r' | Bad => Bad | NoFuel => NoFuel end
             | Bad => Bad
             | NoFuel => NoFuel
             end
      end
  end.
(** the body of a function *)
Inductive parsed := Body (l : list stmt) | SyntaxError | OutOfFuel.
Definition parse_body (l : list tok) : parsed :=
  match parse_list (2 * Datatypes.length l + 2) l with Got ss [] => Body ss | Got _ _ | Bad => SyntaxError | NoFuel => OutOfFuel end.

(** ** Replacement texts *)
Inductive called := Call (m : macro) | NOT_IMPLEMENTED.
Definition block (s : string) : stmt := Block [Plain s].
(** None: not a statement.  HELPER_USING_CONSTRUCTORS stands in a class, HELPER_TEST_CATCH after a try block *)
Definition replacement (k : called) : option (list stmt) :=
  match k with
  | NOT_IMPLEMENTED => Some [Plain "throw"]                                              (* macros.hpp:146-147 *)
  | Call USING_CONSTRUCTORS | Call TEST_CATCH => None
  | Call DEPRECATED => Some [Plain "static bool first_time=true"; If 0 (block "report") None]    (* 149-154 *)
  | Call WARN_ONCE => Some [Plain "static bool first_time=true"; If 0 (block "report") None]     (* 166-171 *)
  | Call TEST_DECLARE => Some [block "try"; Plain "Class variable"]                      (* test.hpp:402-411 *)
  | Call TEST_CONSTRUCT => Some [Plain "print"; Plain "Class variable expression"; Plain "print variable"]      (* 415-418 *)
  | Call TEST_DEFAULT_CONSTRUCT => Some [Plain "print"; Plain "Class variable"; Plain "print variable"]         (* 421-424 *)
  | Call TEST_NAMED_CONSTRUCT => Some [block "try"; Plain "Class variable = Class :: expression"]               (* 440-449 *)
  | Call TEST_ASSIGN_CONSTRUCT => Some [block "try"; Plain "Class variable = expression"]                       (* 453-462 *)
  | Call _ => Some [block "everything"]    (* one block: macros.hpp:49-144, 156-164, 173-176, test.hpp:59-398, 465-607 *)
  end.

(** ** Functions of the client *)
Inductive client :=
| CPlain (s : string)                                  (* s; *)
| CMacro (k : called) (semi : bool)                    (* k(...); or, without the semicolon, k(...) *)
| CBlock (l : list client)
| CIf (c : nat) (t : client) (e : option client).
Fixpoint tokens (s : stmt) : list tok :=
  match s with
  | Empty => [KSemi]
  | Plain s => [KPlain s; KSemi]
  | Block l => KOpen :: flat_map tokens l ++ [KClose]
  | If c t e => KIf c :: tokens t ++ match e with Some e => KElse :: tokens e | None => [] end
  end.
(** after the preprocessor *)
Fixpoint client_tokens (p : client) : list tok :=
  match p with
  | CPlain s => [KPlain s; KSemi]
  | CMacro k semi => match replacement k with Some l => flat_map tokens l | None => [] end ++ (if semi then [KSemi] else [])
  | CBlock l => KOpen :: flat_map client_tokens l ++ [KClose]
  | CIf c t e => KIf c :: client_tokens t ++ match e with Some e => KElse :: client_tokens e | None => [] end
  end.

(** ** What is executed, the conditions having the values [v] *)
Fixpoint trace (v : nat -> bool) (s : stmt) : list string :=
  match s with
  | Empty => []
  | Plain s => [s]
  | Block l => flat_map (trace v) l
  | If c t e => if v c then trace v t else match e with Some e => trace v e | None => [] end
  end.
