(** UnitsModel.v -- programs of several translation units that include headers of this repository.  Definitions only.

    - Which headers include which: the #include lines with quotes.
    - Functions and variables the headers define in a namespace: file and line below.  Templates, members of classes and functions
      defined inside a class are left out: they may be defined in every unit.
    - [basic.def.odr]: a function or variable with external linkage that is not inline may be defined in one unit only; an inline one in
      every unit that uses it; one that is static belongs to its unit.
    - Names which a header uses outside templates, and no header declares, have to be declared by the unit before. *)
From Verif Require Import Base.
From Coq Require Import String.
Local Open Scope string_scope.
Open Scope list_scope.

(** ** headers *)
Inductive header :=
| Array_ | BinaryWord_ | Container_ | Handle_ | Iterator_ | Lazy_ | LruCache_ | Macros_ | Metaprogramming_ | Randomiser_ | Range_
| StackTrace_ | Stdlib_ | Stlio_ | Stopwatch_ | String_ | Test_ | Tuple_ | Variant_ | VariantInl_ | Writable_.
Definition header_eqb (a b : header) : bool := if (ltac:(decide equality) : {a = b} + {a <> b}) then true else false.

(** array.hpp:42; binary_word.hpp:82-83; container.hpp:38-43; handle.hpp:38-40; lru_cache.hpp:37; stlio.hpp:48-49; test.hpp:39;
    variant.hpp:40; variant.inl.hpp:33; writable.hpp:36 *)
Definition includes (h : header) : list header :=
  match h with
  | Array_ => [Metaprogramming_]
  | BinaryWord_ => [Macros_; Stlio_]
  | Container_ => [Stdlib_; Metaprogramming_; Stlio_; Array_; Macros_]
  | Handle_ => [Stdlib_; Metaprogramming_; Writable_]
  | LruCache_ => [Macros_]
  | Stlio_ => [Array_; Tuple_]
  | Test_ => [Macros_]
  | Variant_ => [Metaprogramming_]
  | VariantInl_ => [Variant_]
  | Writable_ => [Metaprogramming_]
  | _ => []
  end.

(** ** definitions *)
Inductive linkage := External | Inline | Internal.
Definition defines (h : header) : list (string * linkage) :=
  match h with
  | Array_ => [("complement", Inline)]                                        (* array.hpp:249 *)
  | BinaryWord_ =>                                                            (* binary_word.hpp:130-228 *)
      [("BinaryWord::erase_prefix", Inline); ("BinaryWord::operator<", Inline); ("BinaryWord::is_prefix", Inline);
       ("BinaryWord::is_subword", Inline); ("BinaryWord::append(bool)", Inline); ("BinaryWord::append(BinaryWord)", Inline);
       ("operator>>(BinaryWord)", Inline); ("make_binary_word", Inline); ("BinaryWord::BinaryWord(StringType)", Inline);
       ("operator<<(BinaryWord)", Inline)]
  | Handle_ => [("write_error", Inline)]                                      (* handle.hpp:123 *)
  | Randomiser_ => [("RANDOM_GENERATOR", Internal)]                           (* randomiser.hpp:59 *)
  | Range_ => [("range(stop)", Inline); ("range(start,stop)", Inline); ("begin(Range)", Inline); ("end(Range)", Inline)]
                                                                              (* range.hpp:52-64 *)
  | String_ => [("c_str", Inline); ("class_name<String>", Inline)]            (* string.hpp:49, 57 *)
  | Test_ => [("HELPER_TEST_FAILURES", External); ("HELPER_TEST_SKIPPED", External); ("HELPER_CURRENT_TESTING_CLASS", External);
              ("test_case_counter", External)]                                (* test.hpp:41-43, 56 *)
  | Writable_ => [("operator<<(WritableInterface)", Inline)]                  (* writable.hpp:54 *)
  | _ => []
  end.
(** binary_word.hpp:104, 215-222 *)
Definition needs (h : header) : list string := match h with BinaryWord_ => ["StringType"; "StringStream"] | _ => [] end.

(** ** units *)
Record unit_ := mkUnit {
  u_includes : list header;               (* in the order of the #include lines *)
  u_before : list string;                 (* names the unit declares before them *)
  u_defines : list string                 (* its own functions and variables with external linkage *)
}.
Definition mem (h : header) (l : list header) : bool := existsb (header_eqb h) l.
(** the headers whose text gets into the unit, each once: they have include guards (stdlib.hpp, which has none, defines nothing) *)
Fixpoint expand (fuel : nat) (todo seen : list header) : list header :=
  match fuel with
  | O => seen
  | S fuel' =>
      match todo with
      | [] => seen
      | h :: rest => if mem h seen then expand fuel' rest seen else expand fuel' (includes h ++ rest) (seen ++ [h])
      end
  end.
(** at most 21 headers are new, with 5 others each *)
Definition headers_of (u : unit_) : list header := expand (Datatypes.length (u_includes u) + 21 * 6) (u_includes u) [].

Definition compiles (u : unit_) : bool :=
  forallb (fun h => forallb (fun n => existsb (String.eqb n) (u_before u)) (needs h)) (headers_of u).
(** the definitions that must not be met twice *)
Definition external_of (h : header) : list string :=
  map fst (filter (fun d => match snd d with External => true | _ => false end) (defines h)).
Definition symbols (u : unit_) : list string := u_defines u ++ flat_map external_of (headers_of u).
Fixpoint distinct (l : list string) : bool :=
  match l with [] => true | x :: l' => negb (existsb (String.eqb x) l') && distinct l' end.

Inductive outcome := Linked | NotCompiled | DefinedTwice.
Definition build (p : list unit_) : outcome :=
  if forallb compiles p then (if distinct (flat_map symbols p) then Linked else DefinedTwice) else NotCompiled.
