(** StringModel.v -- model of include/string.hpp:42-54: to_string, to_str, and c_str.  Definitions only. *)
From Verif Require Import Base StreamModel StlioModel WordModel.

(** ** to_string *)
(** values of printable types, by the operators of stlio.hpp and container.hpp; a map is the list of its items in order.
    Not modelled: floating-point numbers (see NumStrModel.v), and types whose operator<< leaves other flags changed. *)
Inductive value :=
| VInt (z : Z) | VBool (b : bool) | VText (t : text) | VWord (w : word)
| VVector (l : list value) | VLinked (l : list value) | VSet (l : list value)
| VMap (m : list (value * value)) | VPair (x y : value).
(** os << v *)
Fixpoint print (v : value) : ostream -> ostream :=
  match v with
  | VInt z => print_int z
  | VBool b => print_bool b
  | VText t => print_string t
  | VWord w => print_word w
  | VVector l => print_vector print l
  | VLinked l => print_list print l
  | VSet l => print_set print l
  | VMap m => print_map print print m
  | VPair x y => print_pair print print (x, y)
  end.
(** string.hpp:51-52: std::stringstream ss; ss << t; return ss.str(); a new stream prints bools as numbers *)
Definition to_string (v : value) : text := o_text (print v (mkO [] false)).
(** 53-54 *)
Definition to_str (v : value) : text := to_string v.

(** ** c_str *)
Inductive string_class := StdString | HelperString.      (* std::string; String, 42-47 *)
(** where a const char* points: into the string variable [k], as it was after its [n]-th change; into a temporary object
    that is gone *)
Inductive pointer := Into (k n : nat) | IntoTemporary.
(** string variables: class, contents and number of changes; pointer variables *)
Record cst := mkCst { c_strings : nat -> option (string_class * text * nat); c_pointers : nat -> option pointer; c_changes : nat }.
Definition cinit : cst := mkCst (fun _ => None) (fun _ => None) 0.
(** the characters of a C string: up to the first NUL *)
Fixpoint until_nul (t : text) : text :=
  match t with [] => [] | c :: t' => if Nat.eqb (nat_of_ascii c) 0 then [] else c :: until_nul t' end.

Inductive cop :=
| CNew (k : nat) (c : string_class) (t : text)      (* std::string k(t);  String k(t); *)
| CSet (k : nat) (t : text)                         (* k is assigned or changed otherwise, by a function after which pointers are invalid *)
| CDestroy (k : nat)                                (* the lifetime of k ends *)
| CBind (p k : nat)                                 (* p = c_str(k); *)
| CBindValue (p : nat) (v : value)                  (* p = c_str(to_string(v)); *)
| CUse (k : nat)                                    (* puts(c_str(k)); *)
| CUseValue (v : value)                             (* puts(c_str(to_string(v))); *)
| CRead (p : nat).                                  (* puts(p); *)
(** 49-50: const char* c_str(const String& str) { return str.c_str(); }.  A std::string is converted to String by
    45: the reference is bound to a copy that lives to the end of the statement. *)
Definition c_str (k : nat) : M cst pointer := fun s =>
  match c_strings s k with
  | Some (HelperString, _, n) => Ret (Into k n) s
  | Some (StdString, _, _) => Ret IntoTemporary s
  | None => Ub UbDangling
  end.
Definition cstep (o : cop) : M cst (option text) := fun s =>
  let change k x := Ret None (mkCst (set_var (c_strings s) k x) (c_pointers s) (S (c_changes s))) in
  let point p x := Ret None (mkCst (c_strings s) (set_var (c_pointers s) p (Some x)) (c_changes s)) in
  match o with
  | CNew k c t => change k (Some (c, t, c_changes s))
  | CSet k t => match c_strings s k with
                | Some (c, _, _) => change k (Some (c, t, c_changes s))
                | None => Ub UbDangling
                end
  | CDestroy k => match c_strings s k with Some _ => change k None | None => Ub UbDangling end
  | CBind p k => match c_str k s with Ret x _ => point p x | Ub r => Ub r | _ => Abort end
  | CBindValue p _ => point p IntoTemporary
  | CUse k => match c_strings s k with Some (_, t, _) => Ret (Some (until_nul t)) s | None => Ub UbDangling end
  | CUseValue v => Ret (Some (until_nul (to_string v))) s
  | CRead p => match c_pointers s p with
               | Some (Into k n) =>
                   match c_strings s k with
                   | Some (_, t, m) => if Nat.eqb n m then Ret (Some (until_nul t)) s else Ub UbDangling
                   | None => Ub UbDangling
                   end
               | Some IntoTemporary => Ub UbDangling
               | None => Ub UbUninit
               end
  end.
Fixpoint crun (p : list cop) (s : cst) : res cst (list (option text)) :=
  match p with
  | [] => Ret [] s
  | o :: p' => match cstep o s with
               | Ret x s1 => match crun p' s1 with
                             | Ret l s2 => Ret (x :: l) s2
                             | Exc e s2 => Exc e s2 | Ub r => Ub r | Abort => Abort | Fuel => Fuel
                             end
               | Exc e s1 => Exc e s1 | Ub r => Ub r | Abort => Abort | Fuel => Fuel
               end
  end.
