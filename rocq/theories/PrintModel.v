(** PrintModel.v -- which operator<< is found for a container and for its elements: include/container.hpp:51, 61, 127, 156,
    238, 292 (in namespace Helper, in this order), include/stlio.hpp:193-199, 211-223 (pair and tuple, in namespace std, before
    those).  Definitions only.

    - The rules are [basic.lookup.argdep] and [temp.dep.candidate]: an operator in a template is looked for among the
      declarations before the template in its namespace, and in the namespaces associated with the arguments.  The stream
      associates std.
    - Not modelled: what is printed (StlioModel.v, OutModel.v), classes that hide operators or convert to printable types. *)
From Verif Require Import Base.

(** what is printed: [PNum] a number or std::string; [POwn h]: another class with an operator<< in its own namespace, which
    is Helper if h *)
Inductive pty :=
| PNum
| POwn (h : bool)
| PArray (t : pty) | PSharedArray (t : pty)
| PVector (t : pty) | PList (t : pty)
| PStdList (t : pty) | PLinked (t : pty)
| PStdSet (t : pty) | PSet (t : pty)
| PStdMap (k t : pty) | PMap (k t : pty)
| PPair (s t : pty)
| PTuple (ts : list pty).

(** the namespace Helper is associated with the type: one of its classes or template arguments is in Helper *)
Fixpoint assoc_helper (t : pty) : bool :=
  match t with
  | PNum => false
  | POwn h => h
  | PArray _ | PSharedArray _ | PList _ | PLinked _ | PSet _ | PMap _ _ => true
  | PVector t | PStdList t | PStdSet t => assoc_helper t
  | PStdMap k t | PPair k t => assoc_helper k || assoc_helper t
  | PTuple ts => existsb assoc_helper ts
  end.

(** where operator<< is used: in a client that sees all names of Helper; in a client that sees none; in the body of one of the
    operators of Helper, numbered in the order of their definition; in the bodies in stlio.hpp, which see none *)
Inductive op := OpArray | OpSharedArray | OpVector | OpStdList | OpStdSet | OpStdMap.
Definition op_number (o : op) : nat :=
  match o with OpArray => 0 | OpSharedArray => 1 | OpVector => 2 | OpStdList => 3 | OpStdSet => 4 | OpStdMap => 5 end.
Inductive context := Client (sees_helper : bool) | Body (o : op) | StlioBody.
Definition sees (c : context) (o : op) : bool :=
  match c with
  | Client b => b
  | Body b => op_number o <=? op_number b
  | StlioBody => false
  end.
Definition found (c : context) (o : op) (t : pty) : bool := sees c o || assoc_helper t.

(** whether [os << x] compiles in the context c for x of type t *)
Fixpoint prints (c : context) (t : pty) : bool :=
  match t with
  | PNum | POwn _ => true
  | PArray e => found c OpArray t && prints (Body OpArray) e
  | PSharedArray e => found c OpSharedArray t && prints (Body OpSharedArray) e
  | PVector e | PList e => found c OpVector t && prints (Body OpVector) e
  | PStdList e | PLinked e => found c OpStdList t && prints StlioBody e      (* by Helper::write_sequence of stlio.hpp:56 *)
  | PStdSet e | PSet e => found c OpStdSet t && prints (Body OpStdSet) e
  | PStdMap k e | PMap k e => found c OpStdMap t && (prints (Body OpStdMap) k && prints (Body OpStdMap) e)
  | PPair s e => prints StlioBody s && prints StlioBody e
  | PTuple ts =>
      (* stlio.hpp:222 in namespace std calls write_tuple, which is in Helper and has no case for no components *)
      match ts with [] => false | _ => existsb assoc_helper ts end && forallb (prints StlioBody) ts
  end.
