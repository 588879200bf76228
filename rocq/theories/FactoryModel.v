(** Model of [shareloc/geomodels/geomodel.py]: the factory of the geometric models. *)
From Coq Require Import List Bool String.
From Verif Require Import Num PyStrModel ReadersModel.
Import ListNotations.
Open Scope string_scope.

Section FACTORY.
(** The classes, the objects, and the class method [load] of each class. *)
Context {class object : Type} (load : class -> string -> result object).

(** geomodel.py 45: the dictionary [available_geomodels], in order of insertion. *)
Definition registry := list (string * class).
(** geomodel.py 93-113 [register]: [d[k] = v] keeps the place of an existing key. *)
Fixpoint register (d : registry) (geomodel_type : string) (c : class) : registry :=
  match d with
  | [] => [(geomodel_type, c)]
  | (k, v) :: d => if String.eqb k geomodel_type then (k, c) :: d else (k, v) :: register d geomodel_type c
  end.
Fixpoint lookup (d : registry) (geomodel_type : string) : result class :=
  match d with
  | [] => Err KeyError
  | (k, v) :: d => if String.eqb k geomodel_type then Ok v else lookup d geomodel_type
  end.
(** geomodel.py 62-83 [create_geomodel]: KeyError is logged and raised again, the others go through. *)
Definition create_geomodel (d : registry) (path : string) (geomodel_type : string) : result object :=
  let! c := lookup d geomodel_type in load c path.
(** geomodel.py 47-60 [__new__], with its default type. *)
Definition new_geomodel (d : registry) (path : string) (geomodel_type : option string) : result object :=
  create_geomodel d path (match geomodel_type with Some t => t | None => "RPC" end).
(** geomodel.py 85-91 [print_avalaible_geomodels]: the lines printed. *)
Definition print_available (d : registry) : list string := map fst d.

(** A program that uses the factory: registrations, creations and listings, in any order. *)
Inductive call := Register (geomodel_type : string) (c : class) | New (path : string) (geomodel_type : option string) | Print.
Inductive answer := Registered | Built (r : result object) | Printed (l : list string).
Definition step (d : registry) (k : call) : registry * answer :=
  match k with
  | Register t c => (register d t c, Registered)
  | New path t => (d, Built (new_geomodel d path t))
  | Print => (d, Printed (print_available d))
  end.
Fixpoint run (d : registry) (l : list call) : registry * list answer :=
  match l with
  | [] => (d, [])
  | k :: l => let '(d, a) := step d k in let '(d, answers) := run d l in (d, a :: answers)
  end.
End FACTORY.
