(** Model of the Python string functions used by the readers.  Strings are sequences of bytes: the
    characters outside ASCII are not classified as spaces, and have no upper case. *)
From Coq Require Import List Bool Arith Ascii String DecimalString.
Import ListNotations.
Open Scope string_scope.

(** [str.isspace] on one ASCII character: the separators of [split()], and what [strip] removes. *)
Definition is_space (c : ascii) : bool :=
  let n := nat_of_ascii c in ((n =? 32) || ((9 <=? n) && (n <=? 13)) || ((28 <=? n) && (n <=? 31)))%nat.

(** [s.split()]: the words of [s]; [w] is the current word, reversed (used by rpc_readers.py 199-202). *)
Fixpoint rev_string (s acc : string) : string :=
  match s with EmptyString => acc | String c s => rev_string s (String c acc) end.
Definition push_word (w : string) (l : list string) : list string :=
  match w with EmptyString => l | _ => rev_string w "" :: l end.
Fixpoint split_words (s w : string) : list string :=
  match s with
  | EmptyString => push_word w []
  | String c s => if is_space c then push_word w (split_words s "") else split_words s (String c w)
  end.
Definition py_split (s : string) : list string := split_words s "".

(** [s.split(": ")] (rpc_readers.py 259, 352). *)
Fixpoint split_colon (s w : string) : list string :=
  match s with
  | String ":" (String " " s) => rev_string w "" :: split_colon s ""
  | String c s => split_colon s (String c w)
  | EmptyString => [rev_string w ""]
  end.
Definition py_split_colon (s : string) : list string := split_colon s "".

(** [s.lstrip()], [s.rstrip()], [s.strip()]. *)
Fixpoint lstrip (s : string) : string :=
  match s with String c t => if is_space c then lstrip t else s | EmptyString => s end.
Fixpoint rstrip (s : string) : string :=
  match s with
  | EmptyString => EmptyString
  | String c s => match rstrip s with
                  | EmptyString => if is_space c then EmptyString else String c EmptyString
                  | t => String c t
                  end
  end.
Definition strip (s : string) : string := rstrip (lstrip s).

(** [s.upper()], ASCII letters. *)
Definition upper_ascii (c : ascii) : ascii :=
  let n := nat_of_ascii c in if ((97 <=? n) && (n <=? 122))%nat then ascii_of_nat (n - 32) else c.
Fixpoint upper (s : string) : string :=
  match s with EmptyString => EmptyString | String c s => String (upper_ascii c) (upper s) end.

(** [os.path.basename]: what follows the last slash. *)
Fixpoint basename_ (s acc : string) : string :=
  match s with
  | EmptyString => rev_string acc ""
  | String "/" s => basename_ s ""
  | String c s => basename_ s (String c acc)
  end.
Definition basename (s : string) : string := basename_ s "".

(** [s.startswith(p)] is [prefix p s]; [s.endswith(p)]. *)
Definition endswith (s p : string) : bool := prefix (rev_string p "") (rev_string s "").

(** [f"{n}"] and [f"{n:02d}"] for a natural number. *)
Definition decimal (n : nat) : string := NilZero.string_of_uint (Nat.to_uint n).
Definition decimal02 (n : nat) : string := if (n <? 10)%nat then "0" ++ decimal n else decimal n.
