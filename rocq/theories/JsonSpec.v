(** Specification of JSON texts: a reader of the format, as in RFC 8259 (and Python's [json.load]).  The words true,
    false and null and the escapes in strings, which no RPC file has, are refused. *)
From Coq Require Import List Bool Arith Ascii String.
From Verif Require Import Num ReadersSpec.
Import ListNotations.
Open Scope string_scope.

Inductive jvalue := VNum (x : num) | VText (s : string) | VList (l : list jvalue) | VObject (l : list (string * jvalue)).

(** White space, and the characters that end a number. *)
Definition blank (c : ascii) : bool := existsb (Ascii.eqb c) [" "%char; "009"%char; "010"%char; "013"%char].
Definition stop_char (c : ascii) : bool := blank c || existsb (Ascii.eqb c) (list_ascii_of_string ",:[]{}") || Ascii.eqb c "034".
Fixpoint skip (s : string) : string :=
  match s with String c t => if blank c then skip t else s | EmptyString => EmptyString end.
Fixpoint word (s : string) : string * string :=
  match s with
  | EmptyString => ("", "")
  | String c t => if stop_char c then ("", s) else (String c (fst (word t)), snd (word t))
  end.
(** What follows an opening quote. *)
Fixpoint quoted (s : string) : option (string * string) :=
  match s with
  | EmptyString => None
  | String c t =>
      if Ascii.eqb c "034" then Some ("", t)
      else if Ascii.eqb c "\" then None
      else match quoted t with Some (k, r) => Some (String c k, r) | None => None end
  end.
(** The next character that is not a blank, and what follows it. *)
Definition next (s : string) : option (ascii * string) := match skip s with String c t => Some (c, t) | EmptyString => None end.

Section Json.
(** How the text of a number is read. *)
Context (number : string -> option num).
Fixpoint value (n : nat) (s : string) {struct n} : option (jvalue * string) :=
  match n with
  | O => None
  | S n =>
      match next s with
      | None => None
      | Some (c, t) =>
          if Ascii.eqb c "034" then match quoted t with Some (k, r) => Some (VText k, r) | None => None end
          else if Ascii.eqb c "[" then
            match next t with
            | Some ("]"%char, r) => Some (VList [], r)
            | _ => match elements n t with Some (l, r) => Some (VList l, r) | None => None end
            end
          else if Ascii.eqb c "{" then
            match next t with
            | Some ("}"%char, r) => Some (VObject [], r)
            | _ => match members n t with Some (l, r) => Some (VObject l, r) | None => None end
            end
          else match number (fst (word (String c t))) with Some x => Some (VNum x, snd (word (String c t))) | None => None end
      end
  end
with elements (n : nat) (s : string) {struct n} : option (list jvalue * string) :=
  match n with
  | O => None
  | S n =>
      match value n s with
      | None => None
      | Some (v, r) =>
          match next r with
          | Some (","%char, t) => match elements n t with Some (l, r) => Some (v :: l, r) | None => None end
          | Some ("]"%char, t) => Some ([v], t)
          | _ => None
          end
      end
  end
with members (n : nat) (s : string) {struct n} : option (list (string * jvalue) * string) :=
  match n with
  | O => None
  | S n =>
      match next s with
      | Some ("034"%char, t) =>
          match quoted t with
          | None => None
          | Some (k, r) =>
              match next r with
              | Some (":"%char, r) =>
                  match value n r with
                  | None => None
                  | Some (v, r) =>
                      match next r with
                      | Some (","%char, t) => match members n t with Some (l, r) => Some ((k, v) :: l, r) | None => None end
                      | Some ("}"%char, t) => Some ([(k, v)], t)
                      | _ => None
                      end
                  end
              | _ => None
              end
          end
      | _ => None
      end
  end.
(** A whole text: one value, and nothing after it.  The fuel is more than what any text can use. *)
Definition json_load (s : string) : option jvalue :=
  match value (2 * String.length s + 2) s with
  | Some (v, r) => match next r with None => Some v | Some _ => None end
  | None => None
  end.
End Json.

(** The lines of a text file ([readlines]). *)
Fixpoint readlines (s : string) : list string :=
  match s with
  | EmptyString => []
  | String c t =>
      if Ascii.eqb c "010" then String c "" :: readlines t
      else match readlines t with [] => [String c ""] | l :: ls => String c l :: ls end
  end.
