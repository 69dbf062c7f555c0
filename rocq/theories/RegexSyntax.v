(** Model of /repo/schemars/src/_private/regex_syntax.rs, and a small regular expression language
    to state what the escaped pattern means. *)
From Coq Require Import String Ascii List Bool Arith.
Import ListNotations.
Open Scope string_scope.

(** regex_syntax.rs:48-54 [is_meta_character]. All of them are ASCII, so looking at the bytes of the
    text is the same as looking at its characters. *)
Definition is_meta_character (c : ascii) : bool :=
  existsb (Ascii.eqb c)
    ["\"; "."; "+"; "*"; "?"; "("; ")"; "|"; "["; "]"; "{"; "}"; "^"; "$"; "#"; "&"; "-"; "~"]%char.

(** regex_syntax.rs:32-46 [escape], [escape_into] *)
Fixpoint escape (s : string) : string :=
  match s with
  | EmptyString => EmptyString
  | String c s' => if is_meta_character c then String "\" (String c (escape s')) else String c (escape s')
  end.

(** ** Regular expressions (specification, ECMA-262 section 22.2.1, a fragment)
    A pattern is split into literal characters and operators. A backslash makes the next character
    literal, unless it is a letter or a digit (\d, \n, \1: not a literal). *)
Inductive token := TChar (c : ascii) | TOp (c : ascii) | TEsc (c : ascii).

Definition is_alnum (c : ascii) : bool :=
  let n := nat_of_ascii c in
  (Nat.leb 48 n && Nat.leb n 57) || (Nat.leb 65 n && Nat.leb n 90) || (Nat.leb 97 n && Nat.leb n 122).

(** SyntaxCharacter *)
Definition is_syntax (c : ascii) : bool :=
  existsb (Ascii.eqb c) ["^"; "$"; "\"; "."; "*"; "+"; "?"; "("; ")"; "["; "]"; "{"; "}"; "|"]%char.

Fixpoint tokens (s : string) : option (list token) :=
  match s with
  | EmptyString => Some []
  | String c s' =>
      if Ascii.eqb c "\" then
        match s' with
        | EmptyString => None     (* a pattern cannot end in a backslash *)
        | String d s'' => option_map (cons (if is_alnum d then TEsc d else TChar d)) (tokens s'')
        end
      else option_map (cons (if is_syntax c then TOp c else TChar c)) (tokens s')
  end.

(** With the "u" flag a backslash may only precede SyntaxCharacters, "/" and letters/digits. *)
Fixpoint unicode_ok (s : string) : bool :=
  match s with
  | EmptyString => true
  | String c s' =>
      if Ascii.eqb c "\" then
        match s' with
        | EmptyString => false
        | String d s'' => (is_syntax d || Ascii.eqb d "/" || is_alnum d) && unicode_ok s''
        end
      else unicode_ok s'
  end.

Inductive regex :=
| REmpty
| RChar (c : ascii)
| RAny
| RStart
| REnd
| RCat (a b : regex)
| RAlt (a b : regex)
| RStar (a : regex).

(** [rmatch r pre s post]: within the text pre ++ s ++ post, [r] matches the part [s]. *)
Inductive rmatch : regex -> string -> string -> string -> Prop :=
| M_empty pre post : rmatch REmpty pre "" post
| M_char c pre post : rmatch (RChar c) pre (String c "") post
| M_any c pre post : rmatch RAny pre (String c "") post
| M_start post : rmatch RStart "" "" post
| M_end pre : rmatch REnd pre "" ""
| M_cat a b pre s t post : rmatch a pre s (t ++ post) -> rmatch b (pre ++ s) t post ->
    rmatch (RCat a b) pre (s ++ t) post
| M_alt_l a b pre s post : rmatch a pre s post -> rmatch (RAlt a b) pre s post
| M_alt_r a b pre s post : rmatch b pre s post -> rmatch (RAlt a b) pre s post
| M_star_0 a pre post : rmatch (RStar a) pre "" post
| M_star_S a pre s t post : rmatch a pre s (t ++ post) -> rmatch (RStar a) (pre ++ s) t post ->
    rmatch (RStar a) pre (s ++ t) post.

(** JSON Schema's "pattern": the expression matches somewhere in the text. *)
Definition searches (r : regex) (text : string) : Prop :=
  exists pre s post, text = pre ++ s ++ post /\ rmatch r pre s post.

(** Recursive descent. [alt] reads up to the end or an unmatched ")"; the fuel is the number of
    tokens. Character classes and counted repetition are not in the fragment ([None]). *)
Fixpoint p_alt (n : nat) (ts : list token) : option (regex * list token) :=
  match n with
  | O => None
  | S n' =>
      match p_cat n' ts with
      | Some (r, TOp "|"%char :: ts') =>
          match p_alt n' ts' with Some (r', ts'') => Some (RAlt r r', ts'') | None => None end
      | x => x
      end
  end
with p_cat (n : nat) (ts : list token) : option (regex * list token) :=
  match n with
  | O => None
  | S n' =>
      match ts with
      | [] => Some (REmpty, [])
      | TOp c :: _ =>
          if Ascii.eqb c "|" || Ascii.eqb c ")" then Some (REmpty, ts)
          else match p_atom n' ts with
               | Some (r, ts') =>
                   match p_cat n' ts' with Some (r', ts'') => Some (RCat r r', ts'') | None => None end
               | None => None
               end
      | _ =>
          match p_atom n' ts with
          | Some (r, ts') =>
              match p_cat n' ts' with Some (r', ts'') => Some (RCat r r', ts'') | None => None end
          | None => None
          end
      end
  end
with p_atom (n : nat) (ts : list token) : option (regex * list token) :=
  match n with
  | O => None
  | S n' =>
      let base :=
        match ts with
        | TChar c :: ts' => Some (RChar c, ts')
        | TOp c :: ts' =>
            if Ascii.eqb c "." then Some (RAny, ts')
            else if Ascii.eqb c "^" then Some (RStart, ts')
            else if Ascii.eqb c "$" then Some (REnd, ts')
            else if Ascii.eqb c "(" then
              match p_alt n' ts' with
              | Some (r, TOp d :: ts'') => if Ascii.eqb d ")" then Some (r, ts'') else None
              | _ => None
              end
            else None
        | _ => None
        end in
      match base with
      | Some (r, TOp c :: ts') =>
          if Ascii.eqb c "*" then Some (RStar r, ts')
          else if Ascii.eqb c "+" then Some (RCat r (RStar r), ts')
          else if Ascii.eqb c "?" then Some (RAlt r REmpty, ts')
          else base
      | _ => base
      end
  end.

(** The expression a pattern denotes; fuel 3 per token is enough for the descent. *)
Definition read_pattern (p : string) : option regex :=
  match tokens p with
  | Some ts => match p_alt (4 + 4 * List.length ts) ts with Some (r, []) => Some r | _ => None end
  | None => None
  end.
