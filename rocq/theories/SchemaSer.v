(** Model of [Serialize for Schema]: /repo/schemars/src/schema.rs:484-607.

    The output is the sequence of entries in the order they are emitted, represented as a [json]
    tree whose objects are association lists in emission order. *)
From Coq Require Import String Ascii List ZArith Bool Lia.
From Verif Require Import Json.
Import ListNotations.
Open Scope string_scope.

(** schema.rs:491-499 *)
Definition ORDERED_KEYWORDS_START : list string :=
  ["$id"; "$schema"; "title"; "description"; "type"; "format"; "properties"].
(** schema.rs:500 *)
Definition ORDERED_KEYWORDS_END : list string := ["$defs"; "definitions"].

Definition str_mem (k : string) (l : list string) : bool := existsb (String.eqb k) l.

(** [key.starts_with("x-")] *)
Definition starts_with_x (k : string) : bool :=
  match k with String a (String b _) => Ascii.eqb a "x" && Ascii.eqb b "-" | _ => false end.

(** schema.rs:540: properties whose value is serialized as a plain value *)
Definition plain_key (k : string) : bool :=
  String.eqb k "examples" || String.eqb k "default" || starts_with_x k.

(** schema.rs:545-552 *)
Definition no_reorder_key (k : string) : bool :=
  str_mem k ["properties"; "patternProperties"; "dependentSchemas"; "$defs"; "definitions"].

(** The keyed entries in emission order (schema.rs:579-597). *)
Definition emission_order {A} (m : list (string * A)) : list (string * A) :=
  flat_map (fun k => match mget k m with Some v => [(k, v)] | None => [] end) ORDERED_KEYWORDS_START
  ++ filter (fun kv => negb (str_mem (fst kv) ORDERED_KEYWORDS_START)
                       && negb (str_mem (fst kv) ORDERED_KEYWORDS_END)) m
  ++ flat_map (fun k => match mget k m with Some v => [(k, v)] | None => [] end) ORDERED_KEYWORDS_END.

(** schema.rs:527-606 [OrderedKeywordWrapper::serialize]. [no_reorder] is the wrapper's flag.
    Each value is first serialized (a structural recursion) and the entries are then put in
    emission order; the code interleaves the two. *)
Fixpoint ser (no_reorder : bool) (v : json) : json :=
  match v with
  | JArr l => JArr (map (ser false) l)
  | JObj m =>
      if no_reorder then JObj (map (fun kv => (fst kv, ser false (snd kv))) m)
      else JObj (emission_order
                   (map (fun kv => (fst kv,
                           if plain_key (fst kv) then snd kv
                           else ser (no_reorder_key (fst kv)) (snd kv))) m))
  | _ => v
  end.

(** schema.rs:79-86 *)
Definition schema_serialize (s : json) : json := ser false s.

(** Reading the emitted text back into a [Value]: objects become BTreeMaps. *)
Fixpoint parse (v : json) : json :=
  match v with
  | JArr l => JArr (map parse l)
  | JObj m => JObj (mk (map (fun kv => (fst kv, parse (snd kv))) m))
  | _ => v
  end.
