(** JSON values as serde_json represents them (no [preserve_order] feature).

    Models [serde_json::Value], [serde_json::Map] (= [BTreeMap<String, Value>]) and
    [serde_json::Number], which every file of /repo/schemars/src builds on
    (/repo/schemars/Cargo.toml:16-18, serde_json default-features = false + alloc).

    Simplifications:
    - Rust [String]s are Coq byte strings ([Coq.Strings.String]); the UTF-8 validity that Rust
      guarantees is a separate predicate ([Utf8.utf8_valid]) used only where it matters.
    - A float is a dyadic rational [m * 2^e]; NaN and infinities are not JSON numbers
      (serde_json maps them to null) and are treated where they arise.
    - The [preserve_order] feature (IndexMap instead of BTreeMap) is not modelled. *)
From Coq Require Import String Ascii List ZArith Bool Lia.
Import ListNotations.
Open Scope string_scope.
Open Scope list_scope.

(** serde_json::Number: integers (u64/i64) or a finite float [m * 2^e]. *)
Inductive number : Type :=
| NInt (z : Z)
| NFlt (m e : Z).

(** serde_json::Value *)
Inductive json : Type :=
| JNull
| JBool (b : bool)
| JNum (n : number)
| JStr (s : string)
| JArr (l : list json)
| JObj (m : list (string * json)).

(** serde_json::Map<String, Value>: association list; reachable ones have strictly increasing
    keys (see [wf_map]). *)
Definition map_t := list (string * json).

(** BTreeMap::get *)
Fixpoint mget {A} (k : string) (m : list (string * A)) : option A :=
  match m with
  | [] => None
  | (k', v) :: m' => if String.eqb k k' then Some v else mget k m'
  end.

(** BTreeMap::contains_key *)
Definition mhas {A} (k : string) (m : list (string * A)) : bool :=
  match mget k m with Some _ => true | None => false end.

(** BTreeMap::insert (ordered by [Ord for String], i.e. bytewise lexicographic) *)
Fixpoint mset {A} (k : string) (v : A) (m : list (string * A)) : list (string * A) :=
  match m with
  | [] => [(k, v)]
  | (k', v') :: m' =>
      match String.compare k k' with
      | Lt => (k, v) :: m
      | Eq => (k, v) :: m'
      | Gt => (k', v') :: mset k v m'
      end
  end.

(** BTreeMap::remove *)
Fixpoint mdel {A} (k : string) (m : list (string * A)) : list (string * A) :=
  match m with
  | [] => []
  | (k', v') :: m' => if String.eqb k k' then mdel k m' else (k', v') :: mdel k m'
  end.

(** BTreeMap::append / extend: all entries of [m2] inserted into [m1]. *)
Definition mappend {A} (m1 m2 : list (string * A)) : list (string * A) :=
  fold_left (fun m kv => mset (fst kv) (snd kv) m) m2 m1.

(** In-place update of a present key (BTreeMap::get_mut + assignment). *)
Fixpoint mupd {A} (k : string) (f : A -> A) (m : list (string * A)) : list (string * A) :=
  match m with
  | [] => []
  | (k', v') :: m' => if String.eqb k k' then (k', f v') :: m' else (k', v') :: mupd k f m'
  end.

(** Build a map from a literal list of entries, as [json!({..})] does. *)
Definition mk {A} (l : list (string * A)) : list (string * A) := mappend [] l.

Definition obj (l : list (string * json)) : json := JObj (mk l).

(** The keys of a map. *)
Definition keys {A} (m : list (string * A)) : list string := map fst m.

(** Strictly increasing keys: the invariant BTreeMap maintains. *)
Fixpoint sorted_keys (ks : list string) : bool :=
  match ks with
  | [] => true
  | k :: ks' =>
      match ks' with
      | [] => true
      | k' :: _ => match String.compare k k' with Lt => true | _ => false end
      end && sorted_keys ks'
  end.

(** Every object nested anywhere in the value is a proper BTreeMap. *)
Fixpoint wf (j : json) : bool :=
  match j with
  | JArr l => forallb wf l
  | JObj m => sorted_keys (map fst m) && forallb (fun kv => wf (snd kv)) m
  | _ => true
  end.

Definition number_eqb (a b : number) : bool :=
  match a, b with
  | NInt x, NInt y => Z.eqb x y
  | NFlt m e, NFlt m' e' => Z.eqb m m' && Z.eqb e e'
  | _, _ => false
  end.

(** PartialEq for serde_json::Value (structural; sorted maps make it order independent). *)
Fixpoint json_eqb (a b : json) : bool :=
  match a, b with
  | JNull, JNull => true
  | JBool x, JBool y => Bool.eqb x y
  | JNum x, JNum y => number_eqb x y
  | JStr x, JStr y => String.eqb x y
  | JArr l, JArr l' =>
      (fix go (l l' : list json) : bool :=
         match l, l' with
         | [], [] => true
         | x :: t, y :: t' => json_eqb x y && go t t'
         | _, _ => false
         end) l l'
  | JObj m, JObj m' =>
      (fix go (m m' : list (string * json)) : bool :=
         match m, m' with
         | [], [] => true
         | (k, x) :: t, (k', y) :: t' => String.eqb k k' && json_eqb x y && go t t'
         | _, _ => false
         end) m m'
  | _, _ => false
  end.

Definition is_obj (j : json) : bool := match j with JObj _ => true | _ => false end.
Definition is_null (j : json) : bool := match j with JNull => true | _ => false end.

(** Value::as_str, as_array, as_object *)
Definition as_str (j : json) : option string := match j with JStr s => Some s | _ => None end.
Definition as_arr (j : json) : option (list json) := match j with JArr l => Some l | _ => None end.
Definition as_obj (j : json) : option map_t := match j with JObj m => Some m | _ => None end.

(** Number of constructors on the longest path; used to bound recursion. *)
Fixpoint depth (j : json) : nat :=
  match j with
  | JArr l => S (fold_right (fun x n => Nat.max (depth x) n) 0 l)
  | JObj m => S (fold_right (fun kv n => Nat.max (depth (snd kv)) n) 0 m)
  | _ => 1
  end.

(** Small literals. *)
Definition jint (z : Z) : json := JNum (NInt z).
Definition jstrs (l : list string) : json := JArr (map JStr l).
