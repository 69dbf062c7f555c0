(** Model of the [Schema] API: /repo/schemars/src/schema.rs *)
From Coq Require Import String Ascii List ZArith Bool Lia.
From Verif Require Import Json Utf8 Encoding Pointer.
Import ListNotations.
Open Scope string_scope.

(** A [Schema] is a transparent wrapper of a [Value] (schema.rs:64-66); the invariant that the
    value is a boolean or an object is [is_schema]. *)
Definition is_schema (v : json) : bool :=
  match v with JBool _ => true | JObj _ => true | _ => false end.

(** Result of a call that may panic. *)
Inductive res (A : Type) : Type :=
| Ok (a : A)
| Panic.
Arguments Ok {A} a.
Arguments Panic {A}.

(** schema.rs:387-408 [validate], 423-448 [TryFrom], 68-77 [Deserialize]: [None] is the error. *)
Definition try_from (v : json) : option json := if is_schema v then Some v else None.

(** schema.rs:130-134 [new_ref] *)
Definition new_ref (r : string) : json := JObj [("$ref", JStr r)].

(** schema.rs:136-160 *)
Definition as_bool (v : json) : option bool := match v with JBool b => Some b | _ => None end.

(** schema.rs:191-204 [ensure_object]: result is the underlying map; panics ([expect]) on other
    values. *)
Definition ensure_object (v : json) : res map_t :=
  match v with
  | JBool true => Ok []
  | JBool false => Ok [("not", JObj [])]
  | JObj m => Ok m
  | _ => Panic
  end.

(** Same, for use on values known to be schemas (other values are left alone). *)
Definition ensure_obj (v : json) : map_t :=
  match ensure_object v with Ok m => m | Panic => [] end.

(** schema.rs:226-228 [insert] *)
Definition s_insert (k : string) (x : json) (v : json) : res (json * option json) :=
  match ensure_object v with
  | Ok m => Ok (JObj (mset k x m), mget k m)
  | Panic => Panic
  end.

(** schema.rs:248-254 [get] *)
Definition s_get (k : string) (v : json) : option json :=
  match v with JObj m => mget k m | _ => None end.

(** schema.rs:273-279 [get_mut], followed by an assignment of the target when it is [Some]. *)
Definition s_get_mut_set (k : string) (x : json) (v : json) : json * bool :=
  match v with
  | JObj m => if mhas k m then (JObj (mupd k (fun _ => x) m), true) else (v, false)
  | _ => (v, false)
  end.

(** schema.rs:371-377 [remove] *)
Definition s_remove (k : string) (v : json) : json * option json :=
  match v with JObj m => (JObj (mdel k m), mget k m) | _ => (v, None) end.

(** [pointer.strip_prefix('#')] then [percent_decode] (schema.rs:311-312, 349-350): the JSON
    pointer actually followed. *)
Definition effective_pointer (p : string) : option string :=
  match p with
  | String a rest => if Ascii.eqb a "#" then percent_decode rest else Some p
  | EmptyString => Some p
  end.

(** schema.rs:310-317 [pointer] *)
Definition s_pointer (v : json) (p : string) : option json :=
  match effective_pointer p with Some q => value_pointer v q | None => None end.

(** schema.rs:348-355 [pointer_mut] followed by an assignment; [None] when it returns [None]. *)
Definition s_pointer_set (v : json) (p : string) (x : json) : option json :=
  match effective_pointer p with Some q => value_pointer_set v q x | None => None end.

(** schema.rs:379-385 [has_type] *)
Definition has_type (ty : string) (v : json) : bool :=
  match s_get "type" v with
  | Some (JArr l) => existsb (fun x => match x with JStr s => String.eqb s ty | _ => false end) l
  | Some (JStr s) => String.eqb s ty
  | _ => false
  end.

(** schema.rs:162-176 [try_to_object] / [try_as_object_mut]; [unreachable!()] is [Panic]. *)
Definition try_to_object (v : json) : res (map_t + bool) :=
  match v with JObj m => Ok (inl m) | JBool b => Ok (inr b) | _ => Panic end.

(** A mutating call on a [Schema], for histories. *)
Inductive op : Type :=
| OInsert (k : string) (x : json)
| OGet (k : string)
| OGetMutSet (k : string) (x : json)
| ORemove (k : string)
| OEnsureObject
| OPointer (p : string)
| OPointerSet (p : string) (x : json)
| OTryToObject.

(** What a call returns to the caller. *)
Inductive obs : Type :=
| ObsUnit
| ObsVal (o : option json)
| ObsFlag (b : bool)
| ObsMap (m : map_t)
| ObsTry (r : map_t + bool).

(** One call. *)
Definition step (o : op) (v : json) : res (json * obs) :=
  match o with
  | OInsert k x => match s_insert k x v with Ok (v', r) => Ok (v', ObsVal r) | Panic => Panic end
  | OGet k => Ok (v, ObsVal (s_get k v))
  | OGetMutSet k x => let '(v', b) := s_get_mut_set k x v in Ok (v', ObsFlag b)
  | ORemove k => let '(v', r) := s_remove k v in Ok (v', ObsVal r)
  | OEnsureObject => match ensure_object v with Ok m => Ok (JObj m, ObsMap m) | Panic => Panic end
  | OPointer p => Ok (v, ObsVal (s_pointer v p))
  | OPointerSet p x =>
      match s_pointer_set v p x with Some v' => Ok (v', ObsFlag true) | None => Ok (v, ObsFlag false) end
  | OTryToObject => match try_to_object v with Ok r => Ok (v, ObsTry r) | Panic => Panic end
  end.

Fixpoint run (ops : list op) (v : json) : res (json * list obs) :=
  match ops with
  | [] => Ok (v, [])
  | o :: os =>
      match step o v with
      | Ok (v', r) => match run os v' with Ok (v'', rs) => Ok (v'', r :: rs) | Panic => Panic end
      | Panic => Panic
      end
  end.
