(** Specifications for the Schema API properties (C04-C07), independent of the model. *)
From Coq Require Import String Ascii List ZArith Bool Lia Sorting.Sorted.
From Verif Require Import Json SchemaApi.
Import ListNotations.
Open Scope string_scope.

(** ** C05: a schema is a boolean or a finite map *)
Inductive sstate : Type :=
| SBool (b : bool)
| SMap (f : string -> option json).

Definition upd (f : string -> option json) (k : string) (o : option json) : string -> option json :=
  fun k' => if String.eqb k' k then o else f k'.

Definition empty_map : string -> option json := fun _ => None.

(** Object form of a schema: [true] is [{}], [false] is [{"not": {}}]. *)
Definition object_form (s : sstate) : string -> option json :=
  match s with
  | SBool true => empty_map
  | SBool false => upd empty_map "not" (Some (JObj []))
  | SMap f => f
  end.

(** What each method does to the map and what it returns. *)
Inductive spec_obs : Type :=
| SpecVal (o : option json)
| SpecFlag (b : bool)
| SpecMap (f : string -> option json)
| SpecBool (b : bool).

Definition spec_step (o : op) (s : sstate) : option (sstate * spec_obs) :=
  match o with
  | OInsert k x => Some (SMap (upd (object_form s) k (Some x)), SpecVal (object_form s k))
  | OGet k => Some (s, SpecVal match s with SBool _ => None | SMap f => f k end)
  | OGetMutSet k x =>
      Some match s with
           | SBool b => (s, SpecFlag false)
           | SMap f => match f k with
                       | Some _ => (SMap (upd f k (Some x)), SpecFlag true)
                       | None => (s, SpecFlag false)
                       end
           end
  | ORemove k =>
      Some match s with
           | SBool b => (s, SpecVal None)
           | SMap f => (SMap (upd f k None), SpecVal (f k))
           end
  | OEnsureObject => Some (SMap (object_form s), SpecMap (object_form s))
  | OTryToObject => Some (s, match s with SBool b => SpecBool b | SMap f => SpecMap f end)
  | OPointer _ | OPointerSet _ _ => None
  end.

Fixpoint spec_run (ops : list op) (s : sstate) : option (sstate * list spec_obs) :=
  match ops with
  | [] => Some (s, [])
  | o :: os =>
      match spec_step o s with
      | Some (s', r) => match spec_run os s' with Some (s'', rs) => Some (s'', r :: rs) | None => None end
      | None => None
      end
  end.

(** A concrete schema represents an abstract one. *)
Definition represents (v : json) (s : sstate) : Prop :=
  match v, s with
  | JBool b, SBool b' => b = b'
  | JObj m, SMap f => forall k, mget k m = f k
  | _, _ => False
  end.

Definition obs_match (o : obs) (p : spec_obs) : Prop :=
  match o, p with
  | ObsVal a, SpecVal b => a = b
  | ObsFlag a, SpecFlag b => a = b
  | ObsMap m, SpecMap f => forall k, mget k m = f k
  | ObsTry (inl m), SpecMap f => forall k, mget k m = f k
  | ObsTry (inr a), SpecBool b => a = b
  | _, _ => False
  end.

(** ** C07: reading order *)
(** Position of a keyword in the documented order: seven leading keywords, everything else, then
    the two definition keywords. *)
Definition rank (k : string) : nat :=
  if String.eqb k "$id" then 0
  else if String.eqb k "$schema" then 1
  else if String.eqb k "title" then 2
  else if String.eqb k "description" then 3
  else if String.eqb k "type" then 4
  else if String.eqb k "format" then 5
  else if String.eqb k "properties" then 6
  else if String.eqb k "$defs" then 8
  else if String.eqb k "definitions" then 9
  else 7.

Definition before (k1 k2 : string) : Prop :=
  rank k1 < rank k2 \/ (rank k1 = rank k2 /\ String.compare k1 k2 = Lt).

Definition byte_order (k1 k2 : string) : Prop := String.compare k1 k2 = Lt.

(** Keywords whose value is plain data. *)
Definition data_keyword (k : string) : Prop :=
  k = "examples" \/ k = "default" \/ exists r, k = "x-" ++ r.

(** Keywords whose value is a map from names to schemas. *)
Definition schema_map_keyword (k : string) : Prop :=
  k = "properties" \/ k = "patternProperties" \/ k = "dependentSchemas" \/ k = "$defs"
  \/ k = "definitions".

(** [reads_well nr out]: the emitted tree [out] has its keys in the documented order, at every
    depth; [nr] says that this node is a map from names to schemas. *)
Inductive reads_well : bool -> json -> Prop :=
| RWNull nr : reads_well nr JNull
| RWBool nr b : reads_well nr (JBool b)
| RWNum nr n : reads_well nr (JNum n)
| RWStr nr s : reads_well nr (JStr s)
| RWArr nr l : (forall x, In x l -> reads_well false x) -> reads_well nr (JArr l)
| RWMap m : StronglySorted byte_order (map fst m) ->
    (forall k x, In (k, x) m -> reads_well false x) -> reads_well true (JObj m)
| RWSchema m : StronglySorted before (map fst m) ->
    (forall k x, In (k, x) m -> data_keyword k -> wf x = true) ->
    (forall k x, In (k, x) m -> schema_map_keyword k -> reads_well true x) ->
    (forall k x, In (k, x) m -> ~ data_keyword k -> ~ schema_map_keyword k -> reads_well false x) ->
    reads_well false (JObj m).
