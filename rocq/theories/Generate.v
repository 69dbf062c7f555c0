(** Model of schemars/src/generate.rs: [SchemaGenerator].

    A Rust type implementing [JsonSchema] is an element of an arbitrary type [Ty]; what its
    implementation does is a [prog], the free program over the generator's public interface. A
    user's own call history is a [prog] too. *)
From Coq Require Import String Ascii List ZArith Bool Decimal DecimalString.
From Verif Require Import Json Encoding Pointer SchemaApi.
Import ListNotations.
Open Scope string_scope.
Open Scope list_scope.

(** generate.rs:197-200 [Contract] *)
Inductive contract := Deserialize | Serialize.

Definition contract_eqb (a b : contract) : bool :=
  match a, b with
  | Deserialize, Deserialize | Serialize, Serialize => true
  | _, _ => false
  end.

(** generate.rs:217 [SchemaUid(CowStr, Contract)] *)
Definition uid := (string * contract)%type.

Definition uid_eqb (a b : uid) : bool :=
  String.eqb (fst a) (fst b) && contract_eqb (snd a) (snd b).

(** The [BTreeSet<SchemaUid>] / [BTreeSet<CowStr>] / [BTreeMap<SchemaUid, CowStr>] fields are
    modelled as lists with the set or map operations used by the code. *)
Definition umem (u : uid) (l : list uid) : bool := existsb (uid_eqb u) l.
Definition smem (s : string) (l : list string) : bool := existsb (String.eqb s) l.

Fixpoint uget (u : uid) (l : list (uid * string)) : option string :=
  match l with
  | [] => None
  | (u', n) :: l' => if uid_eqb u u' then Some n else uget u l'
  end.

Section Model.
Context {Ty St : Type}.

(** generate.rs:30-64 [SchemaSettings]; the boxed transforms (with the state they may carry) are
    functions threading one state of type [St], kept in the generator ([g_tst]). *)
Record settings := Settings {
  s_path : string;                      (* definitions_path *)
  s_meta : option string;               (* meta_schema *)
  s_transforms : list (json -> St -> json * St);
  s_inline : bool;                      (* inline_subschemas *)
  s_contract : contract }.

(** Ghost trace of what the generator did; the code has no such field and no definition below
    reads it. Newest event first. *)
Inductive event :=
| EvRef (roots : list uid) (t : Ty) (r : string) (* [subschema_for::<t>()] answers [{"$ref": r}] *)
| EvRun (t : Ty)                                 (* [t::json_schema] is entered *)
| EvRet (t : Ty)                                 (* ... and returns *)
| EvDef (t : Ty) (name : string) (s : json).     (* definition [name] := [s], generated for [t] *)

(** generate.rs:234-243 [SchemaGenerator]; the root stack has its last element at the head. *)
Record gen := Gen {
  g_set : settings;
  g_tst : St;
  g_defs : map_t;
  g_pending : list uid;
  g_names : list (uid * string);
  g_used : list string;
  g_roots : list uid;
  g_log : list event }.

Definition with_defs (d : map_t) (g : gen) : gen :=
  Gen (g_set g) (g_tst g) d (g_pending g) (g_names g) (g_used g) (g_roots g) (g_log g).
Definition with_pending (p : list uid) (g : gen) : gen :=
  Gen (g_set g) (g_tst g) (g_defs g) p (g_names g) (g_used g) (g_roots g) (g_log g).
Definition with_roots (r : list uid) (g : gen) : gen :=
  Gen (g_set g) (g_tst g) (g_defs g) (g_pending g) (g_names g) (g_used g) r (g_log g).
Definition with_name (u : uid) (n : string) (g : gen) : gen :=
  Gen (g_set g) (g_tst g) (g_defs g) (g_pending g) ((u, n) :: g_names g) (n :: g_used g)
      (g_roots g) (g_log g).
Definition with_tst (s : St) (g : gen) : gen :=
  Gen (g_set g) s (g_defs g) (g_pending g) (g_names g) (g_used g) (g_roots g) (g_log g).
Definition emit (e : event) (g : gen) : gen :=
  Gen (g_set g) (g_tst g) (g_defs g) (g_pending g) (g_names g) (g_used g) (g_roots g)
      (e :: g_log g).

(** generate.rs:273-282 [SchemaGenerator::new] *)
Definition new_gen (s : settings) (st : St) : gen := Gen s st [] [] [] [] [] [].

(** generate.rs:251-262 [Clone for SchemaGenerator] *)
Definition clone_gen (g : gen) : gen :=
  Gen (g_set g) (g_tst g) (g_defs g) [] [] [] [] (g_log g).

(** lib.rs:135-190 [trait JsonSchema], [json_schema] being given as a program over the
    generator: continuations receive what the calls return. A [Schema] is a [json] which is a
    boolean or an object (C06). [Call] is a direct [U::json_schema(generator)]; [Fork] clones the
    generator, works on the clone, and drops it. *)
Inductive prog :=
| Ret (s : json)
| Sub (t : Ty) (k : json -> prog)               (* generator.subschema_for::<t>() *)
| Call (t : Ty) (k : json -> prog)              (* t::json_schema(generator) *)
| Root (t : Ty) (k : json -> prog)              (* generator.root_schema_for::<t>() *)
| ReadSettings (k : settings -> prog)           (* generator.settings(), .contract() *)
| ReadDefs (k : map_t -> prog)                  (* generator.definitions() *)
| SetDefs (f : map_t -> map_t) (k : prog)       (* *generator.definitions_mut() = f(..) *)
| TakeDefs (b : bool) (k : map_t -> prog)       (* generator.take_definitions(b) *)
| Fork (p : prog) (k : json -> prog).           (* p on generator.clone() *)

Record tyinfo := TyInfo {
  t_inline : bool;      (* inline_schema() *)
  t_name : string;      (* schema_name() *)
  t_id : string;        (* schema_id() *)
  t_body : prog }.      (* json_schema() *)

Variable info : Ty -> tyinfo.

(** generate.rs:620-622 [schema_uid] *)
Definition uid_of (g : gen) (t : Ty) : uid := (t_id (info t), s_contract (g_set g)).

(** [format!("{base_name}{i}")], generate.rs:342 *)
Definition numbered (base : string) (i : nat) : string :=
  (base ++ NilEmpty.string_of_uint (Nat.to_uint i))%string.

(** generate.rs:336-354: the name search [for i in 2..]. The loop is bounded here by fuel; C10
    shows that the fuel given in [choose_name] is always enough. The code's [i] is an [i32]:
    overflow after 2^31 clashes is not modelled. *)
Fixpoint first_free (fuel : nat) (used : list string) (base : string) (i : nat) : option string :=
  match fuel with
  | O => None
  | S f => let name := numbered base i in
           if smem name used then first_free f used base (S i) else Some name
  end.

Definition choose_name (used : list string) (base : string) : string :=
  if smem base used then
    match first_free (S (length used)) used base 2 with Some n => n | None => "" end
  else base.

(** generate.rs:356-360 *)
Definition reference (path name : string) : string :=
  String "#" (definitions_path_stripped path ++ String "/" (encode_ref_name name)).

(** generate.rs:316-368 [find_ref]: the reference, the name to be inserted if any, and the
    generator with the name registered. *)
Definition find_ref (t : Ty) (g : gen) : option (string * option string * gen) :=
  let u := uid_of g t in
  let return_ref := negb (t_inline (info t)) && (negb (s_inline (g_set g)) || umem u (g_pending g)) in
  if negb return_ref then None
  else if match g_roots g with r :: _ => uid_eqb r u | [] => false end then Some ("#", None, g)
  else
    let '(name, g1) :=
      match uget u (g_names g) with
      | Some n => (n, g)
      | None => let n := choose_name (g_used g) (t_name (info t)) in (n, with_name u n g)
      end in
    Some (reference (s_path (g_set g)) name,
          if mhas name (g_defs g1) then None else Some name, g1).

(** generate.rs:606-610 [apply_transforms] *)
Definition apply_transforms (s : json) (g : gen) : json * gen :=
  let '(s', st') := fold_left (fun '(s, st) f => f s st) (s_transforms (g_set g)) (s, g_tst g) in
  (s', with_tst st' g).

(** generate.rs:427-437 [take_definitions] *)
Fixpoint transform_values (d : map_t) (g : gen) : map_t * gen :=
  match d with
  | [] => ([], g)
  | (k, v) :: d' =>
      let '(v', g1) := if is_schema v then apply_transforms v g else (v, g) in
      let '(d'', g2) := transform_values d' g1 in
      ((k, v') :: d'', g2)
  end.

Definition take_definitions (b : bool) (g : gen) : map_t * gen :=
  let d := g_defs g in
  let g1 := with_defs [] g in
  if b then transform_values d g1 else (d, g1).

(** [js] stands for [T::json_schema] below; [None] is "does not return". *)
Section Handler.
Variable js : Ty -> gen -> option (json * gen).

(** generate.rs:577-587 [json_schema_internal] *)
Definition json_schema_internal (t : Ty) (u : uid) (g : gen) : option (json * gen) :=
  let did_add := negb (umem u (g_pending g)) in
  let g1 := if did_add then with_pending (u :: g_pending g) g else g in
  match js t g1 with
  | None => None
  | Some (s, g2) =>
      Some (s, if did_add
               then with_pending (filter (fun v => negb (uid_eqb u v)) (g_pending g2)) g2
               else g2)
  end.

(** generate.rs:386-397 [insert_new_subschema_for] *)
Definition insert_new_subschema_for (t : Ty) (name : string) (u : uid) (g : gen)
  : option gen :=
  let g1 := with_defs (mset name (JBool false) (g_defs g)) g in
  match json_schema_internal t u g1 with
  | None => None
  | Some (s, g2) => Some (emit (EvDef t name s) (with_defs (mset name s (g_defs g2)) g2))
  end.

(** generate.rs:309-384 [subschema_for] *)
Definition subschema_for (t : Ty) (g : gen) : option (json * gen) :=
  let u := uid_of g t in
  match find_ref t g with
  | None => json_schema_internal t u g
  | Some (r, ins, g1) =>
      let g2 := emit (EvRef (g_roots g) t r) g1 in
      match ins with
      | None => Some (new_ref r, g2)
      | Some name =>
          match insert_new_subschema_for t name u g2 with
          | None => None
          | Some g3 => Some (new_ref r, g3)
          end
      end
  end.

(** The object of the root schema before the definitions are added (generate.rs:456-464):
    [title] unless present, and [$schema]. *)
Definition root_object (t : Ty) (s : settings) (schema : json) : map_t :=
  let o := ensure_obj schema in
  let o := if mhas "title" o then o else mset "title" (JStr (t_name (info t))) o in
  match s_meta s with Some m => mset "$schema" (JStr m) o | None => o end.

(** generate.rs:450-472 [root_schema_for] *)
Definition root_schema_for (t : Ty) (g : gen) : option (json * gen) :=
  let u := uid_of g t in
  match json_schema_internal t u (with_roots (u :: g_roots g) g) with
  | None => None
  | Some (s, g1) =>
      let o := root_object t (g_set g1) s in
      let doc := JObj (add_definitions (s_path (g_set g1)) o (g_defs g1)) in
      let '(doc', g2) := apply_transforms doc g1 in
      Some (doc', with_roots (tl (g_roots g2)) g2)
  end.

(** generate.rs:480-503 [into_root_schema_for]: consumes the generator. [mem::take] of the meta
    schema happens before [take_definitions] and [apply_transforms], which do not read it. *)
Definition into_root_schema_for (t : Ty) (g : gen) : option json :=
  let u := uid_of g t in
  match json_schema_internal t u (with_roots (u :: g_roots g) g) with
  | None => None
  | Some (s, g1) =>
      let o := root_object t (g_set g1) s in
      let '(defs, g2) := take_definitions false g1 in
      let doc := JObj (add_definitions (s_path (g_set g2)) o defs) in
      Some (fst (apply_transforms doc g2))
  end.

Fixpoint run_prog (p : prog) (g : gen) : option (json * gen) :=
  match p with
  | Ret s => Some (s, g)
  | Sub t k => match subschema_for t g with Some (s, g') => run_prog (k s) g' | None => None end
  | Call t k => match js t g with Some (s, g') => run_prog (k s) g' | None => None end
  | Root t k => match root_schema_for t g with Some (s, g') => run_prog (k s) g' | None => None end
  | ReadSettings k => run_prog (k (g_set g)) g
  | ReadDefs k => run_prog (k (g_defs g)) g
  | SetDefs f k => run_prog k (with_defs (f (g_defs g)) g)
  | TakeDefs b k => let '(d, g') := take_definitions b g in run_prog (k d) g'
  | Fork p k => match run_prog p (clone_gen g) with
                | Some (s, _) => run_prog (k s) g
                | None => None
                end
  end.
End Handler.

(** [T::json_schema(generator)] with at most [n] nested implementations on the call stack;
    [None] when that is exceeded. C14 shows when some [n] is enough. *)
Fixpoint json_schema (n : nat) (t : Ty) (g : gen) : option (json * gen) :=
  match n with
  | O => None
  | S n' => match run_prog (json_schema n') (t_body (info t)) (emit (EvRun t) g) with
            | Some (s, g') => Some (s, emit (EvRet t) g')
            | None => None
            end
  end.

(** A call history (or any user code working with a generator). *)
Definition run (n : nat) (p : prog) (g : gen) : option (json * gen) :=
  run_prog (json_schema n) p g.

End Model.

Arguments settings : clear implicits.
Arguments event : clear implicits.
Arguments gen : clear implicits.
Arguments prog : clear implicits.
Arguments tyinfo : clear implicits.
