(** The types whose schemas are shown to accept all that serde reads (the relation [reads]). *)
From Coq Require Import String Ascii List ZArith Bool.
From Verif Require Import Json Validate SerValue ValidationAttrs Types Serde Reads.
Import ListNotations.
Open Scope string_scope.
Open Scope list_scope.

(** ** The JSON values considered *)
(** No array contains an element twice. *)
Fixpoint no_repeats (j : json) : bool :=
  match j with
  | JArr l => all_distinct l && forallb no_repeats l
  | JObj o => forallb (fun kx => no_repeats (snd kx)) o
  | _ => true
  end.
(** [sets]: whether there are sets among the types. serde drops repeated elements of a set, its schema
    rejects them. *)
Definition input (sets : bool) (j : json) : Prop := wf j = true /\ (sets = true -> no_repeats j = true).

Section Accepts.
Context {X : Type}.
Variable items : nat -> item X.
Variable meta_ok : list (string * json) -> Prop.   (* annotations must not be keywords of the schema *)
Variable sets : bool.

(** [required] on an Option asks for more than serde does. *)
(** Not an Option or Weak, also behind pointers *)
Fixpoint bare (t : rty) : bool := match t with TOption _ | TWeak _ => false | TFwd t => bare t | _ => true end.
Definition accepts_field (f : field X) : Prop := meta_ok (f_meta f) /\ (f_required f = true -> bare (f_ty f) = true).

(** A struct with named fields that ignores unknown ones and does not collect them in a map *)
Notation open_struct := (open_struct items).

Definition accepts_flat (f : field X) : Prop :=
  bare (f_ty f) = true /\ (open_struct (strip_option (f_ty f)) \/ exists k t, f_ty f = TMap k t /\ key_string k).
Definition one_map (fs : list (field X)) : Prop :=
  ForallOrdPairs (fun g f => f_flatten g = true -> f_flatten f = true -> is_map (f_ty g) = true -> is_map (f_ty f) = true -> False) (taken fs).
Definition accepts_style (deny : bool) (s : style X) : Prop :=
  match s with
  | Unit => True
  | Newtype f => f_skip_de f = false /\ accepts_field f
  | Tuple fs => forall f, In f fs -> accepts_field f
  | Struct fs => (forall f, In f fs -> if f_flatten f then deny = false /\ accepts_flat f else accepts_field f) /\ one_map fs
  end.
Definition accepts_variant (deny : bool) (tg : tagging) (v : variant X) : Prop :=
  meta_ok (v_meta v) /\ accepts_style deny (v_style v)
  /\ (v_untagged v = false ->
      match tg with
      | External | Untagged => True
      | Internal tag => match v_style v with
                        | Unit => deny = false   (* serde ignores unknown fields here even if they are denied *)
                        | Struct fs => forall f, In f (taken fs) -> ~ field_takes items f tag
                        | Newtype f => no_checks (f_valid f) /\ open_struct (f_ty f) /\ ~ takes_key items (f_ty f) tag
                        | _ => False end
      | Adjacent tag content => tag <> content /\ (v_style v = Unit -> deny = false)   (* serde reads a null as the contents *)
      end).
Fixpoint accepts_data (deny : bool) (d : data X) : Prop :=
  match d with
  | DStruct _ s => accepts_style deny s
  | DEnum tg vs => vs <> [] /\ (forall v, In v vs -> accepts_variant deny tg v)
                   /\ (tg = Untagged \/ NoDup (map v_de (filter (fun v => negb (v_skip_de v) && negb (v_untagged v)) vs)))
  | DRepr _ => True
  | DConv from _ own => match from with Some t => bare t = true (* a missing field of a type converted from an Option is read *) | None => accepts_data deny own end
  end.
(** Keys of maps *)
Fixpoint accepts_key (k : rty) : Prop := match k with TStr | TChar | TInt _ => True | TFwd k => accepts_key k | _ => False end.
Fixpoint accepts_type (t : rty) : Prop :=
  match t with
  | TSet _ => sets = true
  | TMap k _ => accepts_key k
  | TFwd t => accepts_type t
  | TWeak _ => False                                      (* serde reads null *)
  | TText Decimal | TOsString | TCString => False         (* not among the types that [reads] covers *)
  | TAdt i cs ts => meta_ok (d_meta (it_decl (items i) cs ts))
                    /\ accepts_data (d_deny (it_decl (items i) cs ts)) (d_data (it_decl (items i) cs ts))
  | _ => True
  end.
End Accepts.
