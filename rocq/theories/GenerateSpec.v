(** Vocabulary for the properties of the generator: what user code is allowed to do, and what is
    observed of a generator. *)
From Coq Require Import String List Bool.
From Verif Require Import Json SchemaApi Generate.
Import ListNotations.
Open Scope string_scope.
Open Scope list_scope.

(** Which of the less common generator methods a program may use; [subschema_for],
    direct calls of an implementation and [settings] are always allowed. *)
Record rights := Rights {
  may_set : bool;    (* definitions_mut *)
  may_take : bool;   (* take_definitions *)
  may_read : bool;   (* definitions *)
  may_fork : bool;   (* clone *)
  may_root : bool }. (* root_schema_for *)

Definition any_rights := Rights true true true true true.
Definition no_set := Rights false true true true true.
Definition no_edit := Rights false false true true true.
Definition no_edit_no_fork := Rights false false true false true.
Definition no_root := Rights true true true true false.
Definition plain := Rights false false false false false.

Section Spec.
Context {Ty St : Type}.

Fixpoint allowed (r : rights) (p : prog Ty St) : Prop :=
  match p with
  | Ret _ => True
  | Sub _ k | Call _ k => forall s, allowed r (k s)
  | Root _ k => may_root r = true /\ forall s, allowed r (k s)
  | ReadSettings k => forall s, allowed r (k s)
  | ReadDefs k => may_read r = true /\ forall d, allowed r (k d)
  | SetDefs _ k => may_set r = true /\ allowed r k
  | TakeDefs _ k => may_take r = true /\ forall d, allowed r (k d)
  | Fork p k => may_fork r = true /\ allowed r p /\ forall s, allowed r (k s)
  end.

Definition all_allowed (r : rights) (info : Ty -> tyinfo Ty St) : Prop :=
  forall t, allowed r (t_body (info t)).

(** The program may ask for [u] in this way. *)
Fixpoint may_sub (u : Ty) (p : prog Ty St) : Prop :=
  match p with
  | Ret _ => False
  | Sub t k => t = u \/ exists s, may_sub u (k s)
  | Call _ k | Root _ k => exists s, may_sub u (k s)
  | ReadSettings k => exists s, may_sub u (k s)
  | ReadDefs k => exists d, may_sub u (k d)
  | SetDefs _ k => may_sub u k
  | TakeDefs _ k => exists d, may_sub u (k d)
  | Fork p k => may_sub u p \/ exists s, may_sub u (k s)
  end.

(** ... by calling its implementation directly or generating it as a root *)
Fixpoint may_call (u : Ty) (p : prog Ty St) : Prop :=
  match p with
  | Ret _ => False
  | Sub _ k => exists s, may_call u (k s)
  | Call t k | Root t k => t = u \/ exists s, may_call u (k s)
  | ReadSettings k => exists s, may_call u (k s)
  | ReadDefs k => exists d, may_call u (k d)
  | SetDefs _ k => may_call u k
  | TakeDefs _ k => exists d, may_call u (k d)
  | Fork p k => may_call u p \/ exists s, may_call u (k s)
  end.

(** Types whose implementation is running at the end of a trace (newest event first). *)
Fixpoint running (l : list (event Ty)) : list Ty :=
  match l with
  | [] => []
  | EvRun t :: l' => t :: running l'
  | EvRet _ :: l' => tl (running l')
  | _ :: l' => running l'
  end.

(** [d] is what [t]'s implementation returned when run in some earlier state of the generator. *)
Definition produced (info : Ty -> tyinfo Ty St) (t : Ty) (d : json) (g : gen Ty St) : Prop :=
  exists m g1 g2, json_schema info m t g1 = Some (d, g2)
    /\ g_set g1 = g_set g
    /\ (forall u n, uget u (g_names g2) = Some n -> uget u (g_names g) = Some n).

End Spec.
