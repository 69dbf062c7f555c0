(** Rename format strings: the macro's reading of them and format!'s agree. *)
From Coq Require Import String Ascii List Bool.
From Verif Require Import Json NameFormat.
Import ListNotations.
Open Scope string_scope.

(** SPECIFICATION: the templates of Rust's [format!] (std::fmt, "Syntax") whose placeholders are
    identifiers without format specs: literal characters, doubled braces, and {argument}. *)
Inductive token := Char (c : ascii) | Open | Close | Arg (id : string).
Definition no_brace (s : string) : Prop := contains open_brace s = false /\ contains close_brace s = false.
Definition token_ok (t : token) : Prop :=
  match t with Char c => c <> open_brace /\ c <> close_brace | Arg id => no_brace id | _ => True end.
Definition write_token (t : token) : string :=
  match t with Char c => String c "" | Open => "{{" | Close => "}}" | Arg id => String open_brace (id ++ "}") end.
Fixpoint write (ts : list token) : string := match ts with [] => "" | t :: r => write_token t ++ write r end.
(** [template s ts]: [format!] reads [s] as [ts]. *)
Definition template (s : string) (ts : list token) : Prop := (forall t, In t ts -> token_ok t) /\ s = write ts.

Definition args_of (ts : list token) : list string := flat_map (fun t => match t with Arg id => [id] | _ => [] end) ts.
(** What [format!] returns for the given arguments *)
Fixpoint render (value : string -> string) (ts : list token) : string :=
  match ts with
  | [] => ""
  | t :: r => match t with Char c => String c "" | Open => "{" | Close => "}" | Arg id => value id end ++ render value r
  end.

Lemma str_app_assoc a b c : (a ++ b) ++ c = a ++ (b ++ c).
Proof. induction a; cbn; congruence. Qed.
Lemma contains_app c a b : contains c (a ++ b) = contains c a || contains c b.
Proof. induction a; cbn; [reflexivity|]. now rewrite IHa, orb_assoc. Qed.

(** Writing with the doubled braces left out *)
Fixpoint write1 (ts : list token) : string :=
  match ts with [] => "" | t :: r => match t with Open => "" | _ => write_token t end ++ write1 r end.
Fixpoint write2 (ts : list token) : string :=
  match ts with [] => "" | t :: r => match t with Open | Close => "" | _ => write_token t end ++ write2 r end.

Lemma remove_other c a s : a <> c -> remove_pairs c (String a s) = String a (remove_pairs c s).
Proof.
  intros N. cbn [remove_pairs]. destruct s as [|b u]; [reflexivity|]. destruct (Ascii.eqb_spec a c); [contradiction|reflexivity].
Qed.
Lemma remove_text c a s : contains c a = false -> remove_pairs c (a ++ s) = a ++ remove_pairs c s.
Proof.
  induction a as [|x a IH]; intros H; [reflexivity|]. cbn [contains] in H. apply orb_false_iff in H as [H1 H2].
  cbn [append]. rewrite remove_other by (now apply Ascii.eqb_neq). now rewrite IH.
Qed.
Lemma remove_pair c s : remove_pairs c (String c (String c s)) = remove_pairs c s.
Proof. cbn [remove_pairs]. now rewrite Ascii.eqb_refl. Qed.
Lemma remove_single c a s : a <> c -> remove_pairs c (String c (String a s)) = String c (remove_pairs c (String a s)).
Proof. intros N. cbn [remove_pairs]. rewrite Ascii.eqb_refl. destruct (Ascii.eqb_spec a c); [contradiction|reflexivity]. Qed.

Lemma remove_open ts : (forall t, In t ts -> token_ok t) -> remove_pairs open_brace (write ts) = write1 ts.
Proof.
  induction ts as [|t ts IH]; intros H; [reflexivity|].
  assert (IH' := IH (fun x Hx => H x (or_intror Hx))). pose proof (H t (or_introl eq_refl)) as HT. cbn [write write1].
  destruct t as [c| | |id]; cbn [write_token token_ok] in *.
  - cbn [append]. destruct HT as [N1 N2]. rewrite remove_other by exact N1. now rewrite IH'.
  - cbn [append]. change "{"%char with open_brace. rewrite remove_pair. exact IH'.
  - change ("}}" ++ write ts) with ("}}" ++ write ts). rewrite remove_text by reflexivity. now rewrite IH'.
  - destruct HT as [N1 N2]. cbn [append]. rewrite !str_app_assoc.
    assert (HX : exists a s, id ++ "}" ++ write ts = String a s /\ a <> open_brace).
    { destruct id as [|a id]; [exists "}"%char; eexists; split; [reflexivity|discriminate]|].
      exists a. eexists. split; [reflexivity|]. cbn [contains] in N1. apply orb_false_iff in N1 as [N1 _]. now apply Ascii.eqb_neq. }
    destruct HX as (a & s & HE & HN). rewrite HE, remove_single by exact HN. f_equal. rewrite <- HE.
    rewrite remove_text by exact N1. f_equal. rewrite remove_text by reflexivity. now rewrite IH'.
Qed.

Lemma remove_close ts : (forall t, In t ts -> token_ok t) ->
  remove_pairs close_brace (write1 ts) = write2 ts
  /\ remove_pairs close_brace (String close_brace (write1 ts)) = String close_brace (write2 ts).
Proof.
  induction ts as [|t ts IH]; intros H; [split; reflexivity|].
  destruct (IH (fun x Hx => H x (or_intror Hx))) as [I1 I2]. pose proof (H t (or_introl eq_refl)) as HT. cbn [write1 write2].
  destruct t as [c| | |id]; cbn [write_token token_ok append] in *.
  - destruct HT as [N1 N2]. rewrite remove_single by exact N2. rewrite remove_other by exact N2. now rewrite I1.
  - split; assumption.
  - change "}"%char with close_brace. rewrite !remove_pair. split; assumption.
  - destruct HT as [N1 N2]. change "{"%char with open_brace.
    assert (HA : remove_pairs close_brace (String open_brace ((id ++ "}") ++ write1 ts)) = String open_brace ((id ++ "}") ++ write2 ts)).
    { rewrite remove_other by discriminate. f_equal. rewrite !str_app_assoc. rewrite remove_text by exact N2. f_equal. exact I2. }
    split; [exact HA|]. rewrite remove_single by discriminate. now rewrite HA.
Qed.

(** The segments of what is left *)
Fixpoint lits (ts : list token) : string :=
  match ts with Char c :: r => String c (lits r) | Open :: r | Close :: r => lits r | _ => "" end.
Fixpoint segs (ts : list token) : list string :=
  match ts with
  | [] => []
  | Arg id :: r => (id ++ String close_brace (lits r)) :: segs r
  | _ :: r => segs r
  end.
Lemma split_text c a s : contains c a = false -> split c (a ++ s) = (a ++ fst (split c s), snd (split c s)).
Proof.
  induction a as [|x a IH]; intros H; [cbn; now destruct (split c s)|]. cbn [contains] in H. apply orb_false_iff in H as [H1 H2].
  cbn [append split]. rewrite IH by exact H2. now rewrite H1.
Qed.
Lemma split_write2 ts : (forall t, In t ts -> token_ok t) -> split open_brace (write2 ts) = (lits ts, segs ts).
Proof.
  induction ts as [|t ts IH]; intros H; [reflexivity|].
  assert (IH' := IH (fun x Hx => H x (or_intror Hx))). pose proof (H t (or_introl eq_refl)) as HT. cbn [write2 lits segs].
  destruct t as [c| | |id]; cbn [write_token token_ok append] in *; try exact IH'.
  - cbn [split]. rewrite IH'. destruct HT as [N1 N2]. apply Ascii.eqb_neq in N1. now rewrite N1.
  - destruct HT as [N1 N2]. cbn [split]. rewrite str_app_assoc, split_text by exact N1. rewrite split_text by reflexivity. rewrite IH'. reflexivity.
Qed.
Lemma lits_no_close ts : (forall t, In t ts -> token_ok t) -> contains close_brace (lits ts) = false.
Proof.
  induction ts as [|t ts IH]; intros H; [reflexivity|].
  assert (IH' := IH (fun x Hx => H x (or_intror Hx))). pose proof (H t (or_introl eq_refl)) as HT.
  destruct t; cbn [lits contains token_ok] in *; auto. destruct HT as [_ N]. apply Ascii.eqb_neq in N. now rewrite N, IH'.
Qed.
Lemma split_once_text c a s : contains c a = false -> split_once c (a ++ String c s) = Some (a, s).
Proof.
  induction a as [|x a IH]; intros H; cbn [append split_once].
  - now rewrite Ascii.eqb_refl.
  - cbn [contains] in H. apply orb_false_iff in H as [H1 H2]. now rewrite H1, IH.
Qed.

Lemma segments consts types ts : (forall t, In t ts -> token_ok t) ->
  map (segment consts types) (segs ts)
  = map (fun id => if is_param types id then ([id], []) else if is_param consts id then ([], []) else ([], [NotAParam id])) (args_of ts).
Proof.
  induction ts as [|t ts IH]; intros H; [reflexivity|].
  assert (IH' := IH (fun x Hx => H x (or_intror Hx))). pose proof (H t (or_introl eq_refl)) as HT.
  destruct t as [c| | |id]; cbn [segs args_of flat_map app map]; try exact IH'. f_equal; [|exact IH'].
  destruct HT as [N1 N2]. unfold segment. rewrite split_once_text by exact N2.
  rewrite lits_no_close by (intros x Hx; apply H; now right). reflexivity.
Qed.

Lemma is_param_In ps p : is_param ps p = true <-> In p ps.
Proof. unfold is_param. rewrite existsb_exists. split; [intros (x & Hx & HE); apply String.eqb_eq in HE; now subst|intros HI; exists p; split; [exact HI|apply String.eqb_refl]]. Qed.

Lemma template_params consts types s ts : template s ts -> contains open_brace s = true ->
  let '(params, errors) := get_rename_format_type_params consts types s in
  (errors = [] <-> forall id, In id (args_of ts) -> In id types \/ In id consts)
  /\ (forall p, In p params <-> In p types /\ In p (args_of ts)).
Proof.
  intros [HT ->] HO. unfold get_rename_format_type_params. rewrite HO. cbn [negb].
  rewrite remove_open by exact HT. destruct (remove_close ts HT) as [-> _]. rewrite split_write2 by exact HT.
  rewrite lits_no_close by exact HT. rewrite segments by exact HT. cbn [app].
  induction (args_of ts) as [|id l [I1 I2]]; cbn [map flat_map].
  - split; [split; [intros _ id []|reflexivity]|]. intros p. cbn. tauto.
  - split.
    + destruct (is_param types id) eqn:E1; [|destruct (is_param consts id) eqn:E2]; cbn [fst snd app].
      * rewrite I1. apply is_param_In in E1. split; [intros H x [<-|Hx]; auto|intros H x Hx; apply H; now right].
      * rewrite I1. apply is_param_In in E2. split; [intros H x [<-|Hx]; auto|intros H x Hx; apply H; now right].
      * split; [discriminate|]. intros H. exfalso. destruct (H id (or_introl eq_refl)) as [HX|HX]; apply is_param_In in HX; congruence.
    + intros p. rewrite in_app_iff, I2. destruct (is_param types id) eqn:E1; [|destruct (is_param consts id) eqn:E2]; cbn [fst In].
      * apply is_param_In in E1. split; [intros [[<-|[]]|[H1 H2]]; auto|intros [H1 [<-|H2]]; auto].
      * assert (N : ~ In id types) by (intros HX; apply is_param_In in HX; congruence). split; [intros [[]|[H1 H2]]; auto|intros [H1 [<-|H2]]; [contradiction|auto]].
      * assert (N : ~ In id types) by (intros HX; apply is_param_In in HX; congruence). split; [intros [[]|[H1 H2]]; auto|intros [H1 [<-|H2]]; [contradiction|auto]].
Qed.

(** A template is read in one way only. *)
Lemma write_inj ts ts' : (forall t, In t ts -> token_ok t) -> (forall t, In t ts' -> token_ok t) -> write ts = write ts' -> ts = ts'.
Proof.
  revert ts'. induction ts as [|t ts IH]; intros [|t' ts'] H H' HE; [reflexivity| | |].
  - destruct t'; discriminate HE.
  - destruct t; discriminate HE.
  - pose proof (H t (or_introl eq_refl)) as HT. pose proof (H' t' (or_introl eq_refl)) as HT'.
    assert (IH' : forall r, (forall x, In x r -> token_ok x) -> write ts = write r -> ts = r) by (intros r HR; apply IH; [intros x Hx; apply H; now right|exact HR]).
    assert (HR : forall x, In x ts' -> token_ok x) by (intros x Hx; apply H'; now right).
    assert (HID : forall id s, no_brace id -> (id ++ "}") ++ write ts = String "{" s -> False).
    { intros [|a id] s [N1 _] HX; cbn in HX; [discriminate|]. injection HX as -> _. discriminate N1. }
    assert (HID' : forall id s, no_brace id -> (id ++ "}") ++ write ts' = String "{" s -> False).
    { intros [|a id] s [N1 _] HX; cbn in HX; [discriminate|]. injection HX as -> _. discriminate N1. }
    destruct t as [c| | |id], t' as [c'| | |id']; cbn [write write_token append token_ok] in *; try discriminate HE;
      try (exfalso; injection HE as HE1 HE2; subst; destruct HT as [N1 N2]; first [now apply N1|now apply N2]);
      try (exfalso; injection HE as HE1 HE2; subst; destruct HT' as [N1 N2]; first [now apply N1|now apply N2]).
    + injection HE as -> HE. f_equal. now apply IH'.
    + injection HE as HE. f_equal. now apply IH'.
    + injection HE as HE. exfalso. symmetry in HE. eapply HID'; eauto.
    + injection HE as HE. f_equal. now apply IH'.
    + injection HE as HE. exfalso. eapply HID; eauto.
    + injection HE as HE. assert (HS : split_once close_brace ((id ++ "}") ++ write ts) = split_once close_brace ((id' ++ "}") ++ write ts')) by congruence.
      rewrite !str_app_assoc in HS. cbn [append] in HS. destruct HT as [_ N2], HT' as [_ N2'].
      change "}"%char with close_brace in HS. rewrite !split_once_text in HS by assumption. injection HS as -> HS. f_equal. now apply IH'.
Qed.
