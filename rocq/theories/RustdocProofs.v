(** Splitting a doc comment: no panic, trimmed results, nothing but "#" and whitespace lost. *)
From Coq Require Import String Ascii List Bool Arith NArith Lia.
From Verif Require Import Utf8 Encoding EncodingProofs Rustdoc.
Import ListNotations.
Open Scope string_scope.

(** Specification *)
Definition all_ws (s : string) : Prop := sforall is_ws s = true.
Definition starts_ws (s : string) : bool := match s with String a _ => is_ws a | _ => false end.
Fixpoint last_char (s : string) : option ascii :=
  match s with
  | EmptyString => None
  | String a EmptyString => Some a
  | String _ s' => last_char s'
  end.
Definition ends_ws (s : string) : bool := match last_char s with Some a => is_ws a | None => false end.
(** No whitespace at either end *)
Definition trimmed (s : string) : Prop := starts_ws s = false /\ ends_ws s = false.
Fixpoint has_char (c : ascii) (s : string) : bool :=
  match s with EmptyString => false | String a s' => Ascii.eqb a c || has_char c s' end.

Lemma trim_left_spec s : exists w, s = w ++ trim_left s /\ all_ws w /\ starts_ws (trim_left s) = false.
Proof.
  induction s as [|a s (w & H1 & H2 & H3)]; [exists ""; repeat split|]. cbn [trim_left].
  destruct (is_ws a) eqn:EA.
  - exists (String a w). unfold all_ws in *. cbn [sforall append]. rewrite EA, H2. repeat split; auto. congruence.
  - exists "". repeat split. exact EA.
Qed.

Lemma last_char_app s t : t <> "" -> last_char (s ++ t) = last_char t.
Proof.
  intros H. induction s as [|a s IH]; [reflexivity|]. cbn [append last_char].
  destruct (s ++ t) eqn:EA; [|exact IH]. destruct s; [cbn in EA; congruence|discriminate].
Qed.

Lemma trim_right_spec s : exists w, s = trim_right s ++ w /\ all_ws w /\ ends_ws (trim_right s) = false.
Proof.
  induction s as [|a s (w & H1 & H2 & H3)]; [exists ""; repeat split|]. cbn [trim_right].
  destruct (trim_right s) as [|b t] eqn:ET.
  - destruct (is_ws a) eqn:EA.
    + exists (String a w). unfold all_ws in *. cbn [sforall append] in *. rewrite EA, H2. repeat split; congruence.
    + exists w. split; [cbn [append] in *; congruence|]. split; [exact H2|]. exact EA.
  - exists w. split; [cbn [append] in *; congruence|]. split; [exact H2|]. exact H3.
Qed.

Lemma starts_trim_right s : starts_ws s = false -> starts_ws (trim_right s) = false.
Proof.
  destruct s as [|a s]; [reflexivity|]. intros H. cbn [trim_right].
  destruct (trim_right s); [|exact H]. cbn [starts_ws] in *. rewrite H. exact H.
Qed.

Lemma trim_ascii_spec s : exists w1 w2, s = w1 ++ trim_ascii s ++ w2 /\ all_ws w1 /\ all_ws w2
  /\ trimmed (trim_ascii s).
Proof.
  destruct (trim_left_spec s) as (w1 & A1 & A2 & A3).
  destruct (trim_right_spec (trim_left s)) as (w2 & B1 & B2 & B3).
  exists w1, w2. unfold trim_ascii. repeat split; auto.
  - now rewrite <- B1.
  - now apply starts_trim_right.
Qed.

Lemma ws_ascii a : is_ws a = true -> is_ascii a = true.
Proof. all_bytes a. Qed.

Lemma utf8_cut u : utf8 u -> forall s a t, u = s ++ String a t -> is_ascii a = true -> utf8 s /\ utf8 (String a t).
Proof.
  induction 1 as [|x s0 Hx H IH|x y s0 Hx Hy H IH|x y z s0 Hx Hy Hz HV H IH|x y z w s0 Hx Hy Hz Hw HV H IH];
    intros s a t HE HA.
  - destruct s; discriminate.
  - destruct s as [|x' s]; cbn in HE; injection HE as <- HE.
    + subst s0. split; [constructor|now constructor].
    + destruct (IH s a t HE HA) as [I1 I2]. split; [now constructor|exact I2].
  - destruct s as [|x' s]; cbn in HE; injection HE as <- HE.
    { exfalso. revert Hx HA. clear. all_bytes x. }
    destruct s as [|y' s]; cbn in HE; injection HE as <- HE.
    { rewrite (cont_not_ascii y Hy) in HA. discriminate. }
    destruct (IH s a t HE HA) as [I1 I2]. split; [now constructor|exact I2].
  - destruct s as [|x' s]; cbn in HE; injection HE as <- HE.
    { exfalso. revert Hx HA. clear. all_bytes x. }
    destruct s as [|y' s]; cbn in HE; injection HE as <- HE.
    { rewrite (cont_not_ascii y Hy) in HA. discriminate. }
    destruct s as [|z' s]; cbn in HE; injection HE as <- HE.
    { rewrite (cont_not_ascii z Hz) in HA. discriminate. }
    destruct (IH s a t HE HA) as [I1 I2]. split; [now constructor|exact I2].
  - destruct s as [|x' s]; cbn in HE; injection HE as <- HE.
    { exfalso. revert Hx HA. clear. all_bytes x. }
    destruct s as [|y' s]; cbn in HE; injection HE as <- HE.
    { rewrite (cont_not_ascii y Hy) in HA. discriminate. }
    destruct s as [|z' s]; cbn in HE; injection HE as <- HE.
    { rewrite (cont_not_ascii z Hz) in HA. discriminate. }
    destruct s as [|w' s]; cbn in HE; injection HE as <- HE.
    { rewrite (cont_not_ascii w Hw) in HA. discriminate. }
    destruct (IH s a t HE HA) as [I1 I2]. split; [now constructor|exact I2].
Qed.

Lemma utf8_drop_ascii w s : sforall is_ascii w = true -> utf8 (w ++ s) -> utf8 s.
Proof.
  induction w as [|a w IH]; [auto|]. cbn. rewrite andb_true_iff. intros [HA HW] H. apply IH; [exact HW|].
  inversion H as [|x s0 Hx H'|x y s0 Hx|x y z s0 Hx|x y z v s0 Hx]; subst; auto;
    exfalso; revert Hx HA; clear; all_bytes a.
Qed.

Lemma utf8_drop_end s w : sforall is_ascii w = true -> utf8 (s ++ w) -> utf8 s.
Proof.
  destruct w as [|a w]; intros HW H; [now rewrite sapp_nil_r in H|]. cbn in HW. apply andb_true_iff in HW as [HA _].
  now destruct (utf8_cut _ H s a w eq_refl HA).
Qed.

Lemma ws_sascii w : all_ws w -> sforall is_ascii w = true.
Proof. unfold all_ws. apply sforall_impl. apply ws_ascii. Qed.

Lemma utf8_trim s : utf8 s -> utf8 (trim_ascii s).
Proof.
  intros H. destruct (trim_ascii_spec s) as (w1 & w2 & HE & H1 & H2 & _). rewrite HE in H.
  apply utf8_drop_ascii in H; [|now apply ws_sascii]. apply utf8_drop_end in H; [|now apply ws_sascii]. exact H.
Qed.

Lemma take_drop n : forall s, s = take n s ++ drop n s.
Proof. induction n as [|n IH]; intros [|a s]; cbn; auto. now rewrite <- IH. Qed.
Lemma take_all s : take (String.length s) s = s.
Proof. induction s; cbn; congruence. Qed.
Lemma drop_all s : drop (String.length s) s = "".
Proof. induction s; cbn; auto. Qed.

Lemma strchr_some s c i : strchr s c = Some i ->
  i <= String.length s /\ has_char c (take i s) = false /\ exists t, drop i s = String c t.
Proof.
  revert i. induction s as [|a s IH]; cbn; [discriminate|]. intros i. destruct (Ascii.eqb_spec a c) as [->|N].
  - intros H. injection H as <-. cbn. split; [lia|split; [reflexivity|eauto]].
  - destruct (strchr s c) as [j|]; [|discriminate]. intros H. injection H as <-. destruct (IH j eq_refl) as (A & B & C).
    cbn. split; [lia|split; [|exact C]]. destruct (Ascii.eqb_spec a c); [congruence|exact B].
Qed.
Lemma strchr_none s c : strchr s c = None -> has_char c s = false.
Proof.
  induction s as [|a s IH]; cbn; [auto|]. destruct (Ascii.eqb a c); [discriminate|].
  destruct (strchr s c); [discriminate|auto].
Qed.

Lemma trim_start_spec s c : exists h, s = h ++ trim_start s c /\ sforall (Ascii.eqb c) h = true
  /\ match trim_start s c with String a _ => a <> c | _ => True end
  /\ (match s with String a _ => Ascii.eqb a c | _ => false end = true -> h <> "").
Proof.
  induction s as [|a s (h & H1 & H2 & H3 & H4)]; [exists ""; repeat split; discriminate|]. cbn.
  destruct (Ascii.eqb_spec a c) as [->|N].
  - exists (String c h). cbn. rewrite Ascii.eqb_refl. repeat split; auto; congruence.
  - exists "". repeat split; auto. discriminate.
Qed.

Lemma has_char_app c s t : has_char c (s ++ t) = has_char c s || has_char c t.
Proof. induction s; cbn; [reflexivity|]. rewrite IHs. now rewrite orb_assoc. Qed.

(** What the two parts of a doc comment are. *)
Record split_doc (doc title desc : string) : Prop := {
  sd_title : trimmed title /\ has_char "010" title = false;
  sd_desc : trimmed desc;
  sd_parts : exists w1 hashes w2 w3 w4,
    doc = w1 ++ hashes ++ w2 ++ title ++ w3 ++ desc ++ w4
    /\ all_ws w1 /\ all_ws w2 /\ all_ws w3 /\ all_ws w4 /\ sforall (Ascii.eqb "#") hashes = true
    /\ has_char "010" w2 = false
    /\ (hashes = "" -> title = "" /\ w2 = "" /\ w3 = "" /\ match desc with String a _ => a <> "#"%char | _ => True end)
    /\ (hashes <> "" -> desc = "" \/ has_char "010" w3 = true)
}.

Lemma to_utf8_ok s : utf8 s -> to_utf8 s = Some s.
Proof. intros H. unfold to_utf8. now rewrite (utf8_utf8_valid s H). Qed.

Lemma all_ws_app a b : all_ws (a ++ b) <-> all_ws a /\ all_ws b.
Proof. unfold all_ws. rewrite sforall_app, andb_true_iff. reflexivity. Qed.

Lemma trim_ascii_fix s : trimmed s -> s = "" \/ exists a t, s = String a t /\ is_ws a = false.
Proof. intros [H _]. destruct s; cbn in H; eauto. Qed.

Theorem split_ok doc : utf8_valid doc = true ->
  exists title desc, get_title_and_description doc = Some (title, desc) /\ split_doc doc title desc.
Proof.
  intros HU. apply utf8_valid_utf8 in HU. pose proof (utf8_trim doc HU) as HB.
  destruct (trim_ascii_spec doc) as (w1 & w4 & HE & W1 & W4 & HT).
  unfold get_title_and_description. set (b := trim_ascii doc) in *. clearbody b.
  assert (HPlain : match b with String a _ => a <> "#"%char | _ => True end ->
    exists title desc, match to_utf8 b with Some d => Some ("", d) | None => None end = Some (title, desc)
      /\ split_doc doc title desc).
  { intros HN. rewrite to_utf8_ok by exact HB. exists "", b. split; [reflexivity|]. split.
    - repeat split.
    - exact HT.
    - exists w1, "", "", "", w4. cbn. repeat split; auto; congruence. }
  destruct b as [|a b]; [now apply HPlain|].
  destruct (Ascii.eqb_spec a "#") as [->|N].
  2:{ specialize (HPlain N). destruct HPlain as (t & d & H1 & H2). exists t, d. split; [|exact H2].
      rewrite <- H1. destruct a as [[] [] [] [] [] [] [] []]; try reflexivity. now exfalso; apply N. }
  clear HPlain. set (s := String "#" b) in *.
  assert (HS : exists e u d, match strchr s "010" with Some i => i | None => String.length s end = e
     /\ e <= String.length s /\ u = take e s /\ d = drop e s /\ s = u ++ d /\ has_char "010" u = false
     /\ (d = "" \/ exists d', d = String "010" d')).
  { destruct (strchr s "010") as [i|] eqn:EC.
    - destruct (strchr_some _ _ _ EC) as (A & B & C). exists i, (take i s), (drop i s).
      repeat split; auto. apply take_drop.
    - exists (String.length s), s, "". repeat split; auto.
      + now rewrite take_all.
      + now rewrite drop_all.
      + now rewrite sapp_nil_r.
      + now apply strchr_none. }
  destruct HS as (e & u & d & -> & HLe & Hu & Hd & Hsud & Hun & Hdn).
  unfold subslice.
  replace (Nat.ltb (String.length s) e) with false by (symmetry; apply Nat.ltb_ge; exact HLe).
  rewrite Nat.ltb_irrefl. cbn [drop]. rewrite take_all, <- Hu, <- Hd.
  assert (Uu : utf8 u /\ utf8 d).
  { destruct Hdn as [->|[d' Hd']].
    - rewrite sapp_nil_r in Hsud. rewrite <- Hsud. split; [exact HB|constructor].
    - rewrite Hd' in *. rewrite Hsud in HB. now apply (utf8_cut _ HB u "010" d' eq_refl). }
  destruct Uu as [Uu Ud].
  destruct (trim_start_spec u "#") as (h & Hh1 & Hh2 & Hh3 & Hh4).
  set (u' := trim_start u "#") in *. clearbody u'.
  assert (Uu' : utf8 u').
  { rewrite Hh1 in Uu. apply utf8_drop_ascii in Uu; [exact Uu|]. revert Hh2. apply sforall_impl.
    intros x Hx. apply Ascii.eqb_eq in Hx. now subst. }
  rewrite to_utf8_ok by now apply utf8_trim. rewrite to_utf8_ok by now apply utf8_trim.
  exists (trim_ascii u'), (trim_ascii d). split; [reflexivity|].
  destruct (trim_ascii_spec u') as (x1 & x2 & Hx & X1 & X2 & XT).
  destruct (trim_ascii_spec d) as (y1 & y2 & Hy & Y1 & Y2 & YT).
  set (ti := trim_ascii u') in *. set (de := trim_ascii d) in *. clearbody ti de.
  assert (Hnl : has_char "010" x1 = false /\ has_char "010" ti = false).
  { rewrite Hh1, Hx, !has_char_app, !orb_false_iff in Hun. tauto. }
  assert (Hne : h <> "").
  { apply Hh4. destruct u as [|c u0]; [|].
    - exfalso. cbn in Hsud. destruct Hdn as [->|[d' ->]]; discriminate.
    - unfold s in Hsud. cbn in Hsud. injection Hsud as <- _. reflexivity. }
  split.
  - split; [exact XT|tauto].
  - exact YT.
  - exists w1, h, x1, (x2 ++ y1), (y2 ++ w4). repeat split; auto; try tauto.
    + rewrite HE, Hsud. rewrite Hh1, Hx, Hy. now rewrite !sapp_assoc.
    + now apply all_ws_app.
    + now apply all_ws_app.
    + intros _. destruct Hdn as [->|[d' ->]].
      * left. destruct y1; [|discriminate]. cbn in Hy. destruct de; [reflexivity|discriminate].
      * destruct de as [|c de]; [now left|right]. destruct y1 as [|c' y1].
        -- exfalso. cbn in Hy. injection Hy as <- _. destruct YT as [YT _]. discriminate.
        -- cbn in Hy. injection Hy as <- _. rewrite has_char_app. cbn. apply orb_true_r.
Qed.
