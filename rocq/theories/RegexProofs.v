(** The escaped pattern is read as the literal text. *)
From Coq Require Import String Ascii List Bool Arith Lia.
From Verif Require Import RegexSyntax.
Import ListNotations.
Open Scope string_scope.

Lemma meta_not_alnum c : is_meta_character c = true -> is_alnum c = false.
Proof. destruct c as [[] [] [] [] [] [] [] []]; vm_compute; auto; discriminate. Qed.
Lemma syntax_meta c : is_meta_character c = false -> is_syntax c = false /\ Ascii.eqb c "\" = false.
Proof. destruct c as [[] [] [] [] [] [] [] []]; vm_compute; auto; discriminate. Qed.

Lemma tokens_escape s : tokens (escape s) = Some (map TChar (list_ascii_of_string s)).
Proof.
  induction s as [|c s IH]; [reflexivity|]. cbn [escape list_ascii_of_string map].
  destruct (is_meta_character c) eqn:EM.
  - cbn [tokens]. rewrite Ascii.eqb_refl, (meta_not_alnum c EM), IH. reflexivity.
  - destruct (syntax_meta c EM) as [H1 H2]. cbn [tokens]. rewrite H2, H1, IH. reflexivity.
Qed.

Fixpoint lit (s : string) : regex :=
  match s with EmptyString => REmpty | String c s' => RCat (RChar c) (lit s') end.

Lemma p_cat_lit s : forall n, List.length (list_ascii_of_string s) + 2 <= n ->
  p_cat n (map TChar (list_ascii_of_string s)) = Some (lit s, []).
Proof.
  induction s as [|c s IH]; intros n Hn; cbn [list_ascii_of_string map List.length] in *.
  - destruct n; [lia|]. reflexivity.
  - destruct n as [|n]; [lia|]. cbn [p_cat]. destruct n as [|n]; [lia|].
    assert (HA : p_atom (S n) (TChar c :: map TChar (list_ascii_of_string s))
                 = Some (RChar c, map TChar (list_ascii_of_string s))).
    { cbn [p_atom]. destruct s; reflexivity. }
    rewrite HA, IH by lia. reflexivity.
Qed.

Lemma read_escape s : read_pattern (escape s) = Some (lit s).
Proof.
  unfold read_pattern. rewrite tokens_escape, map_length.
  set (L := List.length (list_ascii_of_string s)).
  replace (4 + 4 * L) with (S (3 + 4 * L)) by lia. cbn [p_alt].
  rewrite p_cat_lit by lia. reflexivity.
Qed.

Lemma app_assoc_s a b c : (a ++ b) ++ c = a ++ b ++ c.
Proof. induction a; cbn; congruence. Qed.
Lemma app_nil_s a : a ++ "" = a.
Proof. induction a; cbn; congruence. Qed.

Lemma lit_match s : forall pre t post, rmatch (lit s) pre t post <-> t = s.
Proof.
  induction s as [|c s IH]; intros pre t post; cbn [lit].
  - split; [intros H; now inversion H|intros ->; constructor].
  - split.
    + intros H. inversion H as [| | | | |? ? ? u w ? H1 H2| | | |]; subst. inversion H1; subst.
      apply IH in H2. now subst.
    + intros ->. change (String c s) with (String c "" ++ s). constructor; [constructor|]. now apply IH.
Qed.

Lemma search_lit s text : searches (lit s) text <-> exists pre post, text = pre ++ s ++ post.
Proof.
  unfold searches. split.
  - intros (pre & t & post & -> & H). apply lit_match in H. subst. eauto.
  - intros (pre & post & ->). exists pre, s, post. split; [reflexivity|]. now apply lit_match.
Qed.

Lemma escape_inj s : forall t, escape s = escape t -> s = t.
Proof.
  intros t H. assert (HT : tokens (escape s) = tokens (escape t)) by now rewrite H.
  rewrite !tokens_escape in HT. injection HT as HT.
  revert t H HT. induction s as [|c s IH]; intros [|d t] _ HT; cbn in HT; try discriminate; auto.
  injection HT as -> HT. f_equal. apply IH; auto.
  assert (HL : forall a b, map TChar (list_ascii_of_string a) = map TChar (list_ascii_of_string b) -> a = b).
  { induction a as [|x a IHa]; intros [|y b] HH; cbn in HH; try discriminate; auto.
    injection HH as -> HH. f_equal. auto. }
  now rewrite (HL s t HT).
Qed.

Lemma unicode_escape s : (forall c, In c (list_ascii_of_string s) -> In c ["#"; "&"; "-"; "~"]%char -> False) ->
  unicode_ok (escape s) = true.
Proof.
  induction s as [|c s IH]; intros H; [reflexivity|]. cbn [escape].
  assert (HS : unicode_ok (escape s) = true) by (apply IH; intros x Hx; apply H; now right).
  destruct (is_meta_character c) eqn:EM.
  - cbn [unicode_ok]. rewrite Ascii.eqb_refl, HS, andb_true_r.
    specialize (H c (or_introl eq_refl)). revert EM H. clear.
    destruct c as [[] [] [] [] [] [] [] []]; vm_compute; intros EM H; auto; try discriminate; exfalso; apply H; auto 10.
  - destruct (syntax_meta c EM) as [_ H2]. cbn [unicode_ok]. now rewrite H2.
Qed.
