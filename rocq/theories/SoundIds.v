(** Types with one id have the same values; the names of standard types; types made of standard types. *)
From Coq Require Import String Ascii List ZArith Bool Lia DecimalString.
From Verif Require Import Json JsonFacts Utf8 Encoding EncodingProofs SchemaApi Validate Pointer PointerProofs Private Generate
  GenerateDoc SerValue Types Serde SerdeFacts TypeId TypeSim TypeErase SoundTypes Sound.
Import ListNotations.
Open Scope string_scope.
Open Scope list_scope.

Lemma unwrap_erase u i cs ts : unwrap u = TAdt i cs ts <-> erase u = TAdt i cs ts.
Proof. induction u; cbn; try tauto; try (split; discriminate). destruct n; split; discriminate. Qed.

Lemma erase_alike items text_ok u u' : erase u = erase u' -> weak_keys_free u -> weak_keys_free u' -> alike items text_ok u u'.
Proof.
  intros HE HU HU'. split.
  - intros v. change (js items text_ok v u = js items text_ok v u').
    rewrite (js_erase items text_ok (S (rsize v)) v u), (js_erase items text_ok (S (rsize v)) v u'); auto. now rewrite HE.
  - intros tag (i & cs & ts & def & fs & H1 & H2). exists i, cs, ts, def, fs. split; [|exact H2].
    apply unwrap_erase. rewrite <- HE. now apply unwrap_erase.
Qed.

(** Types built from standard types and those of other crates, except [ArrayVec] *)
Fixpoint std (t : rty) : Prop :=
  match t with
  | TOption t | TSeq t | TSet t | TArray _ t | TBound t | TRange t | TFwd t | TWeak t => std t
  | TTuple ts => (fix all l := match l with [] => True | x :: l' => std x /\ all l' end) ts
  | TMap a b | TResult a b | TEither a b => std a /\ std b
  | TAdt _ _ _ | TArrayVec _ _ => False
  | _ => True
  end.

Lemma std_asked {X} (items : nat -> item X) t : std t -> forall u, In u (asked items t) -> std u.
Proof.
  induction t using rty_ind'; cbn [std asked]; intros HS u Hu; try contradiction; auto;
    try (destruct t; contradiction); try (destruct Hu as [<-|[]]; exact HS).
  - destruct t; try contradiction; cbn in Hu; repeat (destruct Hu as [<-|Hu]; [exact I|]); destruct Hu.
  - rewrite all_Forall, Forall_forall in HS. auto.
  - destruct HS. destruct Hu as [<-|[<-|[]]]; auto.
  - destruct HS. destruct Hu as [<-|[<-|[]]]; auto.
  - destruct HS. destruct Hu as [<-|[<-|[]]]; auto.
Qed.

Lemma std_reach {X} (items : nat -> item X) t u : std t -> reach items t u -> std u.
Proof. intros HS. induction 1; auto. eapply std_asked; eauto. Qed.

Lemma weak_asked {X} (items : nat -> item X) t : std t -> weak_keys_free t -> forall u, In u (asked items t) -> weak_keys_free u.
Proof.
  assert (HNW : forall t, no_weak t -> weak_keys_free t).
  { induction t0 using rty_ind'; cbn; auto; try tauto.
    - destruct t0; tauto || contradiction.
    - rewrite !all_Forall. intros HF. rewrite Forall_forall in *. auto. }
  induction t using rty_ind'; cbn [std asked weak_keys_free]; intros HS HW u Hu; try contradiction; auto;
    try (destruct t; contradiction); try (destruct Hu as [<-|[]]; exact HW).
  - destruct t; try contradiction; cbn in Hu; repeat (destruct Hu as [<-|Hu]; [exact I|]); destruct Hu.
  - rewrite all_Forall, Forall_forall in HW. auto.
  - destruct HW. destruct Hu as [<-|[<-|[]]]; auto.
  - destruct HW. destruct Hu as [<-|[<-|[]]]; auto.
  - destruct HW. destruct Hu as [<-|[<-|[]]]; auto.
Qed.

Lemma weak_reach {X} (items : nat -> item X) t u : std t -> weak_keys_free t -> reach items t u -> weak_keys_free u.
Proof.
  intros HS HW HR. enough (std u /\ weak_keys_free u) by tauto. induction HR as [|a b HR [H1 H2] HI]; auto.
  split; [eapply std_asked; eauto|eapply weak_asked; eauto].
Qed.

(** ** Names *)
Definition ident (a : ascii) : bool := plain_char a && is_ascii a.
Lemma ident_plain s : sforall ident s = true -> plain_name s.
Proof.
  intros H. assert (HX : sforall plain_char s = true /\ all_ascii s = true).
  { unfold all_ascii. induction s as [|a s IH]; [split; reflexivity|]. cbn [sforall] in *. apply andb_true_iff in H as [H1 H2].
    apply andb_true_iff in H1 as [H1 H3]. destruct (IH H2) as [-> ->]. now rewrite H1, H3. }
  destruct HX. split; [|assumption]. now apply utf8_utf8_valid, all_ascii_utf8.
Qed.

Lemma show_ident n : sforall ident (show_int (Z.of_nat n)) = true.
Proof.
  assert (HD : forall d, sforall ident (NilEmpty.string_of_uint d) = true) by (induction d; cbn; auto).
  unfold show_int, NilZero.string_of_int, NilZero.string_of_uint. destruct (Z.to_int _) as [d|d]; destruct d; try reflexivity; try apply HD; cbn; apply HD.
Qed.

Lemma std_ident {X} (items : nat -> item X) t : std t -> sforall ident (type_name items t) = true.
Proof.
  induction t using rty_ind'; cbn [std type_name]; intros HS; try contradiction; auto;
    try (rewrite sforall_app, IHt by exact HS; reflexivity).
  - destruct t; try contradiction; try reflexivity; try (destruct i; reflexivity). destruct k; reflexivity.
  - destruct n; [reflexivity|]. rewrite sforall_app. rewrite sforall_app. rewrite show_ident. rewrite sforall_app, IHt by exact HS. reflexivity.
  - rewrite all_Forall in HS. rewrite sforall_app. cbn [andb]. enough (HX : sforall ident (join "_and_" (map (type_name items) ts)) = true) by (rewrite HX; reflexivity).
    assert (HF : Forall (fun s => sforall ident s = true) (map (type_name items) ts)).
    { clear - H HS. induction H; [constructor|]. inversion HS; subst. constructor; auto. }
    induction HF as [|s l Hs HF IH]; [reflexivity|]. cbn [join]. destruct l; [exact Hs|]. rewrite !sforall_app, Hs, IH. reflexivity.
  - destruct HS as [H1 H2]. destruct (string_key t1).
    + now rewrite sforall_app, IHt2.
    + rewrite !sforall_app, IHt1, IHt2 by assumption. reflexivity.
  - destruct HS as [H1 H2]. rewrite !sforall_app, IHt1, IHt2 by assumption. reflexivity.
  - destruct HS as [H1 H2]. rewrite !sforall_app, IHt1, IHt2 by assumption. reflexivity.
Qed.

Lemma std_normal t : std t -> normal (fun _ => False) (fun _ => (0, 0)) (erase t).
Proof.
  induction t using rty_ind'; cbn [std erase]; intros HS; try contradiction; auto.
  - destruct t; try contradiction; exact I.
  - destruct n; cbn; auto.
  - rewrite all_Forall in HS. cbn [normal]. rewrite all_Forall. clear - H HS. induction H; [constructor|]. inversion HS; subst. constructor; auto.
  - destruct HS. cbn. auto.
  - destruct HS. cbn. auto.
  - destruct HS. cbn. auto.
Qed.

Lemma std_ids {X} (items : nat -> item X) u u' : std u -> std u' -> type_id items u = type_id items u' -> erase u = erase u'.
Proof.
  intros H H' HE. destruct (id_readable items (fun _ => False) (fun _ => (0, 0))) with (t := erase u) (t' := erase u') (r := "") (r' := "") as [H1 _]; auto.
  - constructor; intros; contradiction.
  - now apply std_normal.
  - now apply std_normal.
  - exact I.
  - exact I.
  - now rewrite !id_erase, HE.
Qed.
