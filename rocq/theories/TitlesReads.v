(** What serde reads does not depend on titles of variants, nor does what C62 and C65 ask of declarations. *)
From Coq Require Import String Ascii List ZArith Bool Lia.
From Verif Require Import Json JsonFacts Utf8 SchemaApi Transform Validate ValidationAttrs Generate SerValue Types TypesShape Serde SerdeFacts
  SoundBase SoundTypes TypeId Sound Titles Reads Accepts.
Import ListNotations.
Open Scope string_scope.
Open Scope list_scope.

(** ** Two programs whose structs are the same and whose variants differ only in what is attached to them *)
Definition veq {X} (v w : variant X) : Prop :=
  v_ser v = v_ser w /\ v_de v = v_de w /\ v_skip_ser v = v_skip_ser w /\ v_skip_de v = v_skip_de w /\ v_untagged v = v_untagged w /\ v_style v = v_style w.
Inductive deq {X} : data X -> data X -> Prop :=
| DeqStruct def s : deq (DStruct def s) (DStruct def s)
| DeqEnum tg vs ws : (forall v, In v vs -> exists w, In w ws /\ veq v w /\ (own_name vs v -> own_name ws w)) -> deq (DEnum tg vs) (DEnum tg ws)
| DeqRepr zs : deq (DRepr zs) (DRepr zs)
| DeqConv from into d e : deq d e -> deq (DConv from into d) (DConv from into e).

Section Forall_.
Context {A B : Type} {P Q : A -> Prop} {P2 Q2 : A -> B -> Prop}.
Definition forall_map (f : forall x, P x -> Q x) := fix go l (H : Forall P l) {struct H} : Forall Q l :=
  match H with Forall_nil _ => Forall_nil _ | Forall_cons x p r => Forall_cons x (f x p) (go _ r) end.
Definition forall2_map (f : forall x y, P2 x y -> Q2 x y) := fix go l l' (H : Forall2 P2 l l') {struct H} : Forall2 Q2 l l' :=
  match H with Forall2_nil _ => Forall2_nil _ | Forall2_cons x y p r => Forall2_cons x y (f x y p) (go _ _ r) end.
End Forall_.

Lemma FOP_impl {A} (R R' : A -> A -> Prop) l : (forall x y, R x y -> R' x y) -> ForallOrdPairs R l -> ForallOrdPairs R' l.
Proof. intros HI. induction 1 as [|x l H _ IH]; constructor; [|exact IH]. eapply Forall_impl; [|exact H]. intros y. apply HI. Qed.

Scheme takes_mut := Minimality for takes_key Sort Prop with field_takes_mut := Minimality for field_takes Sort Prop.

Section Takes.
Context {X : Type}.
Variables items1 items2 : nat -> item X.
Hypothesis HSt : forall i cs ts def s, d_data (it_decl (items1 i) cs ts) = DStruct def s -> d_data (it_decl (items2 i) cs ts) = DStruct def s.
Lemma takes_to t k : takes_key items1 t k -> takes_key items2 t k.
Proof.
  revert t k. apply (takes_mut X items1 (fun t k => takes_key items2 t k) (fun f k => field_takes items2 f k)).
  - intros i cs ts def fs f k HD Hf HS _ IH. apply HSt in HD. econstructor; eauto.
  - intros t k _ IH. now constructor.
  - intros t k _ IH. now constructor.
  - intros f HF. now constructor.
  - intros f k HF _ IH. now apply TkFlat.
Qed.
Lemma field_takes_to f k : field_takes items1 f k -> field_takes items2 f k.
Proof. intros H. destruct H as [f HF|f k HF H]; [now constructor|]. apply TkFlat; [exact HF|]. now apply takes_to. Qed.
Lemma closed_to t : closed_struct items1 t -> closed_struct items2 t.
Proof. intros (i & cs & ts & def & fs & -> & HD & H). exists i, cs, ts, def, fs. auto. Qed.
End Takes.

Section Reads_to.
Context {X : Type}.
Variables items1 items2 : nat -> item X.
Variable text_ok : checks.
Hypothesis HS1 : forall i cs ts def s, d_data (it_decl (items1 i) cs ts) = DStruct def s -> d_data (it_decl (items2 i) cs ts) = DStruct def s.
Hypothesis HS2 : forall i cs ts def s, d_data (it_decl (items2 i) cs ts) = DStruct def s -> d_data (it_decl (items1 i) cs ts) = DStruct def s.
Hypothesis HDn : forall i cs ts, d_deny (it_decl (items1 i) cs ts) = d_deny (it_decl (items2 i) cs ts).
Hypothesis HDq : forall i cs ts, deq (d_data (it_decl (items1 i) cs ts)) (d_data (it_decl (items2 i) cs ts)).

Lemma own_to fs : own_keys items1 fs -> own_keys items2 fs.
Proof.
  apply FOP_impl. intros f g H k K1 K2. apply (H k); [apply (field_takes_to items2 items1 HS2), K1|apply (field_takes_to items2 items1 HS2), K2].
Qed.
Lemma left_to fs b n : left_over items2 fs b n -> left_over items1 fs b n.
Proof.
  intros [H1 H2]. split; [exact H1|]. intros g Hg HF HC HT. apply (H2 g Hg HF); [now apply (closed_to items1 items2 HS1)|now apply (takes_to items1 items2 HS1)].
Qed.

Fixpoint reads_to t j (H : reads items1 text_ok t j) {struct H} : reads items2 text_ok t j
with style_to def deny s j (H : reads_style items1 text_ok def deny s j) {struct H} : reads_style items2 text_ok def deny s j
with flat_to t o (H : reads_flat items1 text_ok t o) {struct H} : reads_flat items2 text_ok t o
with variant_to deny tg v w j (HV : veq v w) (H : reads_variant items1 text_ok deny tg v j) {struct H} : reads_variant items2 text_ok deny tg w j
with data_to deny d e j (HE : deq d e) (H : reads_data items1 text_ok deny d j) {struct H} : reads_data items2 text_ok deny e j.
Proof.
  - destruct H; try (constructor; assumption).
    + apply Reads.RSome. now apply reads_to.
    + apply Reads.RSeq. exact (forall_map (reads_to t) l H).
    + apply RSet. exact (forall_map (reads_to t) l H).
    + apply RArray; [assumption|]. exact (forall_map (reads_to t) l H0).
    + apply RTuple. exact (forall2_map reads_to ts l H).
    + apply Reads.RMap; [assumption|]. intros n x Hx. exact (reads_to t x (H0 n x Hx)).
    + apply ROk. now apply reads_to.
    + apply RErr. now apply reads_to.
    + apply RBound; [assumption|]. now apply reads_to.
    + eapply RRange; [eassumption|eassumption|eassumption|now apply reads_to|now apply reads_to].
    + eapply RDuration; eassumption.
    + eapply RSystemTime; eassumption.
    + apply RLeft. now apply reads_to.
    + apply RRight. now apply reads_to.
    + apply RArrayVec; [assumption|]. exact (forall_map (reads_to t) l H0).
    + apply RBytes. exact (forall_map (reads_to _) l H).
    + apply RFwd. now apply reads_to.
    + apply RWeak. now apply reads_to.
    + apply RAdt. rewrite <- HDn. exact (data_to _ _ _ _ (HDq i cs ts) H).
  - destruct H.
    + constructor.
    + apply RsNewtype; [assumption|now apply reads_to|assumption].
    + apply RsTuple; [|assumption]. exact (forall2_map reads_to _ l H).
    + apply RsStruct; [now apply own_to| |assumption|assumption|assumption| | | |assumption].
      * intros f x H9 H10 H11 H12. exact (reads_to _ _ (H0 f x H9 H10 H11 H12)).
      * intros f H9 H10 H11. exact (flat_to _ _ (H4 f H9 H10 H11)).
      * intros b f a k t n x H9 H10 H11 H12 H13. exact (H5 b f a k t n x H9 H10 H11 H12 (left_to _ _ _ H13)).
      * intros b f a k t n x H9 H10 H11 H12 H13. exact (reads_to _ _ (H6 b f a k t n x H9 H10 H11 H12 (left_to _ _ _ H13))).
  - destruct H; try (constructor; assumption).
    + apply RfFwd. now apply flat_to.
    + eapply RfStruct; [apply HS1; eassumption|now rewrite <- HDn|now apply reads_to].
  - destruct HV as (V1 & V2 & V3 & V4 & V5 & V6). destruct H.
    + apply RvUntagged; [now rewrite <- V5|]. rewrite <- V6. now apply style_to.
    + rewrite V2. apply RvName; congruence.
    + rewrite V2. apply RvExternal; [congruence|congruence|]. rewrite <- V6. now apply style_to.
    + apply RvInternalUnit; congruence.
    + apply RvInternalNewtype with (f := f); try congruence; now apply reads_to.
    + apply RvInternalStruct with (fs := fs); try congruence. now apply style_to.
    + apply RvAdjacentUnit; try congruence; assumption.
    + apply RvAdjacent with (j := j); try congruence; [|assumption]. rewrite <- V6. now apply style_to.
  - destruct H.
    + inversion HE; subst. apply RdStruct. now apply style_to.
    + inversion HE as [|? ? ws HW| |]; subst. destruct (HW v H) as (w & Hw & HV & HO). apply RdEnum with (v := w); [exact Hw| | |exact (variant_to _ _ _ _ _ HV H2)].
      * destruct HV as (_ & _ & _ & V4 & _). congruence.
      * destruct H1 as [H1|[H1|H1]]; [now left|right; left|right; right; auto]. destruct HV as (_ & _ & _ & _ & V5 & _). congruence.
    + inversion HE; subst. now apply RdRepr.
    + inversion HE; subst. apply RdFrom. now apply reads_to.
    + inversion HE; subst. apply RdOwn. now apply (data_to _ own).
Qed.
End Reads_to.

(** ** Titles *)
Section Titled.
Variable c : contract.
Variable items : nat -> item rval.
Notation items' := (titled c items).

Lemma titled_inj {X} tg (v w : variant X) : titled_variant c tg v = titled_variant c tg w -> v = w.
Proof.
  destruct v as [a1 a2 a3 a4 a5 a6 a7], w as [b1 b2 b3 b4 b5 b6 b7]. unfold titled_variant, without_tag. cbn [v_untagged].
  destruct tg, a5, b5; cbn; intros H; try exact H; try discriminate H; injection H; intros; subst; reflexivity.
Qed.
Lemma titled_veq {X} tg (v : variant X) : veq v (titled_variant c tg v).
Proof. destruct (titled_same c tg v) as (H1 & H2 & H3 & H4 & H5 & H6). unfold veq. repeat split; congruence. Qed.
Lemma veq_sym {X} (v w : variant X) : veq v w -> veq w v.
Proof. unfold veq. intros (H1 & H2 & H3 & H4 & H5 & H6). repeat split; congruence. Qed.

Lemma titled_deq : forall d : data rval, deq d (titled_data c d).
Proof.
  induction d as [def s|tg vs|zs|from into own IH]; cbn [titled_data]; constructor; [|exact IH].
  intros v Hv. exists (titled_variant c tg v). split; [now apply in_map|]. split; [apply titled_veq|].
  intros HO w Hw H1 H2 H3. apply in_map_iff in Hw as (u & <- & Hu). f_equal.
  destruct (titled_veq tg u) as (_ & U2 & _ & U4 & U5 & _), (titled_veq tg v) as (_ & V2 & _). apply HO; congruence.
Qed.
Lemma titled_deq_back : forall d : data rval, deq (titled_data c d) d.
Proof.
  induction d as [def s|tg vs|zs|from into own IH]; cbn [titled_data]; constructor; [|exact IH].
  intros v' Hv'. apply in_map_iff in Hv' as (v & <- & Hv). exists v. split; [exact Hv|]. split; [apply veq_sym, titled_veq|].
  intros HO u Hu H1 H2 H3. apply (titled_inj tg).
  destruct (titled_veq tg u) as (_ & U2 & _ & U4 & U5 & _), (titled_veq tg v) as (_ & V2 & _). apply HO; [now apply in_map| | |]; congruence.
Qed.
Theorem titled_reads text_ok t j : reads items' text_ok t j <-> reads items text_ok t j.
Proof.
  split; apply reads_to; intros i cs ts; try (intros def s; apply titled_struct); try reflexivity; [apply titled_deq_back|apply titled_deq].
Qed.

(** ** What C62 and C65 ask *)
Variable tok : string.
Hypothesis tok_title : tok <> "title".
Notation ok_meta := (wf_meta tok).

Lemma titled_takes t k : takes_key items' t k -> takes_key items t k.
Proof. apply takes_to. intros i cs ts def s. apply titled_struct. Qed.
Lemma titled_field_takes f k : field_takes items' f k -> field_takes items f k.
Proof. apply field_takes_to. intros i cs ts def s. apply titled_struct. Qed.
Lemma titled_closed_struct t : closed_struct items t -> closed_struct items' t.
Proof. apply closed_to. intros i cs ts def s. apply titled_struct. Qed.
Lemma titled_own fs : own_keys items fs -> own_keys items' fs.
Proof. apply own_to. intros i cs ts def s. apply titled_struct. Qed.
Lemma titled_open_struct t : open_struct items t -> open_struct items' t.
Proof. intros (i & cs & ts & def & fs & -> & HD & HN & H). exists i, cs, ts, def, fs. split; [reflexivity|]. split; [now apply titled_struct|now split]. Qed.
Lemma titled_solid : forall t, solid items t -> solid items' t.
Proof.
  induction t; cbn [solid]; auto. cbn [titled it_decl titled_decl d_data].
  match goal with |- context [titled_data c ?d] => destruct d as [|tg vs| |]; cbn [titled_data solid_data]; auto; destruct vs; auto end.
Qed.
Lemma titled_flat_ok f : readable_flat items f -> readable_flat items' f.
Proof.
  intros [H1 [H2|H2]]; (split; [exact H1|]); [left; now apply titled_open_struct|right]. destruct (f_ty f); try contradiction. now apply titled_solid.
Qed.
Lemma titled_readable_style deny s : readable_style items ok_meta deny s -> readable_style items' ok_meta deny s.
Proof.
  destruct s as [|f|fs|fs]; cbn [readable_style]; auto. intros (H1 & H2 & H3). split; [|split; [now apply titled_own|]].
  - intros f Hf. specialize (H1 f Hf). destruct (f_flatten f); [|exact H1]. destruct H1 as [H1 H1']. split; [exact H1|now apply titled_flat_ok].
  - revert H3. apply FOP_impl. intros g f H G1 G2. destruct (H G1 G2) as [K1 K2]. split; [exact K1|]. intros K3. now apply titled_closed_struct, K2.
Qed.
Lemma titled_meta tg (v : variant rval) : ok_meta (v_meta v) -> ok_meta (v_meta (titled_variant c tg v)).
Proof. intros H. unfold titled_variant. destruct (without_tag tg v); [|exact H]. now apply title_meta. Qed.
Lemma titled_readable_variant deny tg v : readable_variant items ok_meta deny tg v -> readable_variant items' ok_meta deny tg (titled_variant c tg v).
Proof.
  intros (H1 & H2 & H3). destruct (titled_same c tg v) as (_ & _ & _ & _ & V5 & V6). cbv zeta in *. unfold readable_variant. rewrite V5, V6.
  split; [now apply titled_meta|]. split; [now apply titled_readable_style|]. intros HU. specialize (H3 HU). destruct tg; auto.
  destruct (v_style v) as [|f|fs|fs]; auto.
  - destruct H3 as (K1 & K2 & K3). split; [exact K1|]. split; [now apply titled_open_struct|]. intros HT. now apply K3, titled_takes.
  - intros f Hf HT. now apply (H3 f Hf), titled_field_takes.
Qed.
Lemma titled_names tg (vs : list (variant rval)) :
  map v_de (filter (fun v => negb (v_skip_de v) && negb (v_untagged v)) (map (titled_variant c tg) vs)) = map v_de (filter (fun v => negb (v_skip_de v) && negb (v_untagged v)) vs).
Proof.
  induction vs as [|v vs IH]; [reflexivity|]. cbn [map filter]. destruct (titled_same c tg v) as (_ & V2 & _ & V4 & V5 & _). cbv zeta in *. rewrite V4, V5.
  destruct (negb (v_skip_de v) && negb (v_untagged v)); cbn [map]; [now rewrite V2, IH|exact IH].
Qed.
Lemma titled_readable_data deny : forall d, readable_data items ok_meta deny d -> readable_data items' ok_meta deny (titled_data c d).
Proof.
  induction d as [def s|tg vs|zs|from into own IH]; cbn [titled_data readable_data]; auto.
  - apply titled_readable_style.
  - intros [H1 H2]. rewrite titled_names. split; [|exact H2]. intros w Hw. apply in_map_iff in Hw as (v & <- & Hv). now apply titled_readable_variant, H1.
  - destruct from; auto.
Qed.
Lemma titled_readable_type : forall t, readable_type items ok_meta t -> readable_type items' ok_meta t.
Proof. induction t; cbn [readable_type]; auto. intros [H1 H2]. split; [exact H1|]. now apply titled_readable_data. Qed.

Lemma titled_accepts_style deny s : accepts_style items ok_meta deny s -> accepts_style items' ok_meta deny s.
Proof.
  destruct s as [|f|fs|fs]; cbn [accepts_style]; auto. intros (H1 & H2). split; [|exact H2].
  intros f Hf. specialize (H1 f Hf). destruct (f_flatten f); [|exact H1]. destruct H1 as (K1 & K2 & K3). split; [exact K1|]. split; [exact K2|].
  destruct K3 as [K3|K3]; [left; now apply titled_open_struct|now right].
Qed.
Lemma titled_accepts_variant deny tg v : accepts_variant items ok_meta deny tg v -> accepts_variant items' ok_meta deny tg (titled_variant c tg v).
Proof.
  intros (H1 & H2 & H3). destruct (titled_same c tg v) as (_ & _ & _ & _ & V5 & V6). cbv zeta in *. unfold accepts_variant. rewrite V5, V6.
  split; [now apply titled_meta|]. split; [now apply titled_accepts_style|]. intros HU. specialize (H3 HU). destruct tg; auto.
  destruct (v_style v) as [|f|fs|fs]; auto.
  - destruct H3 as (K1 & K2 & K3). split; [exact K1|]. split; [now apply titled_open_struct|]. intros HT. now apply K3, titled_takes.
  - intros f Hf HT. now apply (H3 f Hf), titled_field_takes.
Qed.
Lemma titled_accepts_data deny : forall d, accepts_data items ok_meta deny d -> accepts_data items' ok_meta deny (titled_data c d).
Proof.
  induction d as [def s|tg vs|zs|from into own IH]; cbn [titled_data accepts_data]; auto.
  - apply titled_accepts_style.
  - intros (H0 & H1 & H2). rewrite titled_names. split; [destruct vs; [congruence|discriminate]|]. split; [|exact H2].
    intros w Hw. apply in_map_iff in Hw as (v & <- & Hv). now apply titled_accepts_variant, H1.
  - destruct from; auto.
Qed.
Lemma titled_accepts_type sets : forall t, accepts_type items ok_meta sets t -> accepts_type items' ok_meta sets t.
Proof. induction t; cbn [accepts_type]; auto. intros [H1 H2]. split; [exact H1|]. now apply titled_accepts_data. Qed.

Lemma titled_data_passes : forall (d : data rval) w, data_passes (titled_data c d) w -> data_passes d w.
Proof.
  induction d as [def s|tg vs|zs|from into own IH]; cbn [titled_data data_passes]; intros w; auto.
  - intros (v' & Hv' & HW & HP). apply in_map_iff in Hv' as (v & <- & Hv). destruct (titled_same c tg v) as (_ & _ & _ & _ & V5 & V6). cbv zeta in *.
    exists v. split; [exact Hv|]. rewrite V6 in HP. split; [|exact HP]. unfold whole_contents in *. now rewrite V5 in HW.
  - destruct from; auto.
Qed.
Lemma titled_passes : forall u w, passes items' u w -> passes items u w.
Proof. induction u; cbn [passes]; intros w; auto. apply titled_data_passes. Qed.
Lemma titled_grounded u : Acc (fun w u => passes items u w) u -> Acc (fun w u => passes items' u w) u.
Proof. induction 1 as [u _ IH]. constructor. intros w Hw. now apply IH, titled_passes. Qed.
End Titled.
