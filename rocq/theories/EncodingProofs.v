(** Lemmas about [Encoding] and UTF-8. *)
From Coq Require Import String Ascii List ZArith NArith Bool Lia.
From Verif Require Import Json Utf8 Encoding.
Import ListNotations.
Open Scope string_scope.

(** ** Generic string facts *)
Lemma sapp_assoc (a b c : string) : ((a ++ b) ++ c = a ++ (b ++ c))%string.
Proof. induction a; cbn; congruence. Qed.

Lemma sapp_nil_r (a : string) : (a ++ "" = a)%string.
Proof. induction a; cbn; congruence. Qed.

Lemma sforall_app p a b : sforall p (a ++ b) = sforall p a && sforall p b.
Proof. induction a; cbn; [reflexivity|]. rewrite IHa. now rewrite andb_assoc. Qed.

Lemma sforall_impl (p q : ascii -> bool) s :
  (forall a, p a = true -> q a = true) -> sforall p s = true -> sforall q s = true.
Proof.
  intros H. induction s; cbn; [reflexivity|]. rewrite !andb_true_iff. intros [H1 H2]. auto.
Qed.

(** Case analysis over all 256 bytes. *)
Ltac all_bytes a :=
  destruct a as [[] [] [] [] [] [] [] []]; vm_compute; try reflexivity; try congruence.

(** ** UTF-8 *)
Definition is_ascii (a : ascii) : bool := in_range 0 127 a.

(** No continuation byte directly follows an ASCII byte. *)
Fixpoint asc_ok (s : string) : bool :=
  match s with
  | EmptyString => true
  | String a s' =>
      (negb (is_ascii a) || match s' with EmptyString => true | String b _ => negb (cont b) end)
      && asc_ok s'
  end.

Lemma cont_not_ascii a : cont a = true -> is_ascii a = false.
Proof. all_bytes a. Qed.

Lemma in_range_cont lo hi a : (128 <= lo)%N -> (hi <= 191)%N -> in_range lo hi a = true -> cont a = true.
Proof.
  unfold in_range, cont, in_range. rewrite !andb_true_iff, !N.leb_le. lia.
Qed.

(** The valid strings, as sequences of characters. *)
Inductive utf8 : string -> Prop :=
| U0 : utf8 ""
| U1 a s : is_ascii a = true -> utf8 s -> utf8 (String a s)
| U2 a b s : in_range 194 223 a = true -> cont b = true -> utf8 s -> utf8 (String a (String b s))
| U3 a b c s : in_range 224 239 a = true -> cont b = true -> cont c = true ->
    (forall t, utf8_valid (String a (String b (String c t))) = utf8_valid t) ->
    utf8 s -> utf8 (String a (String b (String c s)))
| U4 a b c d s : in_range 240 244 a = true -> cont b = true -> cont c = true -> cont d = true ->
    (forall t, utf8_valid (String a (String b (String c (String d t)))) = utf8_valid t) ->
    utf8 s -> utf8 (String a (String b (String c (String d s)))).

Lemma utf8_valid_utf8 s : utf8_valid s = true -> utf8 s.
Proof.
  remember (String.length s) as n eqn:Hn.
  revert s Hn. induction n as [n IH] using lt_wf_ind. intros s Hn H.
  assert (forall t, String.length t < n -> utf8_valid t = true -> utf8 t) as IH'.
  { intros t Ht. now apply (IH (String.length t)). }
  clear IH. subst n.
  destruct s as [|a s]; [constructor|].
  destruct (in_range 0 127 a) eqn:E1.
  { cbn in H. rewrite E1 in H. apply U1; [exact E1|]. apply IH'; [cbn; lia|exact H]. }
  destruct (in_range 194 223 a) eqn:E2.
  { cbn in H. rewrite E1, E2 in H. destruct s as [|b s]; [discriminate|].
    apply andb_true_iff in H as [Hb H]. apply U2; auto. apply IH'; [cbn; lia|exact H]. }
  destruct (in_range 224 224 a) eqn:E3.
  { destruct s as [|b [|c s]]; cbn in H; rewrite E1, E2, E3 in H; try discriminate.
    apply andb_true_iff in H as [H Hs]. apply andb_true_iff in H as [Hb Hc].
    apply U3; auto.
    - revert E3. clear. unfold in_range. rewrite !andb_true_iff, !N.leb_le. lia.
    - eapply in_range_cont; [| |exact Hb]; lia.
    - intros t. cbn. now rewrite E1, E2, E3, Hb, Hc.
    - apply IH'; [cbn; lia|exact Hs]. }
  destruct (in_range 225 236 a || in_range 238 239 a) eqn:E4.
  { destruct s as [|b [|c s]]; cbn in H; rewrite E1, E2, E3, E4 in H; try discriminate.
    apply andb_true_iff in H as [H Hs]. apply andb_true_iff in H as [Hb Hc].
    apply U3; auto.
    - revert E4. clear. unfold in_range. rewrite orb_true_iff, !andb_true_iff, !N.leb_le. lia.
    - intros t. cbn. now rewrite E1, E2, E3, E4, Hb, Hc.
    - apply IH'; [cbn; lia|exact Hs]. }
  destruct (in_range 237 237 a) eqn:E5.
  { destruct s as [|b [|c s]]; cbn in H; rewrite E1, E2, E3, E4, E5 in H; try discriminate.
    apply andb_true_iff in H as [H Hs]. apply andb_true_iff in H as [Hb Hc].
    apply U3; auto.
    - revert E5. clear. unfold in_range. rewrite !andb_true_iff, !N.leb_le. lia.
    - eapply in_range_cont; [| |exact Hb]; lia.
    - intros t. cbn. now rewrite E1, E2, E3, E4, E5, Hb, Hc.
    - apply IH'; [cbn; lia|exact Hs]. }
  destruct (in_range 240 240 a) eqn:E6.
  { destruct s as [|b [|c [|d s]]]; cbn in H; rewrite E1, E2, E3, E4, E5, E6 in H; try discriminate.
    apply andb_true_iff in H as [H Hs]. apply andb_true_iff in H as [H Hd].
    apply andb_true_iff in H as [Hb Hc].
    apply U4; auto.
    - revert E6. clear. unfold in_range. rewrite !andb_true_iff, !N.leb_le. lia.
    - eapply in_range_cont; [| |exact Hb]; lia.
    - intros t. cbn. now rewrite E1, E2, E3, E4, E5, E6, Hb, Hc, Hd.
    - apply IH'; [cbn; lia|exact Hs]. }
  destruct (in_range 241 243 a) eqn:E7.
  { destruct s as [|b [|c [|d s]]]; cbn in H; rewrite E1, E2, E3, E4, E5, E6, E7 in H;
      try discriminate.
    apply andb_true_iff in H as [H Hs]. apply andb_true_iff in H as [H Hd].
    apply andb_true_iff in H as [Hb Hc].
    apply U4; auto.
    - revert E7. clear. unfold in_range. rewrite !andb_true_iff, !N.leb_le. lia.
    - intros t. cbn. now rewrite E1, E2, E3, E4, E5, E6, E7, Hb, Hc, Hd.
    - apply IH'; [cbn; lia|exact Hs]. }
  destruct (in_range 244 244 a) eqn:E8.
  { destruct s as [|b [|c [|d s]]]; cbn in H; rewrite E1, E2, E3, E4, E5, E6, E7, E8 in H;
      try discriminate.
    apply andb_true_iff in H as [H Hs]. apply andb_true_iff in H as [H Hd].
    apply andb_true_iff in H as [Hb Hc].
    apply U4; auto.
    - revert E8. clear. unfold in_range. rewrite !andb_true_iff, !N.leb_le. lia.
    - eapply in_range_cont; [| |exact Hb]; lia.
    - intros t. cbn. now rewrite E1, E2, E3, E4, E5, E6, E7, E8, Hb, Hc, Hd.
    - apply IH'; [cbn; lia|exact Hs]. }
  exfalso. cbn in H. rewrite E1, E2, E3, E4, E5, E6, E7, E8 in H. discriminate.
Qed.

Lemma utf8_utf8_valid s : utf8 s -> utf8_valid s = true.
Proof.
  induction 1 as [|a s Ha _ IH|a b s Ha Hb _ IH|a b c s Ha Hb Hc HV _ IH
                 |a b c d s Ha Hb Hc Hd HV _ IH].
  - reflexivity.
  - cbn. unfold is_ascii in Ha. now rewrite Ha.
  - cbn. assert (in_range 0 127 a = false) as ->.
    { revert Ha. unfold in_range. rewrite andb_true_iff, andb_false_iff, !N.leb_le, !N.leb_gt. lia. }
    now rewrite Ha, Hb.
  - now rewrite HV.
  - now rewrite HV.
Qed.

Lemma utf8_app a b : utf8 a -> utf8 b -> utf8 (a ++ b).
Proof.
  induction 1; intros; cbn; [assumption|apply U1|apply U2|apply U3|apply U4]; auto.
Qed.

Lemma hd_not_cont s : utf8 s -> match s with EmptyString => true | String b _ => negb (cont b) end = true.
Proof.
  intros H. destruct H; auto.
  - revert H. clear. all_bytes a.
  - revert H. clear. all_bytes a.
  - revert H. clear. all_bytes a.
  - revert H. clear. all_bytes a.
Qed.

Lemma utf8_asc_ok s : utf8 s -> asc_ok s = true.
Proof.
  induction 1 as [|a s Ha Hs IH|a b s Ha Hb Hs IH|a b c s Ha Hb Hc HV Hs IH
                 |a b c d s Ha Hb Hc Hd HV Hs IH]; cbn.
  - reflexivity.
  - rewrite (hd_not_cont s Hs), IH. now destruct (is_ascii a).
  - rewrite IH, (cont_not_ascii b Hb). cbn.
    assert (is_ascii a = false) as -> by (revert Ha; clear; all_bytes a). reflexivity.
  - rewrite IH, (cont_not_ascii b Hb), (cont_not_ascii c Hc). cbn.
    assert (is_ascii a = false) as -> by (revert Ha; clear; all_bytes a). reflexivity.
  - rewrite IH, (cont_not_ascii b Hb), (cont_not_ascii c Hc), (cont_not_ascii d Hd). cbn.
    assert (is_ascii a = false) as -> by (revert Ha; clear; all_bytes a). reflexivity.
Qed.

(** ** The decoder without the segment list *)
Fixpoint pdec (s : string) : string :=
  match s with
  | EmptyString => ""
  | String a s' =>
      if Ascii.eqb a "%" then
        match s' with
        | String x (String y rest) =>
            match decode_head s' with
            | Some (d, _) => String d (pdec rest)
            | None => String a (pdec s')
            end
        | _ => String a (pdec s')
        end
      else String a (pdec s')
  end.

Definition join_dec (p : string * list string) : string := (fst p ++ decode_segments (snd p))%string.

Lemma decode_head_seg s h t :
  split_on "%" s = (h, t) ->
  match decode_head s with
  | Some (d, rest) => exists h', split_on "%" rest = (h', t) /\ decode_head h = Some (d, h')
  | None => decode_head h = None
  end.
Proof.
  destruct s as [|a [|b rest]]; cbn; intros H.
  - injection H as <- <-. reflexivity.
  - destruct (Ascii.eqb a "%"); injection H as <- <-; reflexivity.
  - destruct (split_on "%" rest) as [h1 t1] eqn:E.
    destruct (Ascii.eqb_spec b "%").
    { subst b. destruct (Ascii.eqb_spec a "%").
      - subst a. injection H as <- <-. cbn. now destruct (match rest with EmptyString => _ | String _ _ => _ end).
      - injection H as <- <-. cbn.
        assert (from_str_radix16 a "%" = None) as ->.
        { unfold from_str_radix16. destruct (Ascii.eqb a "+"); [reflexivity|].
          destruct (hexval a); reflexivity. }
        now destruct (match rest with EmptyString => _ | String _ _ => _ end). }
    destruct (Ascii.eqb_spec a "%").
    { subst a. injection H as <- <-. cbn.
      now destruct (match rest with EmptyString => _ | String _ _ => _ end). }
    injection H as <- <-.
    assert (match h1 with EmptyString => true | String c _ => negb (cont c) end =
            match rest with EmptyString => true | String c _ => negb (cont c) end) as HB.
    { destruct rest as [|c rest]; cbn in E; [injection E as <- <-; reflexivity|].
      destruct (split_on "%" rest) as [h2 t2]. destruct (Ascii.eqb_spec c "%").
      - subst c. injection E as <- <-. reflexivity.
      - injection E as <- <-. reflexivity. }
    cbn [decode_head]. rewrite HB.
    destruct (match rest with EmptyString => _ | String _ _ => _ end); [|reflexivity].
    destruct (from_str_radix16 a b) eqn:R; [|reflexivity].
    exists h1. split; reflexivity || auto.
Qed.

Lemma decode_head_shape s d rest :
  decode_head s = Some (d, rest) -> exists x y, s = String x (String y rest).
Proof.
  destruct s as [|a [|b r]]; cbn; try discriminate.
  destruct (match r with EmptyString => _ | String _ _ => _ end); [|discriminate].
  destruct (from_str_radix16 a b); [|discriminate]. intros H. injection H as -> ->. eauto.
Qed.

Lemma decode_head_no_pct s d rest :
  decode_head s = Some (d, rest) ->
  exists x y, s = String x (String y rest) /\ x <> "%"%char /\ y <> "%"%char.
Proof.
  intros H. destruct (decode_head_shape _ _ _ H) as (x & y & ->).
  exists x, y. split; [reflexivity|]. cbn in H.
  destruct (match rest with EmptyString => _ | String _ _ => _ end); [|discriminate].
  split; intros ->.
  - cbn in H. discriminate.
  - unfold from_str_radix16 in H. destruct (Ascii.eqb x "+"); [discriminate|].
    destruct (hexval x); discriminate.
Qed.

Lemma join_dec_pdec s : join_dec (split_on "%" s) = pdec s.
Proof.
  remember (String.length s) as n eqn:Hn. revert s Hn.
  induction n as [n IH] using lt_wf_ind. intros s Hn.
  assert (forall t, String.length t < n -> join_dec (split_on "%" t) = pdec t) as IH'.
  { intros t Ht. now apply (IH (String.length t)). }
  clear IH. subst n.
  destruct s as [|a s]; [reflexivity|]. cbn [split_on pdec].
  destruct (split_on "%" s) as [h t] eqn:E.
  destruct (Ascii.eqb_spec a "%").
  - subst a. unfold join_dec. cbn [fst snd decode_segments]. cbn [append].
    pose proof (decode_head_seg s h t E) as HD.
    pose proof (IH' s ltac:(cbn; lia)) as IHs. rewrite E in IHs. unfold join_dec in IHs.
    cbn [fst snd] in IHs.
    destruct (decode_head s) as [[d rest]|] eqn:DH.
    + destruct (decode_head_shape _ _ _ DH) as (x & y & ->).
      destruct HD as (h' & E' & ->).
      f_equal. rewrite <- (IH' rest) by (cbn; lia). now rewrite E'.
    + rewrite HD. assert (match s with
        | String x (String y _) => String "%" (pdec s) | _ => String "%" (pdec s) end
        = String "%" (pdec s)) as <- by (destruct s as [|? [|? ?]]; reflexivity).
      destruct s as [|x [|y rest]]; rewrite <- IHs; reflexivity.
  - pose proof (IH' s ltac:(cbn; lia)) as IHs. rewrite E in IHs. unfold join_dec in IHs |- *.
    cbn [fst snd append] in *. now rewrite IHs.
Qed.

Definition no_pct (s : string) : bool := sforall (fun a => negb (Ascii.eqb a "%")) s.

Lemma pdec_no_pct s : no_pct s = true -> pdec s = s.
Proof.
  induction s as [|a s IH]; [reflexivity|]. unfold no_pct in *. cbn.
  rewrite andb_true_iff, negb_true_iff. intros [Ha Hs]. rewrite Ha. f_equal. auto.
Qed.

Lemma pdec_app_no_pct p s : no_pct p = true -> pdec (p ++ s) = (p ++ pdec s)%string.
Proof.
  unfold no_pct. induction p as [|a p IH]; [reflexivity|]. cbn.
  rewrite andb_true_iff, negb_true_iff. intros [Ha Hs]. rewrite Ha. f_equal. auto.
Qed.

Lemma percent_decode_pdec s :
  utf8 s -> percent_decode s = if utf8_valid (pdec s) then Some (pdec s) else None.
Proof.
  intros HU. unfold percent_decode. fold (no_pct s). destruct (no_pct s) eqn:E; cbn [negb].
  - rewrite (pdec_no_pct s E). rewrite (utf8_utf8_valid s HU). reflexivity.
  - pose proof (join_dec_pdec s) as J. unfold join_dec in J.
    destruct (split_on "%" s) as [h t]. cbn [fst snd] in J. rewrite J. reflexivity.
Qed.

(** ** Specification of percent decoding, independent of the code *)
Definition hexdigit (a : ascii) : bool :=
  in_range 48 57 a || in_range 65 70 a || in_range 97 102 a.

Definition hexnum (a : ascii) : N :=
  if in_range 48 57 a then byte a - 48 else if in_range 65 70 a then byte a - 55 else byte a - 87.

(** RFC 3986 percent-decoding: "%hh" is the byte hh, anything else stands for itself. *)
Fixpoint spec_decode (s : string) : string :=
  match s with
  | EmptyString => ""
  | String a s' =>
      match s' with
      | String x (String y rest) =>
          if Ascii.eqb a "%" && hexdigit x && hexdigit y
          then String (ascii_of_N (16 * hexnum x + hexnum y)) (spec_decode rest)
          else String a (spec_decode s')
      | _ => String a (spec_decode s')
      end
  end.

(** Occurrence of "%+h" with [h] a hex digit. *)
Fixpoint has_pct_plus (s : string) : bool :=
  match s with
  | EmptyString => false
  | String a s' =>
      match s' with
      | String x (String y _) => Ascii.eqb a "%" && Ascii.eqb x "+" && hexdigit y
      | _ => false
      end || has_pct_plus s'
  end.

Lemma hexval_spec a : hexval a = if hexdigit a then Some (hexnum a) else None.
Proof. all_bytes a. Qed.

Lemma hexdigit_ascii a : hexdigit a = true -> is_ascii a = true.
Proof. all_bytes a. Qed.

Lemma hexdigit_plus : hexdigit "+" = false.
Proof. reflexivity. Qed.

Lemma pdec_spec s : asc_ok s = true -> has_pct_plus s = false -> pdec s = spec_decode s.
Proof.
  remember (String.length s) as n eqn:Hn. revert s Hn.
  induction n as [n IH] using lt_wf_ind. intros s Hn HA HP.
  assert (forall t, String.length t < n -> asc_ok t = true -> has_pct_plus t = false ->
                    pdec t = spec_decode t) as IH'.
  { intros t Ht. now apply (IH (String.length t)). }
  clear IH. subst n.
  destruct s as [|a s]; [reflexivity|].
  assert (asc_ok s = true) as HAs by (cbn in HA; now apply andb_true_iff in HA).
  assert (has_pct_plus s = false) as HPs by (cbn in HP; now apply orb_false_iff in HP).
  pose proof (IH' s ltac:(cbn; lia) HAs HPs) as IHs.
  cbn [pdec spec_decode].
  destruct s as [|x [|y rest]].
  - destruct (Ascii.eqb a "%"); reflexivity.
  - rewrite IHs. destruct (Ascii.eqb a "%"); reflexivity.
  - destruct (Ascii.eqb_spec a "%"); [|cbn [andb]; now rewrite IHs].
    subst a. cbn [andb].
    cbn [decode_head].
    assert (asc_ok rest = true) as HAr by (cbn in HAs; now rewrite !andb_true_iff in HAs).
    assert (has_pct_plus rest = false) as HPr.
    { clear -HPs. cbn in HPs. rewrite !orb_false_iff in HPs. tauto. }
    pose proof (IH' rest ltac:(cbn; lia) HAr HPr) as IHr.
    unfold from_str_radix16. rewrite !hexval_spec.
    destruct (hexdigit x) eqn:Hx; destruct (hexdigit y) eqn:Hy; cbn [andb].
    + assert ((match rest with EmptyString => true | String c _ => negb (cont c) end) = true) as ->.
      { clear -HAs Hy. cbn in HAs. rewrite !andb_true_iff in HAs. destruct HAs as [_ [H _]].
        rewrite (hexdigit_ascii y Hy) in H. exact H. }
      destruct (Ascii.eqb_spec x "+"); [subst; discriminate|]. cbn [option_map].
      now rewrite IHr.
    + destruct (Ascii.eqb_spec x "+"); [subst; discriminate|]. rewrite IHs.
      now destruct (match rest with EmptyString => _ | String _ _ => _ end).
    + destruct (Ascii.eqb_spec x "+").
      * subst x. exfalso. cbn in HP. rewrite Hy in HP. discriminate.
      * rewrite IHs. now destruct (match rest with EmptyString => _ | String _ _ => _ end).
    + rewrite IHs. destruct (Ascii.eqb_spec x "+");
      now destruct (match rest with EmptyString => _ | String _ _ => _ end).
Qed.

(** ** Encoding *)
(** JSON pointer escaping (RFC 6901): ~ to ~0, / to ~1. *)
Fixpoint ptr_escape (s : string) : string :=
  match s with
  | EmptyString => ""
  | String a s' =>
      if Ascii.eqb a "~" then String "~" (String "0" (ptr_escape s'))
      else if Ascii.eqb a "/" then String "~" (String "1" (ptr_escape s'))
      else String a (ptr_escape s')
  end.

Definition not_control (a : ascii) : bool := N.leb 16 (byte a).

Lemma encode_byte_hd_ascii a :
  match encode_byte a with EmptyString => true | String b _ => negb (cont b) end = true.
Proof. all_bytes a. Qed.

Lemma encode_loop_hd s :
  match encode_loop s with EmptyString => true | String b _ => negb (cont b) end = true.
Proof.
  destruct s as [|a s]; [reflexivity|]. cbn [encode_loop].
  pose proof (encode_byte_hd_ascii a) as H. assert (encode_byte a <> "") as HN by (all_bytes a).
  destruct (encode_byte a); [congruence|]. exact H.
Qed.

Lemma radix_hexU a : not_control a = true ->
  from_str_radix16 (hexU (byte a / 16)) (hexU (byte a mod 16)) = Some a.
Proof. all_bytes a. Qed.

Lemma not_control_ltb a : not_control a = true -> N.ltb (byte a) 16 = false.
Proof. unfold not_control. rewrite N.leb_le, N.ltb_ge. auto. Qed.

Lemma plain_not_special a : needs_encoding a = false ->
  Ascii.eqb a "~" = false /\ Ascii.eqb a "/" = false /\ Ascii.eqb a "%" = false.
Proof. all_bytes a; auto. Qed.

Lemma pdec_encode_loop s :
  sforall not_control s = true -> pdec (encode_loop s) = ptr_escape s.
Proof.
  induction s as [|a s IH]; [reflexivity|]. cbn [sforall]. rewrite andb_true_iff.
  intros [Ha Hs]. specialize (IH Hs). cbn [encode_loop ptr_escape]. unfold encode_byte.
  destruct (Ascii.eqb_spec a "~"). { subst. cbn. now rewrite IH. }
  destruct (Ascii.eqb_spec a "/"). { subst. cbn. now rewrite IH. }
  destruct (needs_encoding a) eqn:NE.
  - unfold percent_byte. rewrite (not_control_ltb a Ha).
    cbn [append]. cbn [pdec]. rewrite Ascii.eqb_refl.
    cbn [decode_head]. rewrite encode_loop_hd, (radix_hexU a Ha). now rewrite IH.
  - destruct (plain_not_special a NE) as (_ & _ & HP).
    cbn [append pdec]. rewrite HP. now rewrite IH.
Qed.

Lemma encode_loop_plain s :
  sforall (fun a => negb (needs_encoding a)) s = true -> encode_loop s = s.
Proof.
  induction s as [|a s IH]; [reflexivity|]. cbn [sforall]. rewrite andb_true_iff, negb_true_iff.
  intros [Ha Hs]. cbn [encode_loop]. unfold encode_byte.
  destruct (plain_not_special a Ha) as (-> & -> & _). rewrite Ha. cbn. now rewrite IH.
Qed.

Lemma encode_ref_name_loop s : encode_ref_name s = encode_loop s.
Proof.
  unfold encode_ref_name. destruct (sforall _ s) eqn:E; cbn [negb]; [|reflexivity].
  now rewrite encode_loop_plain.
Qed.

Lemma utf8_ptr_escape s : utf8 s -> utf8 (ptr_escape s).
Proof.
  induction 1 as [|a s Ha Hs IH|a b s Ha Hb Hs IH|a b c s Ha Hb Hc HV Hs IH
                 |a b c d s Ha Hb Hc Hd HV Hs IH].
  - constructor.
  - cbn. destruct (Ascii.eqb a "~"); [repeat constructor; auto|].
    destruct (Ascii.eqb a "/"); repeat constructor; auto.
  - assert (forall x, in_range 128 255 x = true -> Ascii.eqb x "~" = false /\ Ascii.eqb x "/" = false) as HN
      by (intros x; all_bytes x; auto).
    assert (in_range 128 255 a = true) as HA by (revert Ha; clear; all_bytes a).
    assert (in_range 128 255 b = true) as HB by (revert Hb; clear; all_bytes b).
    cbn. destruct (HN a HA) as [-> ->]. destruct (HN b HB) as [-> ->]. now apply U2.
  - assert (forall x, in_range 128 255 x = true -> Ascii.eqb x "~" = false /\ Ascii.eqb x "/" = false) as HN
      by (intros x; all_bytes x; auto).
    assert (in_range 128 255 a = true) as HA by (revert Ha; clear; all_bytes a).
    assert (in_range 128 255 b = true) as HB by (revert Hb; clear; all_bytes b).
    assert (in_range 128 255 c = true) as HC by (revert Hc; clear; all_bytes c).
    cbn. destruct (HN a HA) as [-> ->]. destruct (HN b HB) as [-> ->].
    destruct (HN c HC) as [-> ->]. now apply U3.
  - assert (forall x, in_range 128 255 x = true -> Ascii.eqb x "~" = false /\ Ascii.eqb x "/" = false) as HN
      by (intros x; all_bytes x; auto).
    assert (in_range 128 255 a = true) as HA by (revert Ha; clear; all_bytes a).
    assert (in_range 128 255 b = true) as HB by (revert Hb; clear; all_bytes b).
    assert (in_range 128 255 c = true) as HC by (revert Hc; clear; all_bytes c).
    assert (in_range 128 255 d = true) as HD by (revert Hd; clear; all_bytes d).
    cbn. destruct (HN a HA) as [-> ->]. destruct (HN b HB) as [-> ->].
    destruct (HN c HC) as [-> ->]. destruct (HN d HD) as [-> ->]. now apply U4.
Qed.

Definition all_ascii (s : string) : bool := sforall is_ascii s.

Lemma all_ascii_utf8 s : all_ascii s = true -> utf8 s.
Proof.
  unfold all_ascii. induction s as [|a s IH]; [constructor|]. cbn. rewrite andb_true_iff.
  intros [Ha Hs]. constructor; auto.
Qed.

Lemma encode_loop_ascii s : all_ascii (encode_loop s) = true.
Proof.
  unfold all_ascii. induction s as [|a s IH]; [reflexivity|]. cbn [encode_loop].
  rewrite sforall_app, IH. rewrite andb_true_r. all_bytes a.
Qed.

Theorem decode_encode s :
  utf8 s -> sforall not_control s = true ->
  percent_decode (encode_ref_name s) = Some (ptr_escape s).
Proof.
  intros HU HC. rewrite encode_ref_name_loop.
  rewrite percent_decode_pdec by (apply all_ascii_utf8, encode_loop_ascii).
  rewrite pdec_encode_loop by exact HC.
  rewrite utf8_utf8_valid by now apply utf8_ptr_escape. reflexivity.
Qed.

(** ** Fragment characters (RFC 3986, section 3.5: fragment = *( pchar / "/" / "?" )) *)
Definition unreserved (a : ascii) : bool :=
  in_range 65 90 a || in_range 97 122 a || in_range 48 57 a
  || Ascii.eqb a "-" || Ascii.eqb a "." || Ascii.eqb a "_" || Ascii.eqb a "~".
Definition sub_delim (a : ascii) : bool :=
  Ascii.eqb a "!" || Ascii.eqb a "$" || Ascii.eqb a "&" || Ascii.eqb a "'" || Ascii.eqb a "("
  || Ascii.eqb a ")" || Ascii.eqb a "*" || Ascii.eqb a "+" || Ascii.eqb a "," || Ascii.eqb a ";"
  || Ascii.eqb a "=".
Definition fragment_char (a : ascii) : bool :=
  unreserved a || sub_delim a || Ascii.eqb a ":" || Ascii.eqb a "@" || Ascii.eqb a "/"
  || Ascii.eqb a "?".

Fixpoint valid_fragment (s : string) : bool :=
  match s with
  | EmptyString => true
  | String a s' =>
      if Ascii.eqb a "%" then
        match s' with
        | String x (String y rest) => hexdigit x && hexdigit y && valid_fragment rest
        | _ => false
        end
      else fragment_char a && valid_fragment s'
  end.

Lemma valid_fragment_encode s :
  sforall not_control s = true -> valid_fragment (encode_ref_name s) = true.
Proof.
  rewrite encode_ref_name_loop.
  induction s as [|a s IH]; [reflexivity|]. cbn [sforall]. rewrite andb_true_iff.
  intros [Ha Hs]. specialize (IH Hs). cbn [encode_loop].
  remember (encode_loop s) as r eqn:Er. clear Er Hs.
  revert Ha. destruct a as [[] [] [] [] [] [] [] []]; cbn; intros Ha; try exact IH; discriminate.
Qed.

Definition no_slash (s : string) : bool := sforall (fun a => negb (Ascii.eqb a "/")) s.

Lemma no_slash_encode s : no_slash (encode_ref_name s) = true.
Proof.
  rewrite encode_ref_name_loop. unfold no_slash.
  induction s as [|a s IH]; [reflexivity|]. cbn [encode_loop].
  rewrite sforall_app, IH, andb_true_r. all_bytes a.
Qed.

(** Encoding is injective on all names (even those that do not decode). *)
Lemma append_inj_l a b c : (a ++ b = a ++ c)%string -> b = c.
Proof. induction a; cbn; [auto|]. intros H. injection H. auto. Qed.

(** A one-character parser inverting [encode_byte]; used for injectivity. *)
Definition dec1 (s : string) : option (ascii * string) :=
  match s with
  | EmptyString => None
  | String a s' =>
      if Ascii.eqb a "~" then
        match s' with
        | String b r => if Ascii.eqb b "0" then Some ("~"%char, r)
                        else if Ascii.eqb b "1" then Some ("/"%char, r) else None
        | _ => None
        end
      else if Ascii.eqb a "%" then
        match s' with
        | String x (String y r) =>
            if Ascii.eqb x " " then Some (ascii_of_N (hexnum y), r)
            else Some (ascii_of_N (16 * hexnum x + hexnum y), r)
        | _ => None
        end
      else Some (a, s')
  end.

Lemma dec1_encode a r : dec1 (encode_byte a ++ r) = Some (a, r).
Proof. destruct a as [[] [] [] [] [] [] [] []]; reflexivity. Qed.

Lemma encode_byte_nonempty a : encode_byte a <> "".
Proof. all_bytes a. Qed.

Lemma encode_ref_name_inj s : forall s', encode_ref_name s = encode_ref_name s' -> s = s'.
Proof.
  setoid_rewrite encode_ref_name_loop.
  induction s as [|a s IH]; intros [|b s'] H; cbn [encode_loop] in H.
  - reflexivity.
  - symmetry in H. pose proof (encode_byte_nonempty b). destruct (encode_byte b); cbn in H; congruence.
  - pose proof (encode_byte_nonempty a). destruct (encode_byte a); cbn in H; congruence.
  - apply (f_equal dec1) in H. rewrite !dec1_encode in H. injection H as -> H. f_equal. auto.
Qed.

(** What the code actually reads back: a byte below 0x10 comes back as the three characters
    '%', ' ' and its hex digit. *)
Fixpoint lossy (s : string) : string :=
  match s with
  | EmptyString => ""
  | String a s' =>
      if not_control a then String a (lossy s')
      else String "%" (String " " (String (hexU (byte a)) (lossy s')))
  end.

Lemma hexU_plain a : not_control a = false ->
  Ascii.eqb (hexU (byte a)) "~" = false /\ Ascii.eqb (hexU (byte a)) "/" = false
  /\ Ascii.eqb (hexU (byte a)) "%" = false /\ is_ascii (hexU (byte a)) = true.
Proof. all_bytes a; auto. Qed.

Lemma control_needs_encoding a : not_control a = false ->
  needs_encoding a = true /\ Ascii.eqb a "~" = false /\ Ascii.eqb a "/" = false.
Proof. all_bytes a; auto. Qed.

Lemma pdec_encode_lossy s : pdec (encode_loop s) = ptr_escape (lossy s).
Proof.
  induction s as [|a s IH]; [reflexivity|]. cbn [encode_loop lossy]. unfold encode_byte.
  destruct (not_control a) eqn:Ha.
  - cbn [ptr_escape].
    destruct (Ascii.eqb_spec a "~"). { subst. cbn. now rewrite IH. }
    destruct (Ascii.eqb_spec a "/"). { subst. cbn. now rewrite IH. }
    destruct (needs_encoding a) eqn:NE.
    + unfold percent_byte. rewrite (not_control_ltb a Ha).
      cbn [append]. cbn [pdec]. rewrite Ascii.eqb_refl.
      cbn [decode_head]. rewrite encode_loop_hd, (radix_hexU a Ha). now rewrite IH.
    + destruct (plain_not_special a NE) as (_ & _ & HP).
      cbn [append pdec]. rewrite HP. now rewrite IH.
  - destruct (control_needs_encoding a Ha) as (-> & -> & ->).
    unfold percent_byte.
    assert (N.ltb (byte a) 16 = true) as ->.
    { unfold not_control in Ha. rewrite N.leb_gt in Ha. now apply N.ltb_lt. }
    destruct (hexU_plain a Ha) as (H1 & H2 & H3 & _).
    cbn [append pdec]. rewrite Ascii.eqb_refl. cbn [decode_head].
    assert (from_str_radix16 " " (hexU (byte a)) = None) as -> by reflexivity.
    change (Ascii.eqb " " "%") with false. cbv iota. rewrite H3, IH.
    cbn [ptr_escape]. rewrite H1, H2. change (Ascii.eqb "%" "~") with false.
    change (Ascii.eqb "%" "/") with false. change (Ascii.eqb " " "~") with false.
    change (Ascii.eqb " " "/") with false. cbv iota.
    now destruct (match encode_loop s with EmptyString => _ | String _ _ => _ end).
Qed.

Lemma lossy_id s : sforall not_control s = true -> lossy s = s.
Proof.
  induction s as [|a s IH]; [reflexivity|]. cbn. rewrite andb_true_iff. intros [-> H].
  f_equal. auto.
Qed.

Lemma lossy_length s : String.length s <= String.length (lossy s).
Proof. induction s as [|a s IH]; cbn; [lia|]. destruct (not_control a); cbn; lia. Qed.

Lemma lossy_eq s : lossy s = s -> sforall not_control s = true.
Proof.
  induction s as [|a s IH]; [reflexivity|]. cbn. destruct (not_control a).
  - intros H. injection H as H. auto.
  - intros H. exfalso. apply (f_equal String.length) in H. cbn in H.
    pose proof (lossy_length s). lia.
Qed.

Lemma utf8_lossy s : utf8 s -> utf8 (lossy s).
Proof.
  assert (forall x, in_range 128 255 x = true -> not_control x = true) as HN
    by (intros x; all_bytes x; auto).
  induction 1 as [|a s Ha Hs IH|a b s Ha Hb Hs IH|a b c s Ha Hb Hc HV Hs IH
                 |a b c d s Ha Hb Hc Hd HV Hs IH].
  - constructor.
  - cbn. destruct (not_control a) eqn:E; [now apply U1|].
    destruct (hexU_plain a E) as (_ & _ & _ & HA).
    apply U1; [reflexivity|]. apply U1; [reflexivity|]. apply U1; auto.
  - assert (in_range 128 255 a = true) as HA by (revert Ha; clear; all_bytes a).
    assert (in_range 128 255 b = true) as HB by (revert Hb; clear; all_bytes b).
    cbn. rewrite (HN a HA), (HN b HB). now apply U2.
  - assert (in_range 128 255 a = true) as HA by (revert Ha; clear; all_bytes a).
    assert (in_range 128 255 b = true) as HB by (revert Hb; clear; all_bytes b).
    assert (in_range 128 255 c = true) as HC by (revert Hc; clear; all_bytes c).
    cbn. rewrite (HN a HA), (HN b HB), (HN c HC). now apply U3.
  - assert (in_range 128 255 a = true) as HA by (revert Ha; clear; all_bytes a).
    assert (in_range 128 255 b = true) as HB by (revert Hb; clear; all_bytes b).
    assert (in_range 128 255 c = true) as HC by (revert Hc; clear; all_bytes c).
    assert (in_range 128 255 d = true) as HD by (revert Hd; clear; all_bytes d).
    cbn. rewrite (HN a HA), (HN b HB), (HN c HC), (HN d HD). now apply U4.
Qed.

Theorem decode_encode_lossy s :
  utf8 s -> percent_decode (encode_ref_name s) = Some (ptr_escape (lossy s)).
Proof.
  intros HU. rewrite encode_ref_name_loop.
  rewrite percent_decode_pdec by (apply all_ascii_utf8, encode_loop_ascii).
  rewrite pdec_encode_lossy.
  rewrite utf8_utf8_valid by (now apply utf8_ptr_escape, utf8_lossy). reflexivity.
Qed.
