(** Lemmas about JSON pointers and definition placement. *)
From Coq Require Import String Ascii List ZArith NArith Bool Lia.
From Verif Require Import Json JsonFacts Utf8 Encoding EncodingProofs Pointer SchemaApi.
Import ListNotations.
Open Scope string_scope.

(** ** Escaping *)
Fixpoint esc_tilde (s : string) : string :=
  match s with
  | EmptyString => ""
  | String a s' => if Ascii.eqb a "~" then String "~" (String "0" (esc_tilde s'))
                   else String a (esc_tilde s')
  end.

Lemma replace_1_escape s : replace_tilde "1" "/" (ptr_escape s) = esc_tilde s.
Proof.
  induction s as [|a s IH]; [reflexivity|]. cbn [ptr_escape esc_tilde].
  destruct (Ascii.eqb_spec a "~"). { subst. cbn. now rewrite IH. }
  destruct (Ascii.eqb_spec a "/"). { subst. cbn. now rewrite IH. }
  cbn [replace_tilde]. destruct (Ascii.eqb_spec a "~"); [congruence|]. now rewrite IH.
Qed.

Lemma replace_0_escape s : replace_tilde "0" "~" (esc_tilde s) = s.
Proof.
  induction s as [|a s IH]; [reflexivity|]. cbn [esc_tilde].
  destruct (Ascii.eqb_spec a "~"). { subst. cbn. now rewrite IH. }
  cbn [replace_tilde]. destruct (Ascii.eqb_spec a "~"); [congruence|]. now rewrite IH.
Qed.

Lemma unescape_escape s : unescape (ptr_escape s) = s.
Proof. unfold unescape. now rewrite replace_1_escape, replace_0_escape. Qed.

Lemma no_slash_escape s : no_slash (ptr_escape s) = true.
Proof.
  unfold no_slash. induction s as [|a s IH]; [reflexivity|]. cbn [ptr_escape].
  destruct (Ascii.eqb a "~"); [exact IH|].
  destruct (Ascii.eqb a "/") eqn:E; [exact IH|].
  cbn [sforall]. now rewrite E.
Qed.

(** ** Splitting *)
Lemma split_no_slash s : no_slash s = true -> split_on "/" s = (s, []).
Proof.
  unfold no_slash. induction s as [|a s IH]; [reflexivity|]. cbn.
  rewrite andb_true_iff, negb_true_iff. intros [Ha Hs]. rewrite (IH Hs), Ha. reflexivity.
Qed.

Lemma split_app_slash p e :
  no_slash e = true ->
  split_on "/" (p ++ String "/" e) = (fst (split_on "/" p), (snd (split_on "/" p) ++ [e])%list).
Proof.
  intros He. induction p as [|a p IH].
  - cbn. now rewrite (split_no_slash e He).
  - cbn [append split_on]. rewrite IH. destruct (split_on "/" p) as [h t]. cbn [fst snd].
    destruct (Ascii.eqb a "/"); reflexivity.
Qed.

(** ** Definition placement *)
(** [m] offers room for the path [ts]: following [ts] from [m] meets missing keys or objects
    only. *)
Fixpoint room (ts : list string) (m : map_t) : Prop :=
  match ts with
  | [] => True
  | t :: ts' =>
      match mget t m with
      | None => True
      | Some (JObj m') => room ts' m'
      | Some _ => False
      end
  end.

Lemma room_nil ts : room ts [].
Proof. destruct ts; exact I. Qed.

(** The object found at path [ts], or the empty object if the path is missing. *)
Fixpoint target (ts : list string) (m : map_t) : map_t :=
  match ts with
  | [] => m
  | t :: ts' =>
      match mget t m with
      | Some (JObj m') => target ts' m'
      | _ => []
      end
  end.

Lemma target_empty ts : target ts [] = [].
Proof. destruct ts; reflexivity. Qed.

Lemma walk_create_spec ts f : forall m, room ts m ->
  snd (walk_create ts f m) = true /\
  walk ts (JObj (fst (walk_create ts f m))) = Some (JObj (f (target ts m))).
Proof.
  induction ts as [|t ts IH]; intros m R; cbn [walk_create walk target].
  - split; reflexivity.
  - cbn [room] in R. destruct (mget t m) as [v|] eqn:E.
    + destruct v; try contradiction.
      assert (mhas t m = true) as -> by (unfold mhas; now rewrite E).
      rewrite E. destruct (IH m0 R) as [I1 I2].
      destruct (walk_create ts f m0) as [sub' ok]. cbn [fst snd] in *. split; [exact I1|].
      cbn [child]. rewrite mget_mupd, String.eqb_refl, E. exact I2.
    + assert (mhas t m = false) as -> by (unfold mhas; now rewrite E).
      rewrite mget_mset_eq. destruct (IH [] (room_nil ts)) as [I1 I2].
      destruct (walk_create ts f []) as [sub' ok]. cbn [fst snd] in *. split; [exact I1|].
      cbn [child]. rewrite mget_mupd, String.eqb_refl, mget_mset_eq. cbn [option_map].
      rewrite I2, target_empty. reflexivity.
Qed.

(** Pointers leaving the path are not affected. *)
Fixpoint diverge (ts qs : list string) : Prop :=
  match ts, qs with
  | t :: ts', q :: qs' => t <> q \/ (t = q /\ diverge ts' qs')
  | _, _ => False
  end.

Lemma walk_create_frame ts f : forall m qs, room ts m -> diverge ts qs ->
  walk qs (JObj (fst (walk_create ts f m))) = walk qs (JObj m).
Proof.
  induction ts as [|t ts IH]; intros m qs R D; [destruct D|].
  destruct qs as [|q qs]; [destruct D|]. cbn [diverge] in D. cbn [walk_create room] in *.
  destruct (mget t m) as [v|] eqn:E.
  - destruct v; try contradiction.
    assert (mhas t m = true) as -> by (unfold mhas; now rewrite E). rewrite E.
    specialize (IH m0). destruct (walk_create ts f m0) as [sub' ok]. cbn [fst walk child] in *.
    rewrite mget_mupd. destruct (String.eqb_spec q t).
    + subst q. rewrite E. cbn [option_map]. destruct D as [D|[_ D]]; [congruence|].
      apply IH; auto.
    + reflexivity.
  - assert (mhas t m = false) as -> by (unfold mhas; now rewrite E). rewrite mget_mset_eq.
    specialize (IH []). destruct (walk_create ts f []) as [sub' ok]. cbn [fst walk child] in *.
    rewrite mget_mupd, mget_mset. destruct (String.eqb_spec q t).
    + subst q. rewrite E. cbn [option_map]. destruct D as [D|[_ D]]; [congruence|].
      rewrite IH by (auto using room_nil). destruct qs; [|reflexivity].
      destruct ts; destruct D.
    + reflexivity.
Qed.

(** Path strings whose stripped form is "/seg/…" with at least one character after the slash. *)
Definition good_path (path : string) : Prop :=
  exists rest, definitions_path_stripped path = String "/" rest /\ rest <> "".

Definition path_tokens (path : string) : list string :=
  map unescape (snd (split_on "/" (definitions_path_stripped path))).

Lemma json_pointer_update_good path f m :
  good_path path ->
  json_pointer_update m (definitions_path_stripped path) f = walk_create (path_tokens path) f m.
Proof.
  intros (rest & E & N). unfold path_tokens. rewrite E. cbn.
  destruct (String.eqb_spec rest ""); [congruence|].
  destruct (split_on "/" rest) as [h t] eqn:S. reflexivity.
Qed.

Lemma tokens_app_slash p e :
  no_slash e = true -> (exists r, p = String "/" r) ->
  tokens (p ++ String "/" e) = Some (map unescape (snd (split_on "/" p)) ++ [unescape e])%list.
Proof.
  intros He (r & ->).
  assert (tokens (String "/" r ++ String "/" e) =
          Some (map unescape (snd (split_on "/" (String "/" r ++ String "/" e))))) as -> by reflexivity.
  rewrite split_app_slash by exact He. cbn [snd]. now rewrite map_app.
Qed.

Lemma walk_app ts us v :
  walk (ts ++ us) v = match walk ts v with Some w => walk us w | None => None end.
Proof.
  revert v. induction ts as [|t ts IH]; intros v; cbn; [reflexivity|].
  destruct (child t v); auto.
Qed.

(** The reference string built by find_ref (generate.rs:354-358). *)
Definition ref_string (path name : string) : string :=
  String "#" (definitions_path_stripped path ++ String "/" (encode_ref_name name)).

Lemma effective_ref_string path name :
  utf8_valid (definitions_path_stripped path) = true ->
  no_pct (definitions_path_stripped path) = true ->
  utf8_valid name = true ->
  effective_pointer (ref_string path name)
  = Some (definitions_path_stripped path ++ String "/" (ptr_escape (lossy name)))%string.
Proof.
  intros HU HP Hn. unfold effective_pointer, ref_string. rewrite Ascii.eqb_refl.
  set (p := definitions_path_stripped path) in *.
  apply utf8_valid_utf8 in HU. apply utf8_valid_utf8 in Hn.
  rewrite percent_decode_pdec.
  2:{ apply utf8_app; [exact HU|]. apply U1; [reflexivity|].
      rewrite encode_ref_name_loop. apply all_ascii_utf8, encode_loop_ascii. }
  rewrite pdec_app_no_pct by exact HP.
  assert (pdec (String "/" (encode_ref_name name)) = String "/" (ptr_escape (lossy name))) as ->.
  { cbn [pdec]. rewrite encode_ref_name_loop, pdec_encode_lossy. reflexivity. }
  rewrite utf8_utf8_valid; [reflexivity|].
  apply utf8_app; [exact HU|]. apply U1; [reflexivity|]. now apply utf8_ptr_escape, utf8_lossy.
Qed.

(** Where a reference leads, for every name. *)
Theorem ref_resolves_lossy path name m defs :
  good_path path ->
  utf8_valid (definitions_path_stripped path) = true ->
  no_pct (definitions_path_stripped path) = true ->
  utf8_valid name = true ->
  NoDup (map fst defs) -> defs <> [] ->
  room (path_tokens path) m ->
  s_pointer (JObj (add_definitions path m defs)) (ref_string path name)
  = match mget (lossy name) defs with
    | Some d => Some d
    | None => mget (lossy name) (target (path_tokens path) m)
    end.
Proof.
  intros HG HU HP Hn ND NE HR. unfold s_pointer.
  rewrite effective_ref_string by auto.
  unfold value_pointer.
  rewrite tokens_app_slash;
    [|apply no_slash_escape|destruct HG as (r & -> & _); eauto].
  fold (path_tokens path). rewrite unescape_escape, walk_app.
  unfold add_definitions. destruct defs as [|kv defs']; [congruence|].
  remember (kv :: defs') as defs eqn:E. clear E NE kv defs'.
  rewrite json_pointer_update_good by exact HG.
  destruct (walk_create_spec (path_tokens path) (fun t => mappend t defs) m HR) as [_ ->].
  cbn [walk child]. rewrite mget_mappend_NoDup by exact ND.
  destruct (mget (lossy name) defs); [reflexivity|].
  now destruct (mget (lossy name) _).
Qed.

Theorem ref_resolves path name m defs d :
  good_path path ->
  utf8_valid (definitions_path_stripped path) = true ->
  no_pct (definitions_path_stripped path) = true ->
  utf8_valid name = true -> sforall not_control name = true ->
  NoDup (map fst defs) ->
  room (path_tokens path) m ->
  mget name defs = Some d ->
  s_pointer (JObj (add_definitions path m defs)) (ref_string path name) = Some d.
Proof.
  intros HG HU HP Hn HC ND HR Hd.
  rewrite ref_resolves_lossy; auto.
  - rewrite (lossy_id _ HC), Hd. reflexivity.
  - intros ->. discriminate.
Qed.

(** ** Lens laws for pointer / pointer_mut *)
Lemma nth_set_nth_eq i x l : i < List.length l -> nth_error (set_nth i x l) i = Some x.
Proof.
  revert i. induction l as [|y l IH]; intros [|i]; cbn; try lia; auto. intros H. apply IH. lia.
Qed.

Lemma nth_set_nth_ne i j x l : i <> j -> nth_error (set_nth i x l) j = nth_error l j.
Proof.
  revert i j. induction l as [|y l IH]; intros [|i] [|j] H; cbn; auto; try congruence.
Qed.

Lemma set_nth_same i x l : nth_error l i = Some x -> set_nth i x l = l.
Proof.
  revert i. induction l as [|y l IH]; intros [|i]; cbn; try congruence.
  intros H. f_equal. auto.
Qed.

Lemma mupd_same k (x : json) m : mget k m = Some x -> mupd k (fun _ => x) m = m.
Proof.
  induction m as [|[k' v'] m IH]; cbn; [reflexivity|].
  destruct (String.eqb k k').
  - intros H. now injection H as ->.
  - intros H. f_equal. auto.
Qed.

Lemma child_set_eq t v c x : child t v = Some c -> child t (set_child t x v) = Some x.
Proof.
  destruct v as [| | | |l|m]; cbn; try discriminate.
  - destruct (parse_index t) eqn:E; [|discriminate]. intros H. cbn. rewrite E.
    apply nth_set_nth_eq. apply nth_error_Some. congruence.
  - intros H. rewrite mget_mupd, String.eqb_refl, H. reflexivity.
Qed.

Lemma set_child_same t v c : child t v = Some c -> set_child t c v = v.
Proof.
  destruct v as [| | | |l|m]; cbn; try discriminate.
  - destruct (parse_index t) eqn:E; [|discriminate]. intros H. f_equal. now apply set_nth_same.
  - intros H. f_equal. now apply mupd_same.
Qed.

(** Canonical decimal numbers are determined by their value. *)
Fixpoint sval (ds : list N) : N := (* little endian *)
  match ds with [] => 0 | d :: ds' => (d + 10 * sval ds')%N end.

Fixpoint sdigits (s : string) : list N :=
  match s with EmptyString => [] | String a s' => (byte a - 48)%N :: sdigits s' end.

Lemma digits_val_spec s : forall acc n, digits_val acc s = Some n ->
  sforall (in_range 48 57) s = true /\ n = sval (rev (sdigits s) ++ match acc with 0%N => [] | _ => [acc] end).
Proof.
  induction s as [|a s IH]; intros acc n; cbn [digits_val sforall sdigits rev].
  - intros H. injection H as <-. split; [reflexivity|]. destruct acc; cbn; lia.
  - destruct (in_range 48 57 a) eqn:E; [|discriminate]. intros H. apply IH in H as [H1 H2].
    split; [exact H1|]. rewrite H2. rewrite <- app_assoc. cbn [app].
    generalize (rev (sdigits s)). intros l. clear -l.
    assert (forall l x y, sval x = sval y -> sval (l ++ x) = sval (l ++ y)) as HC.
    { intros l0 x y H. induction l0; cbn [sval app]; [exact H|now rewrite IHl0]. }
    assert (forall x, sval match x with 0%N => [] | _ => [x] end = x) as HZ.
    { intros x. destruct x; cbn [sval]; lia. }
    apply HC. rewrite HZ. cbn [sval]. rewrite HZ. lia.
Qed.

Lemma sval_last_pos l d : (0 < d)%N -> (0 < sval (l ++ [d]))%N.
Proof. intros H. induction l; cbn [sval app]; lia. Qed.

Lemma sval_inj l1 : forall l2,
  Forall (fun d => (d < 10)%N) l1 -> Forall (fun d => (d < 10)%N) l2 ->
  (l1 = [] \/ 0 < List.last l1 0)%N -> (l2 = [] \/ 0 < List.last l2 0)%N ->
  sval l1 = sval l2 -> l1 = l2.
Proof.
  assert (forall l, (0 < List.last l 0)%N -> (0 < sval l)%N) as HP.
  { intros l H. destruct l as [|x l'] using rev_ind; [cbn in H; lia|].
    rewrite last_last in H. now apply sval_last_pos. }
  induction l1 as [|x l1 IH]; intros [|y l2] F1 F2 L1 L2 H.
  - reflexivity.
  - destruct L2 as [|L2]; [discriminate|]. apply HP in L2. cbn [sval] in H, L2. lia.
  - destruct L1 as [|L1]; [discriminate|]. apply HP in L1. cbn [sval] in H, L1. lia.
  - inversion F1; subst. inversion F2; subst. cbn [sval] in H.
    assert (x = y) by lia. subst y. f_equal. apply IH; auto; try lia.
    + destruct l1 as [|z l1]; [now left|right]. destruct L1 as [|L1]; [discriminate|exact L1].
    + destruct l2 as [|z l2]; [now left|right]. destruct L2 as [|L2]; [discriminate|exact L2].
Qed.

Lemma sdigits_inj s : forall s',
  sforall (in_range 48 57) s = true -> sforall (in_range 48 57) s' = true ->
  sdigits s = sdigits s' -> s = s'.
Proof.
  induction s as [|a s IH]; intros [|b s'] H1 H2 E; cbn in *; try congruence.
  apply andb_true_iff in H1 as [Ha Hs]. apply andb_true_iff in H2 as [Hb Hs'].
  injection E as E1 E2. f_equal; [|auto].
  apply ascii_N_inj. unfold in_range, byte in *. rewrite andb_true_iff, !N.leb_le in Ha, Hb. lia.
Qed.

Lemma last_rev_hd (l : list N) d : List.last (rev (d :: l)) 0%N = d.
Proof. cbn. now rewrite last_last. Qed.

Lemma parse_index_inj s s' i : parse_index s = Some i -> parse_index s' = Some i -> s = s'.
Proof.
  assert (forall s i, parse_index s = Some i ->
    sforall (in_range 48 57) s = true /\ i = sval (rev (sdigits s)) /\
    ((exists a t, s = String a t /\ (0 < byte a - 48)%N) \/ s = "0")) as HS.
  { intros t j. destruct t as [|a t]; [discriminate|]. unfold parse_index.
    destruct (Ascii.eqb_spec a "0").
    - subst a. cbn [andb]. destruct (String.eqb_spec t ""); cbn [negb]; [|discriminate].
      subst. intros H. apply digits_val_spec in H as [H1 H2]. rewrite app_nil_r in H2. auto.
    - cbn [andb]. intros H. apply digits_val_spec in H as [H1 H2]. rewrite app_nil_r in H2.
      repeat split; auto. left. exists a, t. split; [reflexivity|].
      cbn in H1. apply andb_true_iff in H1 as [H1 _].
      unfold in_range in H1. rewrite andb_true_iff, !N.leb_le in H1.
      assert (byte a <> 48%N) by (intros E; apply n; apply ascii_N_inj; exact E).
      lia. }
  intros H1 H2. destruct (HS _ _ H1) as (A1 & B1 & C1). destruct (HS _ _ H2) as (A2 & B2 & C2).
  assert (forall s, sforall (in_range 48 57) s = true -> Forall (fun d => (d < 10)%N) (rev (sdigits s))) as HF.
  { intros t Ht. apply Forall_rev. induction t as [|a t IH]; cbn in *; constructor.
    - apply andb_true_iff in Ht as [Ha _]. unfold in_range in Ha.
      rewrite andb_true_iff, !N.leb_le in Ha. lia.
    - apply andb_true_iff in Ht as [_ Ht]. auto. }
  destruct C1 as [(a & t & -> & Pa)| -> ]; destruct C2 as [(b & t' & -> & Pb)| -> ].
  - apply sdigits_inj; auto.
    assert (rev (sdigits (String a t)) = rev (sdigits (String b t'))) as E.
    { apply sval_inj; auto; try congruence; right; cbn [sdigits]; now rewrite last_rev_hd. }
    apply (f_equal (@rev N)) in E. now rewrite !rev_involutive in E.
  - exfalso. cbn [sdigits rev] in B1. subst i. cbn in B2.
    pose proof (sval_last_pos (rev (sdigits t)) _ Pa). lia.
  - exfalso. cbn [sdigits rev] in B2. subst i. cbn in B2.
    pose proof (sval_last_pos (rev (sdigits t')) _ Pb). lia.
  - reflexivity.
Qed.

Lemma child_set_ne t q v x : t <> q -> child q (set_child t x v) = child q v.
Proof.
  intros N. destruct v as [| | | |l|m]; cbn; try reflexivity.
  - destruct (parse_index t) as [i|] eqn:E; [|reflexivity]. cbn.
    destruct (parse_index q) as [j|] eqn:E2; [|reflexivity].
    apply nth_set_nth_ne. intros H. apply N. apply (parse_index_inj t q j); auto.
    rewrite E. f_equal. lia.
  - rewrite mget_mupd. destruct (String.eqb_spec q t); congruence.
Qed.

Lemma walk_set_get ts x : forall v v', walk_set ts x v = Some v' -> walk ts v' = Some x.
Proof.
  induction ts as [|t ts IH]; intros v v'; cbn.
  - congruence.
  - destruct (child t v) as [c|] eqn:E; [|discriminate].
    destruct (walk_set ts x c) as [c'|] eqn:E2; [|discriminate].
    intros H. injection H as <-. rewrite (child_set_eq _ _ _ c' E). eauto.
Qed.

Lemma walk_set_frame ts qs x : forall v v', diverge ts qs ->
  walk_set ts x v = Some v' -> walk qs v' = walk qs v.
Proof.
  revert qs. induction ts as [|t ts IH]; intros [|q qs] v v' D; cbn; try now destruct D.
  cbn in D. destruct (child t v) as [c|] eqn:E; [|discriminate].
  destruct (walk_set ts x c) as [c'|] eqn:E2; [|discriminate].
  intros H. injection H as <-. destruct (String.eqb_spec t q).
  - subst q. destruct D as [D|[_ D]]; [congruence|].
    rewrite (child_set_eq _ _ _ c' E), E. eauto.
  - now rewrite child_set_ne.
Qed.

Lemma walk_set_same ts : forall v x, walk ts v = Some x -> walk_set ts x v = Some v.
Proof.
  induction ts as [|t ts IH]; intros v x; cbn; [congruence|].
  destruct (child t v) as [c|] eqn:E; [|discriminate]. intros H.
  rewrite (IH _ _ H). f_equal. now apply set_child_same.
Qed.

Lemma walk_set_some ts x : forall v, (exists v', walk_set ts x v = Some v') <-> (exists y, walk ts v = Some y).
Proof.
  induction ts as [|t ts IH]; intros v; cbn; [split; eauto|].
  destruct (child t v) as [c|]; [|split; intros [? H]; discriminate].
  rewrite <- IH. destruct (walk_set ts x c); split; intros [? H]; eauto; discriminate.
Qed.

Lemma tokens_path path : good_path path ->
  tokens (definitions_path_stripped path) = Some (path_tokens path).
Proof. intros (r & E & _). unfold path_tokens. rewrite E. reflexivity. Qed.

Lemma s_pointer_raw v r : s_pointer v (String "/" r) = value_pointer v (String "/" r).
Proof. reflexivity. Qed.

Lemma add_definitions_at path m defs :
  good_path path -> room (path_tokens path) m -> defs <> [] ->
  s_pointer (JObj (add_definitions path m defs)) (definitions_path_stripped path)
  = Some (JObj (mappend (target (path_tokens path) m) defs)).
Proof.
  intros HG HR NE. pose proof (tokens_path path HG) as HT.
  pose proof HG as (r & E & _).
  rewrite E. rewrite s_pointer_raw. rewrite <- E. unfold value_pointer. rewrite HT.
  unfold add_definitions. destruct defs; [congruence|].
  rewrite json_pointer_update_good by exact HG.
  now destruct (walk_create_spec (path_tokens path) (fun t => mappend t (p :: defs)) m HR) as [_ ->].
Qed.

Lemma add_definitions_frame path m defs qs :
  good_path path -> room (path_tokens path) m -> diverge (path_tokens path) qs ->
  walk qs (JObj (add_definitions path m defs)) = walk qs (JObj m).
Proof.
  intros HG HR HD. unfold add_definitions. destruct defs; [reflexivity|].
  rewrite json_pointer_update_good by exact HG. now apply walk_create_frame.
Qed.
