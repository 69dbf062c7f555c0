(** When schema ids determine types. The id of a type is read back: up to the types that forward
    to another type, two types of the fragment below with the same id are the same type. *)
From Coq Require Import String Ascii List ZArith Bool Lia DecimalString Decimal DecimalZ.
From Verif Require Import Json JsonFacts Utf8 Encoding EncodingProofs SchemaApi Pointer Private Generate SerValue SerValueProofs Types.
Import ListNotations.
Open Scope string_scope.
Open Scope list_scope.

(** ** Types, by induction *)
Section Ind.
Variable P : rty -> Prop.
Hypothesis HA : forall t, match t with
  | TStr | TBool | TUnit | TChar | TF32 | TF64 | TAny | TNumber | TInt _ | TNonZero _ | TText _
  | TDuration | TSystemTime | TOsString | TCString | TBytes | TTimeDelta => True | _ => False end -> P t.
Hypothesis HOpt : forall t, P t -> P (TOption t).
Hypothesis HSeq : forall t, P t -> P (TSeq t).
Hypothesis HSet : forall t, P t -> P (TSet t).
Hypothesis HArr : forall n t, P t -> P (TArray n t).
Hypothesis HTup : forall ts, Forall P ts -> P (TTuple ts).
Hypothesis HMap : forall k v, P k -> P v -> P (TMap k v).
Hypothesis HRes : forall a b, P a -> P b -> P (TResult a b).
Hypothesis HBnd : forall t, P t -> P (TBound t).
Hypothesis HRng : forall t, P t -> P (TRange t).
Hypothesis HEi : forall a b, P a -> P b -> P (TEither a b).
Hypothesis HAV : forall n t, P t -> P (TArrayVec n t).
Hypothesis HFwd : forall t, P t -> P (TFwd t).
Hypothesis HWk : forall t, P t -> P (TWeak t).
Hypothesis HAdt : forall n cs ts, Forall P ts -> P (TAdt n cs ts).
Fixpoint rty_ind' (t : rty) : P t :=
  let all := fix all (l : list rty) : Forall P l :=
    match l with [] => Forall_nil P | x :: l' => Forall_cons x (rty_ind' x) (all l') end in
  match t with
  | TOption t => HOpt t (rty_ind' t)
  | TSeq t => HSeq t (rty_ind' t)
  | TSet t => HSet t (rty_ind' t)
  | TArray n t => HArr n t (rty_ind' t)
  | TTuple ts => HTup ts (all ts)
  | TMap k v => HMap k v (rty_ind' k) (rty_ind' v)
  | TResult a b => HRes a b (rty_ind' a) (rty_ind' b)
  | TBound t => HBnd t (rty_ind' t)
  | TRange t => HRng t (rty_ind' t)
  | TEither a b => HEi a b (rty_ind' a) (rty_ind' b)
  | TArrayVec n t => HAV n t (rty_ind' t)
  | TFwd t => HFwd t (rty_ind' t)
  | TWeak t => HWk t (rty_ind' t)
  | TAdt n cs ts => HAdt n cs ts (all ts)
  | t => HA t I
  end.
End Ind.

(** Forgets the types that forward to another one, outside the arguments of generic types; all
    empty arrays are one type. *)
Fixpoint erase (t : rty) : rty :=
  match t with
  | TOption t => TOption (erase t)
  | TSeq t => TSeq (erase t)
  | TSet t => TSet (erase t)
  | TArray O _ => TArray O TUnit
  | TArray n t => TArray n (erase t)
  | TTuple ts => TTuple (map erase ts)
  | TMap k v => TMap (erase k) (erase v)
  | TResult a b => TResult (erase a) (erase b)
  | TBound t => TBound (erase t)
  | TRange t => TRange (erase t)
  | TEither a b => TEither (erase a) (erase b)
  | TArrayVec n t => TArrayVec n (erase t)
  | TFwd t | TWeak t => erase t
  | t => t
  end.

(** ** Words *)
Definition special (a : ascii) : bool :=
  existsb (Ascii.eqb a) ["<"; ">"; "["; "]"; "("; ")"; ","; ";"; " "]%char.
Definition word (s : string) : Prop := sforall (fun a => negb (special a)) s = true.
Definition heads (l : list ascii) (s : string) : Prop := match s with "" => True | String a _ => In a l end.
Definition stops : list ascii := [">"; ","; "]"; ")"]%char.
Definition opens : list ascii := ["<"; "["; "("]%char.

Lemma heads_special l s : (forall a, In a l -> special a = true) -> heads l s -> match s with "" => True | String a _ => special a = true end.
Proof. destruct s; cbn; auto. Qed.
Lemma stops_special a : In a stops -> special a = true.
Proof. cbn. intros H. repeat (destruct H as [<-|H]; [reflexivity|]). destruct H. Qed.
Lemma opens_special a : In a opens -> special a = true.
Proof. cbn. intros H. repeat (destruct H as [<-|H]; [reflexivity|]). destruct H. Qed.

Lemma word_split w : forall w' r r', word w -> word w' ->
  match r with "" => True | String a _ => special a = true end -> match r' with "" => True | String a _ => special a = true end ->
  (w ++ r = w' ++ r')%string -> w = w' /\ r = r'.
Proof.
  unfold word. induction w as [|a w IH]; intros [|b w'] r r' HW HW' HR HR'; cbn [append sforall] in *.
  - auto.
  - intros ->. apply andb_true_iff in HW' as [HB _]. rewrite HR in HB. discriminate.
  - intros <-. apply andb_true_iff in HW as [HA _]. rewrite HR' in HA. discriminate.
  - intros [= -> H]. apply andb_true_iff in HW as [_ HW]. apply andb_true_iff in HW' as [_ HW'].
    destruct (IH w' r r' HW HW' HR HR' H) as [-> ->]. auto.
Qed.

Lemma digits_word d : word (NilEmpty.string_of_uint d).
Proof. unfold word. induction d; cbn; auto. Qed.
Lemma show_word n : word (show_int (Z.of_nat n)).
Proof.
  unfold show_int, NilZero.string_of_int, NilZero.string_of_uint. destruct (Z.to_int _) as [d|d]; destruct d; try reflexivity; try apply (digits_word (D0 d)).
  all: unfold word; cbn; apply digits_word.
Qed.
Lemma show_inj a b : show_int a = show_int b -> a = b.
Proof.
  unfold show_int. intros H. apply (f_equal NilZero.int_of_string) in H.
  assert (HN : forall z, Z.to_int z <> Pos Nil /\ Z.to_int z <> Neg Nil).
  { intros z. destruct z as [|p|p]; cbn; split; try discriminate; intros [= H0]; revert H0; apply DecimalPos.Unsigned.to_uint_nonnil. }
  rewrite !NilZero.isi in H; try apply HN. injection H as H. now apply DecimalZ.to_int_inj.
Qed.

Lemma show_nonempty z : show_int z <> "".
Proof.
  unfold show_int, NilZero.string_of_int, NilZero.string_of_uint. destruct (Z.to_int z) as [d|d]; [|discriminate]. destruct d; discriminate.
Qed.

(** ** The fragment *)
(** What the ids of standard types begin with *)
Definition std_words : list string :=
  ["string"; "boolean"; "null"; "char"; "float"; "double"; "AnyValue"; "Number";
   "int8"; "int16"; "int32"; "int64"; "int128"; "int"; "uint8"; "uint16"; "uint32"; "uint64"; "uint128"; "uint";
   "std::num::NonZeroI8"; "std::num::NonZeroI16"; "std::num::NonZeroI32"; "std::num::NonZeroI64"; "std::num::NonZeroI128";
   "std::num::NonZeroIsize"; "std::num::NonZeroU8"; "std::num::NonZeroU16"; "std::num::NonZeroU32"; "std::num::NonZeroU64";
   "std::num::NonZeroU128"; "std::num::NonZeroUsize"; "ipv4"; "ipv6"; "ip"; "Option"; ""; "Set"; "Map"; "Result"; "Bound"; "Range";
   "std::time::Duration"; "std::time::SystemTime"; "std::ffi::OsString"; "std::ffi::CString";
   "either::Either"; "bytes::Bytes"; "chrono::TimeDelta"; "uuid::Uuid"; "url::Url"; "chrono::NaiveDate"; "chrono::NaiveDateTime";
   "chrono::NaiveTime"; "chrono::DateTime"; "chrono::Weekday"; "jiff::SignedDuration"; "jiff::Span"; "jiff::Timestamp"; "jiff::Zoned";
   "jiff::Date"; "jiff::Time"; "jiff::DateTime"; "semver::Version"; "Decimal"].

Lemma existsb_In a l : existsb (String.eqb a) l = true -> In a l.
Proof. intros H. apply existsb_exists in H as (b & H1 & H2). apply String.eqb_eq in H2. now subst. Qed.

Section Ids.
Context {X : Type}.
Variable items : nat -> item X.

Lemma string_key_id t : string_key t = String.eqb (type_id items t) "string".
Proof.
  assert (HP : forall m s, (m ++ "::" ++ s =? "string")%string = false).
  { intros m s. apply String.eqb_neq. do 7 (destruct m as [|? m]; [discriminate|]). discriminate. }
  induction t; cbn [string_key type_id]; try reflexivity; auto; try (destruct i; reflexivity); try (destruct k; reflexivity).
  - destruct n; reflexivity.
  - destruct (String.eqb _ _); reflexivity.
  - unfold adt_id. destruct consts, (map _ args); now rewrite HP.
Qed.

(** the derived types in use, and the numbers of their generic parameters (const, type) *)
Variable N : nat -> Prop.
Variable arity : nat -> nat * nat.

Definition path_of (n : nat) : string := (it_module (items n) ++ "::" ++ it_name (items n))%string.

(** Distinct types have distinct paths, made of identifiers. *)
Record items_ok : Prop := {
  io_inj : forall n m, N n -> N m -> path_of n = path_of m -> n = m;
  io_word : forall n, N n -> word (path_of n);
  io_std : forall n, N n -> ~ In (path_of n) std_words;
  io_one : forall n, N n -> arity n = (0, 0) \/ arity n = (0, 1) \/ arity n = (1, 0) }.

(** Types without forwarding types and [ArrayVec], with at most one generic argument *)
Fixpoint normal (t : rty) : Prop :=
  match t with
  | TOption t | TSeq t | TSet t | TBound t | TRange t => normal t
  | TArray O t => t = TUnit
  | TArray n t => normal t
  | TTuple ts => (fix all l := match l with [] => True | x :: l' => normal x /\ all l' end) ts
  | TMap a b | TResult a b | TEither a b => normal a /\ normal b
  | TFwd _ | TWeak _ | TArrayVec _ _ => False
  | TAdt n cs ts => N n /\ arity n = (List.length cs, List.length ts) /\ Forall word cs
                    /\ (fix all l := match l with [] => True | x :: l' => normal x /\ all l' end) ts
  | _ => True
  end.

Hypothesis HI : items_ok.

Lemma normal_all ts : (fix all (l : list rty) := match l with [] => True | x :: l' => normal x /\ all l' end) ts <-> Forall normal ts.
Proof. induction ts as [|t ts IH]; split; auto; [intros [H1 H2]; constructor; tauto|]. intros H. inversion H; subst. tauto. Qed.

Definition first_word (t : rty) : string :=
  match t with
  | TOption _ => "Option" | TSeq _ | TArray _ _ | TTuple _ => "" | TSet _ => "Set" | TMap _ _ => "Map" | TResult _ _ => "Result"
  | TBound _ => "Bound" | TRange _ => "Range" | TEither _ _ => "either::Either" | TAdt n _ _ => path_of n
  | t => type_id items t
  end.
Definition after (t : rty) : string :=
  match t with
  | TOption t | TSet t | TBound t | TRange t => ("<" ++ type_id items t ++ ">")%string
  | TMap k v => if String.eqb (type_id items k) "string" then ("<" ++ type_id items v ++ ">")%string
                else ("<" ++ type_id items k ++ ", " ++ type_id items v ++ ">")%string
  | TResult a b | TEither a b => ("<" ++ type_id items a ++ ", " ++ type_id items b ++ ">")%string
  | TSeq _ | TArray _ _ | TTuple _ => type_id items t
  | TAdt n cs ts => match cs, ts with [], [] => "" | _, _ => ("<" ++ cat (cs ++ map (type_id items) ts) ++ ">")%string end
  | _ => ""
  end.

Lemma id_view t : normal t -> type_id items t = (first_word t ++ after t)%string.
Proof.
  destruct t; intros H; try reflexivity; try contradiction; cbn [type_id first_word after].
  - destruct i; reflexivity.
  - destruct i; reflexivity.
  - destruct k; reflexivity.
  - destruct (String.eqb _ _); reflexivity.
  - unfold adt_id, path_of. destruct consts, args; cbn [map]; rewrite ?sapp_assoc; cbn [append]; rewrite ?sapp_assoc; try reflexivity.
    now rewrite sapp_nil_r.
Qed.

Lemma after_opens t : normal t -> heads opens (after t).
Proof.
  destruct t; intros H; cbn; auto; try contradiction.
  - destruct n; cbn; auto.
  - destruct (String.eqb _ _); cbn; auto.
  - destruct consts, args; cbn; auto.
Qed.

Lemma first_is_word t : normal t -> word (first_word t).
Proof.
  destruct t; intros H; try reflexivity; try contradiction; try (destruct i; reflexivity).
  - destruct k; reflexivity.
  - destruct H as (HN & _). now apply (io_word HI).
Qed.

Definition is_adt (t : rty) : bool := match t with TAdt _ _ _ => true | _ => false end.
Lemma std_first t : normal t -> is_adt t = false -> In (first_word t) std_words.
Proof.
  destruct t; intros H HA; try contradiction; try discriminate; try (destruct i); try (destruct k);
    (match goal with |- In ?a ?l => apply (existsb_In a l) end; vm_compute; reflexivity).
Qed.

Lemma id_split t t' r r' : normal t -> normal t' -> heads stops r -> heads stops r' ->
  (type_id items t ++ r = type_id items t' ++ r')%string -> first_word t = first_word t' /\ (after t ++ r = after t' ++ r')%string.
Proof.
  intros H H' HR HR' HE. rewrite (id_view t H), (id_view t' H'), !sapp_assoc in HE.
  apply word_split in HE; auto; try now apply first_is_word.
  - pose proof (after_opens t H) as HO. destruct (after t) as [|a s]; cbn [append].
    + apply (heads_special stops); auto using stops_special.
    + now apply opens_special.
  - pose proof (after_opens t' H') as HO. destruct (after t') as [|a s]; cbn [append].
    + apply (heads_special stops); auto using stops_special.
    + now apply opens_special.
Qed.

Lemma stop_gt s : heads stops (String ">" s). Proof. cbn; auto. Qed.
Lemma stop_comma s : heads stops (String "," s). Proof. cbn; auto. Qed.
Lemma stop_sq s : heads stops (String "]" s). Proof. cbn; auto. Qed.
Lemma stop_par s : heads stops (String ")" s). Proof. cbn; auto. Qed.
Hint Resolve stop_gt stop_comma stop_sq stop_par : core.

Definition readable (t : rty) : Prop := forall t' r r', normal t -> normal t' -> heads stops r -> heads stops r' ->
  (type_id items t ++ r = type_id items t' ++ r')%string -> t = t' /\ r = r'.

(** an id does not begin with a closing character *)
Lemma id_not_stop t a s r : normal t -> In a [">"; "]"; ")"; ","; ";"]%char -> (type_id items t ++ r = String a s)%string -> False.
Proof.
  intros HN HA HE. rewrite (id_view t HN) in HE. pose proof (first_is_word t HN) as HW. unfold word in HW.
  destruct (first_word t) as [|b w] eqn:EF.
  - destruct t; try discriminate; cbn [after type_id append] in HE; try contradiction.
    + destruct i; discriminate.
    + destruct k; discriminate.
    + cbn in HE. injection HE as <- _. cbn in HA. repeat (destruct HA as [HA|HA]; [discriminate|]). destruct HA.
    + destruct n; cbn in HE; injection HE as <- _; cbn in HA; repeat (destruct HA as [HA|HA]; [discriminate|]); destruct HA.
    + cbn in HE; injection HE as <- _; cbn in HA; repeat (destruct HA as [HA|HA]; [discriminate|]); destruct HA.
    + unfold first_word, path_of in EF. destruct (it_module (items item)); discriminate.
  - cbn [append] in HE. injection HE as -> _. cbn [sforall] in HW. apply andb_true_iff in HW as [HW _].
    cbn in HA. repeat (destruct HA as [<-|HA]; [discriminate|]). destruct HA.
Qed.

Lemma list_readable ts : Forall readable ts -> forall ts' r r', Forall normal ts -> Forall normal ts' ->
  (join "," (map (type_id items) ts) ++ String ")" r = join "," (map (type_id items) ts') ++ String ")" r')%string -> ts = ts' /\ r = r'.
Proof.
  induction 1 as [|t ts HT HF IH]; intros ts' r r' HN HN' HE.
  - destruct ts' as [|t' ts']; [cbn in HE; injection HE as ->; auto|]. exfalso. inversion HN'; subst.
    cbn [map join] in HE. destruct (map (type_id items) ts'); [|rewrite sapp_assoc in HE]; symmetry in HE;
      refine (id_not_stop t' ")" _ _ H1 _ HE); cbn; auto.
  - inversion HN as [|? ? H1 H2]; subst. destruct ts' as [|t' ts'].
    { exfalso. cbn [map join] in HE. destruct (map (type_id items) ts); [|rewrite sapp_assoc in HE];
      refine (id_not_stop t ")" _ _ H1 _ HE); cbn; auto. }
    inversion HN' as [|? ? H1' H2']; subst.
    assert (HV : forall u us s, (join "," (map (type_id items) (u :: us)) ++ String ")" s
      = type_id items u ++ match us with [] => String ")" s | _ => String "," (join "," (map (type_id items) us) ++ String ")" s) end)%string).
    { intros u us s. destruct us as [|u2 us]; [reflexivity|]. cbn [map join]. now rewrite !sapp_assoc. }
    rewrite !HV in HE. apply HT in HE as [<- HE]; auto; [|destruct ts; auto|destruct ts'; auto].
    destruct ts as [|u us], ts' as [|u' us']; try discriminate.
    + injection HE as ->. auto.
    + injection HE as HE. destruct (IH (u' :: us') r r' H2 H2' HE) as [<- <-]. auto.
Qed.

Definition ints : list ity := [I8; I16; I32; I64; I128; ISize; U8; U16; U32; U64; U128; USize].
Definition texts : list txt :=
  [Ipv4; Ipv6; IpAny; Uuid; Url; ChronoDate; ChronoDateTime; ChronoTime; ChronoZoned; Weekday; JiffSignedDuration; JiffSpan; JiffTimestamp; JiffZoned; JiffDate; JiffTime; JiffDateTime; SemVer; Decimal].
Definition atoms : list rty :=
  [TStr; TBool; TUnit; TChar; TF32; TF64; TAny; TNumber; TDuration; TSystemTime; TOsString; TCString; TBytes; TTimeDelta]
  ++ map TText texts ++ map TInt ints ++ map TNonZero ints.
Definition is_atom (t : rty) : Prop := match t with
  | TStr | TBool | TUnit | TChar | TF32 | TF64 | TAny | TNumber | TInt _ | TNonZero _ | TText _
  | TDuration | TSystemTime | TOsString | TCString | TBytes | TTimeDelta => True | _ => False end.

Lemma atoms_all t : is_atom t -> In t atoms.
Proof. destruct t; intros H; try contradiction; try (destruct i); try (destruct k); cbn; tauto. Qed.

Fixpoint distinct_b (l : list string) : bool :=
  match l with [] => true | a :: l => negb (existsb (String.eqb a) l) && distinct_b l end.
Lemma no_dup_b l : distinct_b l = true -> NoDup l.
Proof.
  induction l as [|a l IH]; intros H; [constructor|]. cbn [distinct_b] in H. apply andb_true_iff in H as [H1 H2].
  constructor; [|auto]. intros HI'. apply negb_true_iff in H1.
  enough (existsb (String.eqb a) l = true) by congruence.
  apply existsb_exists. exists a. split; [assumption|]. apply String.eqb_refl.
Qed.

Lemma NoDup_inj {A B} (f : A -> B) l : NoDup (map f l) -> forall x y, In x l -> In y l -> f x = f y -> x = y.
Proof.
  induction l as [|a l IH]; intros H x y; [intros []|]. cbn [map] in H. inversion H as [|? ? H1 H2]; subst.
  intros [->|Hx] [->|Hy] HE; auto.
  - exfalso. apply H1. rewrite HE. now apply in_map.
  - exfalso. apply H1. rewrite <- HE. now apply in_map.
Qed.

Lemma atoms_inj t t' : is_atom t -> is_atom t' -> first_word t = first_word t' -> t = t'.
Proof.
  intros H H'. apply (NoDup_inj first_word atoms); auto using atoms_all. apply no_dup_b. vm_compute. reflexivity.
Qed.

Lemma atom_word t : is_atom t -> In (first_word t) (map first_word atoms).
Proof. intros H. now apply in_map, atoms_all. Qed.

Lemma atom_not t w : is_atom t -> first_word t = w -> In w ["Option"; ""; "Set"; "Map"; "Result"; "Bound"; "Range"; "either::Either"] -> False.
Proof.
  intros H <- HI'. pose proof (atom_word t H) as HA. revert HA HI'. generalize (first_word t). intros w HA HB.
  assert (HX : forallb (fun x => negb (existsb (String.eqb x) ["Option"; ""; "Set"; "Map"; "Result"; "Bound"; "Range"; "either::Either"])) (map first_word atoms) = true)
    by (vm_compute; reflexivity).
  rewrite forallb_forall in HX. apply HX in HA. apply negb_true_iff in HA.
  enough (existsb (String.eqb w) ["Option"; ""; "Set"; "Map"; "Result"; "Bound"; "Range"; "either::Either"] = true) by congruence.
  apply existsb_exists. exists w. split; [exact HB|apply String.eqb_refl].
Qed.

Lemma atom_after t : is_atom t -> after t = "".
Proof. destruct t; intros H; try contradiction; reflexivity. Qed.

(** [t'] begins with the given word *)
Lemma cases t' w : normal t' -> w = first_word t' -> In w ["Option"; ""; "Set"; "Map"; "Result"; "Bound"; "Range"; "either::Either"] ->
  match t' with
  | TOption _ => w = "Option" | TSeq _ | TArray _ _ | TTuple _ => w = "" | TSet _ => w = "Set" | TMap _ _ => w = "Map"
  | TResult _ _ => w = "Result" | TBound _ => w = "Bound" | TRange _ => w = "Range" | TEither _ _ => w = "either::Either" | _ => False end.
Proof.
  intros HN HW HI'. assert (HA : is_atom t' -> False) by (intros HA; exact (atom_not t' w HA (eq_sym HW) HI')).
  destruct t'; try exact HW; try (exact (HA I)); try contradiction.
  destruct HN as (HM & _). apply (io_std HI _ HM). cbn [first_word] in HW. rewrite <- HW. cbn in HI' |- *. tauto.
Qed.

Theorem id_readable t : readable t.
Proof.
  induction t using rty_ind'; intros t' r r' HN HN' HR HR' HE; destruct (id_split _ _ _ _ HN HN' HR HR' HE) as [HW HA].
  - assert (HT : is_atom t) by (destruct t; auto). destruct t' as [| | | | | | | | | | |a|a|a|n a|ts'|a b|a b|a|a| | | | |a b|n a| | |a|a|n cs ts'];
      try (exfalso; refine (atom_not t _ HT HW _); cbn; tauto); try contradiction;
      try (rewrite (atom_after t HT) in HA; split; [apply atoms_inj; auto; exact I|exact HA]).
    exfalso. destruct HN' as (HM & _). apply (io_std HI _ HM). cbn [first_word] in HW. rewrite <- HW. apply std_first; auto. now destruct t.
  - cbn [first_word] in HW. pose proof (cases t' _ HN' HW ltac:(cbn; tauto)) as HC. destruct t'; try contradiction; try discriminate.
    cbn [after append] in HA. rewrite !sapp_assoc in HA. injection HA as HA. apply IHt in HA as [<- [= <-]]; auto.
  - cbn [first_word] in HW. pose proof (cases t' _ HN' HW ltac:(cbn; tauto)) as HC. destruct t'; try contradiction; try discriminate.
    + cbn [type_id append] in HE. rewrite !sapp_assoc in HE. injection HE as HE. apply IHt in HE as [<- [= <-]]; auto.
    + exfalso. destruct n.
      * cbn [type_id append] in HE. rewrite !sapp_assoc in HE. injection HE as HE. refine (id_not_stop t "]" _ _ HN _ HE). cbn; auto.
      * cbn [type_id append] in HE. rewrite !sapp_assoc in HE. injection HE as HE. cbn [append] in HE.
        cbn [normal] in HN. rewrite (id_view t HN), sapp_assoc in HE. apply word_split in HE as [_ HE].
        -- pose proof (after_opens t HN) as HO. destruct (after t) as [|a s]; cbn in HE; [discriminate|]. injection HE as -> _.
           cbn in HO. repeat (destruct HO as [HO|HO]; [discriminate|]). destruct HO.
        -- now apply first_is_word.
        -- exact (show_word (S n)).
        -- pose proof (after_opens t HN) as HO. destruct (after t); cbn; auto. now apply opens_special.
        -- reflexivity.
  - cbn [first_word] in HW. pose proof (cases t' _ HN' HW ltac:(cbn; tauto)) as HC. destruct t'; try contradiction; try discriminate.
    cbn [after append] in HA. rewrite !sapp_assoc in HA. injection HA as HA. apply IHt in HA as [<- [= <-]]; auto.
  - cbn [first_word] in HW. pose proof (cases t' _ HN' HW ltac:(cbn; tauto)) as HC. destruct t'; try contradiction; try discriminate.
    + exfalso. destruct n.
      * cbn [type_id append] in HE. rewrite !sapp_assoc in HE. injection HE as HE. symmetry in HE. refine (id_not_stop t' "]" _ _ HN' _ HE). cbn; auto.
      * cbn [type_id append] in HE. rewrite !sapp_assoc in HE. injection HE as HE. cbn [append] in HE.
        cbn [normal] in HN'. rewrite (id_view t' HN'), !sapp_assoc in HE. symmetry in HE. apply word_split in HE as [_ HE].
        -- pose proof (after_opens t' HN') as HO. destruct (after t') as [|a s]; cbn in HE; [discriminate|]. injection HE as -> _.
           cbn in HO. repeat (destruct HO as [HO|HO]; [discriminate|]). destruct HO.
        -- now apply first_is_word.
        -- exact (show_word (S n)).
        -- pose proof (after_opens t' HN') as HO. destruct (after t'); cbn; auto. now apply opens_special.
        -- reflexivity.
    + destruct n as [|n], n0 as [|n0].
      * cbn [normal] in HN, HN'. subst. cbn in HE. injection HE as ->. auto.
      * exfalso. cbn [type_id append] in HE. injection HE as HE. rewrite !sapp_assoc in HE.
        apply (word_split "") in HE as [HE _]; [|reflexivity|exact (show_word (S n0))|reflexivity|reflexivity].
        pose proof (show_nonempty (Z.of_nat (S n0))). cbn [Z.of_nat] in *. congruence.
      * exfalso. cbn [type_id append] in HE. injection HE as HE. rewrite !sapp_assoc in HE. symmetry in HE.
        apply (word_split "") in HE as [HE _]; [|reflexivity|exact (show_word (S n))|reflexivity|reflexivity].
        pose proof (show_nonempty (Z.of_nat (S n))). cbn [Z.of_nat] in *. congruence.
      * cbn [type_id append] in HE. injection HE as HE. rewrite !sapp_assoc in HE.
        apply word_split in HE as [HE1 HE]; [|exact (show_word (S n))|exact (show_word (S n0))|reflexivity|reflexivity].
        apply show_inj in HE1. apply (Nat2Z.inj (S n) (S n0)) in HE1. injection HE1 as <-. cbn [append] in HE. injection HE as HE. rewrite !sapp_assoc in HE. cbn [append] in HE.
        apply IHt in HE as [<- [= <-]]; auto.
    + exfalso. destruct n; discriminate.
  - cbn [first_word] in HW. pose proof (cases t' _ HN' HW ltac:(cbn; tauto)) as HC. destruct t'; try contradiction; try discriminate.
    + exfalso. destruct n; discriminate.
    + cbn [type_id append] in HE. rewrite !sapp_assoc in HE. injection HE as HE. cbn [normal] in HN, HN'. rewrite normal_all in HN, HN'.
      destruct (list_readable ts H ts0 r r' HN HN' HE) as [<- <-]. auto.
  - cbn [first_word] in HW. pose proof (cases t' _ HN' HW ltac:(cbn; tauto)) as HC. destruct t' as [| | | | | | | | | | | | | | | |k' v'| | | | | | | | | | | | | |]; try contradiction; try discriminate.
    destruct HN as [N1 N2]. destruct HN' as [N1' N2']. cbn [after] in HA.
    assert (HS : forall k, normal k -> readable k -> type_id items k = "string" -> k = TStr).
    { intros k HK HRd HS. destruct (HRd TStr "" "" HK I I I) as [-> _]; auto. cbn [type_id]. now rewrite HS. }
    destruct (String.eqb_spec (type_id items t1) "string") as [E1|E1], (String.eqb_spec (type_id items k') "string") as [E2|E2];
      cbn [append] in HA; rewrite !sapp_assoc in HA; injection HA as HA; cbn [append] in HA.
    + apply IHt2 in HA as [<- [= <-]]; auto. split; [|reflexivity]. f_equal. apply IHt1 with (r := "") (r' := ""); cbn; auto. now rewrite E1, E2.
    + exfalso. apply IHt2 in HA as [_ HA]; auto. discriminate.
    + exfalso. apply IHt1 in HA as [_ HA]; auto. discriminate.
    + apply IHt1 in HA as [<- HA]; auto. injection HA as HA. rewrite ?sapp_assoc in HA. cbn [append] in HA. apply IHt2 in HA as [<- [= <-]]; auto.
  - cbn [first_word] in HW. pose proof (cases t' _ HN' HW ltac:(cbn; tauto)) as HC. destruct t'; try contradiction; try discriminate.
    destruct HN as [N1 N2]. destruct HN' as [N1' N2']. cbn [after append] in HA. rewrite !sapp_assoc in HA. injection HA as HA. cbn [append] in HA.
    apply IHt1 in HA as [<- HA]; auto. injection HA as HA. rewrite ?sapp_assoc in HA. cbn [append] in HA. apply IHt2 in HA as [<- [= <-]]; auto.
  - cbn [first_word] in HW. pose proof (cases t' _ HN' HW ltac:(cbn; tauto)) as HC. destruct t'; try contradiction; try discriminate.
    cbn [after append] in HA. rewrite !sapp_assoc in HA. injection HA as HA. apply IHt in HA as [<- [= <-]]; auto.
  - cbn [first_word] in HW. pose proof (cases t' _ HN' HW ltac:(cbn; tauto)) as HC. destruct t'; try contradiction; try discriminate.
    cbn [after append] in HA. rewrite !sapp_assoc in HA. injection HA as HA. apply IHt in HA as [<- [= <-]]; auto.
  - cbn [first_word] in HW. pose proof (cases t' _ HN' HW ltac:(cbn; tauto)) as HC. destruct t'; try contradiction; try discriminate.
    destruct HN as [N1 N2]. destruct HN' as [N1' N2']. cbn [after append] in HA. rewrite !sapp_assoc in HA. injection HA as HA. cbn [append] in HA.
    apply IHt1 in HA as [<- HA]; auto. injection HA as HA. rewrite ?sapp_assoc in HA. cbn [append] in HA. apply IHt2 in HA as [<- [= <-]]; auto.
  - destruct HN.
  - destruct HN.
  - destruct HN.
  - destruct (is_adt t') eqn:EA.
    + destruct t' as [| | | | | | | | | | | | | | | | | | | | | | | | | | | | | |n' cs' ts']; try discriminate. cbn [normal] in HN, HN'.
      rewrite normal_all in HN, HN'. destruct HN as (N1 & N2 & N3 & N4). destruct HN' as (N1' & N2' & N3' & N4').
      cbn [first_word] in HW. apply (io_inj HI) in HW; auto. subst n'. rewrite N2 in N2'. cbn [after] in HA.
      destruct (io_one HI _ N1) as [HO|[HO|HO]]; rewrite HO in *; injection N2 as L1 L2; injection N2' as L1' L2'.
      * destruct cs, ts, cs', ts'; try discriminate. auto.
      * destruct cs; [|discriminate]. destruct ts as [|a [|]]; try discriminate. destruct cs'; [|discriminate]. destruct ts' as [|b [|]]; try discriminate.
        inversion H; subst. inversion N4; subst. inversion N4'; subst. unfold cat in HA. cbn [map app join append] in HA. rewrite !sapp_assoc in HA. injection HA as HA.
        apply H2 in HA as [<- [= <-]]; auto.
      * destruct ts; [|discriminate]. destruct cs as [|a [|]]; try discriminate. destruct ts'; [|discriminate]. destruct cs' as [|b [|]]; try discriminate.
        inversion N3; subst. inversion N3'; subst. unfold cat in HA. cbn [map app join append] in HA. rewrite !sapp_assoc in HA. injection HA as HA.
        apply word_split in HA as [<- [= <-]]; auto; reflexivity.
    + exfalso. destruct HN as (HM & _). apply (io_std HI _ HM). cbn [first_word] in HW. rewrite HW. now apply std_first.
Qed.
End Ids.
