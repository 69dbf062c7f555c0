(** Property theorems C39, C40: doc comments and literal patterns. *)
From Coq Require Import String Ascii List Bool Arith NArith.
From Verif Require Import Utf8 RegexSyntax RegexProofs Rustdoc RustdocProofs.
Import ListNotations.
Open Scope string_scope.

(** C39. No panic on any UTF-8 text; title and description are trimmed, the title is one line, and
    the comment is the two of them plus "#"s and white space. *)
Theorem C39_split : forall doc, utf8_valid doc = true ->
  exists title desc, get_title_and_description doc = Some (title, desc) /\ split_doc doc title desc.
Proof. exact split_ok. Qed.
Print Assumptions C39_split.

(** What counts as white space there ([is_ws]): space, tab, line feed, form feed, carriage return *)
Theorem C39_white_space : forall a, is_ws a = true <-> In a [" "; "009"; "010"; "012"; "013"]%char.
Proof.
  intros a. split; [|intros H; repeat (destruct H as [<-|H]; [reflexivity|]); destruct H].
  destruct a as [[] [] [] [] [] [] [] []]; cbn; intros H; try discriminate H; auto 6.
Qed.
Print Assumptions C39_white_space.

Definition nl : string := String "010" "".
Example C39_example :
  get_title_and_description (" # A title" ++ nl ++ nl ++ "Some é text." ++ nl)
  = Some ("A title", "Some é text.")
  /\ get_title_and_description "just # text" = Some ("", "just # text")
  /\ utf8_valid (" # A title" ++ nl ++ nl ++ "Some é text." ++ nl) = true.
Proof. repeat split; vm_compute; reflexivity. Qed.

(** C40. The pattern of contains(text) is a valid regular expression that is found in exactly the
    strings that contain the text. *)
Theorem C40_contains : forall text, exists r, read_pattern (escape text) = Some r
  /\ forall s, searches r s <-> exists pre post, s = pre ++ text ++ post.
Proof. intros text. exists (lit text). split; [apply read_escape|]. intros s. apply search_lit. Qed.
Print Assumptions C40_contains.

Theorem C40_injective : forall s t, escape s = escape t -> s = t.
Proof. exact escape_inj. Qed.
Print Assumptions C40_injective.

(** It is also valid in unicode mode, unless the text has one of # & - ~, *)
Theorem C40_unicode_partial : forall s,
  (forall c, In c (list_ascii_of_string s) -> In c ["#"; "&"; "-"; "~"]%char -> False) ->
  unicode_ok (escape s) = true.
Proof. exact unicode_escape. Qed.
Print Assumptions C40_unicode_partial.

(** which are escaped although ECMA-262 does not allow it there (JSON Schema recommends reading
    patterns in unicode mode). *)
Theorem C40_unicode_refuted : exists s, unicode_ok (escape s) = false.
Proof. exists "a-b". reflexivity. Qed.
Print Assumptions C40_unicode_refuted.

(** The reader is not trivial: unescaped, "." is an operator. *)
Example C40_example : escape "1.5 (approx)" = "1\.5 \(approx\)"
  /\ unicode_ok (escape "1.5 (approx)") = true
  /\ read_pattern "1.5" = Some (RCat (RChar "1") (RCat RAny (RCat (RChar "5") REmpty))).
Proof. repeat split; vm_compute; reflexivity. Qed.
