(** * Writing templates: the text of given words. *)
From Verif Require Import GoBase TemplateModel TemplateSpec.

Definition newline : bytes := [ascii_of_nat 10].
(** The source of a word, with a line break after comments and box marks. *)
Definition source (t : token) : bytes :=
  match t with
  | TText s => s
  | TComment s => B "%--" ++ s ++ B "--%" ++ newline
  | TLang s => B "##" ++ s ++ B "##"
  | TRef s => B "&&" ++ s ++ B "&&"
  | TRange s => B "@@" ++ s ++ B "@@"
  | TCond s => B "??" ++ s ++ B "??"
  | TDump s => B "!!" ++ s ++ B "!!"
  | TVar s => B "{{" ++ s ++ B "}}"
  | TOpen s => B "[[" ++ s ++ B "]]" ++ newline
  | TClose => B "[[]]" ++ newline
  end.
Definition page (l : list token) : bytes := concat (map source l).
(** Words that can be written: names of the right characters, texts without the marks that open
    an element, comments that do not contain their end. *)
Definition writable (t : token) : Prop :=
  match t with
  | TText s => s <> [] /\ no_mark s
  | TComment s => forall a b, s <> a ++ B "--%" ++ b
  | TLang s => s <> [] /\ Forall entry_char s
  | TRef s | TRange s | TCond s | TDump s | TVar s => s <> [] /\ Forall field_char s
  | TOpen s => s <> [] /\ Forall name_char s
  | TClose => True
  end.
(** No two texts side by side. *)
Definition apart (l : list token) : Prop := forall a x y b, l <> a ++ TText x :: TText y :: b.

(** Trees of words and boxes. *)
Inductive node := Word (t : token) | Part (name : bytes) (body : list node).
Fixpoint node_words (n : node) : list token :=
  match n with Word t => [t] | Part nm body => TOpen nm :: flat_map node_words body ++ [TClose] end.
Definition words (ns : list node) : list token := flat_map node_words ns.
Inductive proper : node -> Prop :=
| pr_word t : (forall n, t <> TOpen n) -> t <> TClose -> proper (Word t)
| pr_part nm body : (forall n, n ∈ body -> proper n) -> proper (Part nm body).
(** The tree of a compiled template, without the objects. *)
Fixpoint node_of (i : item) : node :=
  match i with Leaf t => Word t | Box _ nm body => Part nm (map node_of body) end.

(** Any text as words: its characters, with an empty comment after each. *)
Definition escaped (s : bytes) : list token := flat_map (fun c => [TText [c]; TComment []]) s.
