(** * What can be written in an XML document: the vocabulary of the GetXML theorems. *)
From Verif Require Import GoBase GoStrings LangModel XmlModel.
Local Open Scope Z_scope.

(** The characters of XML 1.0, and texts made of their UTF-8 encodings. *)
Definition xml_char (n : Z) : Prop :=
  n = 9 \/ n = 10 \/ n = 13 \/ 32 <= n <= 55295 \/ 57344 <= n <= 65533 \/ 65536 <= n <= 1114111.
Definition xml_chars (s : bytes) : Prop := exists cs, Forall xml_char cs /\ s = concat (map utf8 cs).

Definition contains (p s : bytes) : Prop := exists a c, s = a ++ p ++ c.
Definition cr : ascii := byte 13.

(** Fit for the inside of an attribute: no quote, no markup, no carriage return. *)
Definition attr_text (s : bytes) : Prop :=
  xml_chars s /\ byte 34 ∉ s /\ byte 60 ∉ s /\ byte 38 ∉ s /\ cr ∉ s.
(** Fit for the inside of a CDATA section. *)
Definition value_text (s : bytes) : Prop := xml_chars s /\ ~ contains (B "]]>") s.

(** Line ends as an XML reader delivers them. *)
Fixpoint unix (s : bytes) : bytes :=
  match s with
  | [] => []
  | a :: s1 => if ascii_dec a cr
               then lf :: match s1 with b :: s2 => if ascii_dec b lf then unix s2 else unix s1 | [] => [] end
               else a :: unix s1
  end.

(** A table that GetXML writes faithfully, entry by entry. *)
Definition entry_text (l : lang) (kv : bytes * bytes) : Prop :=
  attr_text kv.1 /\ attr_text (lget_status l kv.1) /\ value_text kv.2.
Definition header_text (l : lang) : Prop := attr_text (l_name l) /\ attr_text (l_tag l).
(** All entries but that of [k] are fit. *)
Definition others_text (l : lang) (k : bytes) : Prop :=
  forall k' v', k' <> k -> l_entries l !! k' = Some v' -> entry_text l (k', v').

(** [l'] is [l0] with the name, the tag and the entries of [l], the values passed through [f],
    and the statuses of those entries. *)
Definition loaded (l0 l : lang) (f : bytes -> bytes) (l' : lang) : Prop :=
  l_name l' = l_name l /\ l_tag l' = l_tag l /\
  (forall k, l_entries l' !! k = match l_entries l !! k with Some v => Some (f v) | None => l_entries l0 !! k end) /\
  (forall k, lget_status l' k = match l_entries l !! k with Some _ => lget_status l k | None => lget_status l0 k end).

(** A piece of text that closes an entry and opens another. *)
Definition inject (k s : bytes) : bytes := B "]]></entry><entry id=""" ++ k ++ B """ status=""" ++ s ++ B """><![CDATA[".
