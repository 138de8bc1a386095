(** * Language documents in XML (C95): what is written, independently of the reader.

    The subset of XML 1.0 without document types, namespaces and names above ASCII; the only XML declaration is the
    documented one (v2/xcore.go:131), with or without a blank before its end. *)
From Verif Require Import GoBase GoStrings LangModel XmlModel XmlSpec.
Local Open Scope Z_scope.

Definition white (s : bytes) : Prop := Forall (fun c => c ∈ [byte 32; byte 9; byte 10; byte 13]) s.
Definition letters : bytes := B "abcdefghijklmnopqrstuvwxyzABCDEFGHIJKLMNOPQRSTUVWXYZ_".
Definition xml_name (w : bytes) : Prop := exists c w', w = c :: w' /\ c ∈ letters /\ Forall (fun c => c ∈ letters ++ B "0123456789.-") w'.

(** ** Text: runs of bytes that are written as they are, and references *)
Definition digit (base : Z) (c : ascii) (d : Z) : Prop :=
  0 <= d < base /\ (B "0123456789abcdef" !! Z.to_nat d = Some c \/ B "0123456789ABCDEF" !! Z.to_nat d = Some c).
Inductive numeral (base : Z) : bytes -> Z -> Prop :=
  | nu_one c d : digit base c d -> numeral base [c] d
  | nu_more ds n c d : numeral base ds n -> digit base c d -> numeral base (ds ++ [c]) (base * n + d).
Inductive reference : bytes -> bytes -> Prop :=
  | re_lt : reference (B "&lt;") (B "<")
  | re_gt : reference (B "&gt;") (B ">")
  | re_amp : reference (B "&amp;") (B "&")
  | re_apos : reference (B "&apos;") (B "'")
  | re_quot : reference (B "&quot;") (B """")
  | re_dec ds n : numeral 10 ds n -> xml_char n -> reference (B "&#" ++ ds ++ B ";") (utf8 n)
  | re_hex ds n : numeral 16 ds n -> xml_char n -> reference (B "&#x" ++ ds ++ B ";") (utf8 n).
Definition run (q : option ascii) (r : bytes) : Prop := xml_chars r /\ byte 60 ∉ r /\ byte 38 ∉ r /\ forall c, q = Some c -> c ∉ r.
(** [s] stands for the text [u]; line ends as an XML reader delivers them. *)
Inductive spells (q : option ascii) : bytes -> bytes -> Prop :=
  | sp_run r : run q r -> spells q r (unix r)
  | sp_ref r a t s u : run q r -> reference a t -> spells q s u -> spells q (r ++ a ++ s) (unix r ++ t ++ u).

(** ** Attributes *)
Inductive attrs_text : list (bytes * bytes) -> bytes -> Prop :=
  | at_nil : attrs_text [] []
  | at_cons w1 n w2 w3 q s v al r : white w1 -> w1 <> [] -> xml_name n -> n <> B "xmlns" -> white w2 -> white w3 -> q = byte 34 \/ q = byte 39 ->
      spells (Some q) s v -> n ∉ map fst al -> attrs_text al r ->
      attrs_text ((n, v) :: al) (w1 ++ n ++ w2 ++ B "=" ++ w3 ++ [q] ++ s ++ [q] ++ r).
(** The value of an attribute; empty if it is not given. *)
Definition given (al : list (bytes * bytes)) (k v : bytes) : Prop := (k, v) ∈ al \/ k ∉ map fst al /\ v = [].

(** ** Markup that stands for nothing *)
Inductive remark : bytes -> Prop :=
  | rm_comment c : ~ contains (B "--") (c ++ B "-") -> remark (B "<!--" ++ c ++ B "-->")
  | rm_proc w ws d : xml_name w -> w <> B "xml" -> white ws -> (ws = [] -> d = []) -> ~ contains (B "?>") d -> remark (B "<?" ++ w ++ ws ++ d ++ B "?>").

(** ** Content: [inner s u]: [s] is balanced content whose own text (not that of elements inside) is [u]. *)
Definition char_text (s u : bytes) : Prop := spells None s u /\ ~ contains (B "]]>") s.
Inductive inner : bytes -> bytes -> Prop :=
  | in_text s u : char_text s u -> inner s u
  | in_more s u m v r w : char_text s u -> markup m v -> inner r w -> inner (s ++ m ++ r) (u ++ v ++ w)
with markup : bytes -> bytes -> Prop :=
  | mk_cdata v : value_text v -> markup (B "<![CDATA[" ++ v ++ B "]]>") (unix v)
  | mk_remark m : remark m -> markup m []
  | mk_elem n al m u : element n al m u -> markup m []
(** [element n al m u]: [m] is an element named [n] with the attributes [al] and the own text [u]. *)
with element : bytes -> list (bytes * bytes) -> bytes -> bytes -> Prop :=
  | el_open n al a w1 r u w2 : xml_name n -> attrs_text al a -> white w1 -> inner r u -> white w2 ->
      element n al (B "<" ++ n ++ a ++ w1 ++ B ">" ++ r ++ B "</" ++ n ++ w2 ++ B ">") u
  | el_empty n al a w1 : xml_name n -> attrs_text al a -> white w1 -> element n al (B "<" ++ n ++ a ++ w1 ++ B "/>") [].

(** ** Documents: name, language, and (id, text, status) of the entries in order. *)
Inductive body : bytes -> list (bytes * bytes * bytes) -> Prop :=
  | bo_text s u : char_text s u -> body s []
  | bo_cdata s u v r es : char_text s u -> value_text v -> body r es -> body (s ++ (B "<![CDATA[" ++ v ++ B "]]>") ++ r) es
  | bo_remark s u m r es : char_text s u -> remark m -> body r es -> body (s ++ m ++ r) es
  | bo_other s u n al m v r es : char_text s u -> element n al m v -> n <> B "entry" -> body r es -> body (s ++ m ++ r) es
  | bo_entry s u al m v id st r es : char_text s u -> element (B "entry") al m v -> given al (B "id") id -> given al (B "status") st -> body r es ->
      body (s ++ m ++ r) ((id, v, st) :: es).
Inductive prolog : bytes -> Prop :=
  | pr_white s : white s -> prolog s
  | pr_more s m r : white s -> remark m -> prolog r -> prolog (s ++ m ++ r).
Inductive declaration : bytes -> Prop :=
  | de_none : declaration []
  | de_tight : declaration (B "<?xml version=""1.0"" encoding=""UTF-8""?>")
  | de_loose : declaration (B "<?xml version=""1.0"" encoding=""UTF-8"" ?>").
(** The element that holds the table, named [n]. *)
Inductive document (n : bytes) : bytes -> xdoc -> Prop :=
  | do_open de p al a w1 r es w2 name tag : declaration de -> prolog p -> xml_name n -> attrs_text al a -> white w1 -> body r es -> white w2 ->
      given al (B "id") name -> given al (B "lang") tag ->
      document n (de ++ p ++ B "<" ++ n ++ a ++ w1 ++ B ">" ++ r ++ B "</" ++ n ++ w2 ++ B ">") (XDoc name tag es)
  | do_empty de p al a w1 name tag : declaration de -> prolog p -> xml_name n -> attrs_text al a -> white w1 ->
      given al (B "id") name -> given al (B "lang") tag ->
      document n (de ++ p ++ B "<" ++ n ++ a ++ w1 ++ B "/>") (XDoc name tag []).

(** ** Texts that are not finished: after [s] the elements [ns] are open, innermost first; [s] ends with the start tag of the innermost. *)
Inductive opens : list bytes -> bytes -> Prop :=
  | op_root de p n al a w1 : declaration de -> prolog p -> xml_name n -> attrs_text al a -> white w1 ->
      opens [n] (de ++ p ++ B "<" ++ n ++ a ++ w1 ++ B ">")
  | op_more ns s r u n al a w1 : opens ns s -> inner r u -> xml_name n -> attrs_text al a -> white w1 ->
      opens (n :: ns) (s ++ r ++ B "<" ++ n ++ a ++ w1 ++ B ">").

(** ** Errors in the middle.  [after s]: [s] ends, inside an open element, with a tag or other markup. *)
Inductive after : bytes -> Prop :=
  | af_open n ns s : opens (n :: ns) s -> after s
  | af_more n ns s r u m v : opens (n :: ns) s -> inner r u -> markup m v -> after (s ++ r ++ m).
(** Bytes that cannot be part of a name. *)
Definition separators : bytes := B " !""$%()*,+;<=>?@[]^`{|}~/\'&" ++ [byte 9; byte 10; byte 13].
(** An ampersand that does not begin a reference. *)
Inductive loose_ampersand : bytes -> Prop :=
  | la_name w c : Forall (fun c => c ∈ letters ++ B "0123456789.-") w -> c ∈ separators -> c <> ";"%char -> loose_ampersand (B "&" ++ w ++ [c])
  | la_unknown w : Forall (fun c => c ∈ letters ++ B "0123456789.-") w -> w ∉ [B "lt"; B "gt"; B "amp"; B "apos"; B "quot"] -> loose_ampersand (B "&" ++ w ++ B ";").
(** The beginning of a start tag up to the name of an attribute. *)
Inductive attr_begun : bytes -> Prop :=
  | ab n al a w k w' : xml_name n -> attrs_text al a -> white w -> w <> [] -> xml_name k -> white w' -> attr_begun (B "<" ++ n ++ a ++ w ++ k ++ w').
Inductive wrong : bytes -> Prop :=
  | wr_dashes c x : ~ contains (B "--") (c ++ B "-") -> x <> ">"%char -> wrong (B "<!--" ++ c ++ B "--" ++ [x])
  | wr_tag_name c : c ∈ separators -> c ∉ B "/!?" -> wrong (B "<" ++ [c])
  | wr_no_equals b c : attr_begun b -> c ∈ separators -> c <> "="%char -> ~ white [c] -> wrong (b ++ [c])
  | wr_no_quote b w c : attr_begun b -> white w -> ~ white [c] -> c <> byte 34 -> c <> byte 39 -> wrong (b ++ B "=" ++ w ++ [c])
  | wr_value_less b w q s v : attr_begun b -> white w -> q = byte 34 \/ q = byte 39 -> spells (Some q) s v -> wrong (b ++ B "=" ++ w ++ [q] ++ s ++ B "<")
  | wr_value_amp b w q s v a : attr_begun b -> white w -> q = byte 34 \/ q = byte 39 -> spells (Some q) s v -> loose_ampersand a ->
      wrong (b ++ B "=" ++ w ++ [q] ++ s ++ a)
  | wr_amp a : loose_ampersand a -> wrong a
  | wr_brackets : wrong (B "]]>")
  | wr_tag_digit c w x : c ∈ B "0123456789.-" -> Forall (fun c => c ∈ letters ++ B "0123456789.-") w -> x ∈ separators -> wrong (B "<" ++ [c] ++ w ++ [x]).
