(** * Property theorems about loading XML language documents (C95).
    XLanguage.LoadXMLString, v2/xlanguage.go:89-124; the format is documented in v2/xcore.go:129-162. *)
From Verif Require Import GoBase GoStrings LangModel LangSpec XmlModel XmlSpec XmlProofs6 XmlDocSpec XmlDocProofs XmlDocProofs2 XmlDocProofs3 XmlDocProofs4 XmlDocProofs5 XmlDocProofs6 XmlDocProofs7.

(** C95: a document is loaded: name, language, and the last text and status given to each id; every other entry is kept.
    Attributes other than id and status, their order and quotes, blanks, comments, processing instructions and other elements do not matter. *)
Theorem C95_loads : forall (parse_tag : bytes -> bytes) decode n s d l, faithful decode -> document n s d ->
  exists l', load_xml parse_tag decode l s = (l', true) /\ l_name l' = x_name d /\ l_tag l' = parse_tag (x_lang d) /\
  (forall id, (forall text status, (id, text, status) ∉ x_entries d) ->
     l_entries l' !! id = l_entries l !! id /\ l_status l' !! id = l_status l !! id) /\
  (forall es1 id text status es2, x_entries d = es1 ++ (id, text, status) :: es2 -> (forall text' status', (id, text', status') ∉ es2) ->
     l_entries l' !! id = Some text /\ l_status l' !! id = Some status).
Proof. exact @load_document_only. Qed.
Print Assumptions C95_loads.
Theorem C95_same : forall (parse_tag : bytes -> bytes) decode n n' s s' d l, faithful decode -> document n s d -> document n' s' d ->
  load_xml parse_tag decode l s = load_xml parse_tag decode l s'.
Proof. exact @load_same. Qed.
Print Assumptions C95_same.
(** A text is a document in one way only. *)
Theorem C95_unique : forall n n' s d d', document n s d -> document n' s d' -> d = d'.
Proof. exact document_unique. Qed.
Print Assumptions C95_unique.
(** What GetXML writes is a document. *)
Theorem C95_get_xml : forall l order, header_text l -> (forall kv, kv ∈ order -> entry_text l kv) ->
  exists sorted, sorted ≡ₚ order /\
    document (B "language") (get_xml l order) (XDoc (l_name l) (l_tag l) (map (fun kv => (kv.1, unix kv.2, lget_status l kv.1)) sorted)).
Proof. exact get_xml_document. Qed.
Print Assumptions C95_get_xml.
(** A document that was cut off anywhere is rejected, and the table is left as it was. *)
Theorem C95_truncated : forall (parse_tag : bytes -> bytes) decode l n s x d, faithful decode -> document n (s ++ x) d -> x <> [] ->
  load_xml parse_tag decode l s = (l, false).
Proof. exact @load_truncated. Qed.
Print Assumptions C95_truncated.
(** So is a text with an element that is not closed, or closed by a tag with another name, at any depth. *)
Theorem C95_mismatched : forall (parse_tag : bytes -> bytes) decode l n ns s r u m w rest, faithful decode -> opens (n :: ns) s -> inner r u ->
  xml_name m -> white w -> m <> n -> load_xml parse_tag decode l (s ++ r ++ B "</" ++ m ++ w ++ B ">" ++ rest) = (l, false).
Proof. exact @load_mismatched. Qed.
Print Assumptions C95_mismatched.
Theorem C95_unclosed : forall (parse_tag : bytes -> bytes) decode l n ns s r u, faithful decode -> opens (n :: ns) s -> inner r u ->
  load_xml parse_tag decode l (s ++ r) = (l, false).
Proof. exact @load_unclosed. Qed.
Print Assumptions C95_unclosed.
(** So is a text with another error inside: two dashes in a comment, a "<" or "&" that begins nothing, a tag whose name begins with a digit, a dot or a dash, an attribute without value
    or without quotes, "]]>" in text, at any place inside the outer element and whatever follows. *)
Theorem C95_errors : forall (parse_tag : bytes -> bytes) decode l s t u m rest, faithful decode -> after s -> char_text t u -> wrong m ->
  load_xml parse_tag decode l (s ++ t ++ m ++ rest) = (l, false).
Proof. exact @load_error. Qed.
Print Assumptions C95_errors.
(** So is a text between tags with control characters or bytes that are no UTF-8. *)
Theorem C95_illegal : forall (parse_tag : bytes -> bytes) decode l s r rest, faithful decode -> after s ->
  byte 60 ∉ r -> byte 38 ∉ r -> ~ contains (B "]]>") r -> ~ xml_chars r -> load_xml parse_tag decode l (s ++ r ++ B "<" ++ rest) = (l, false).
Proof. exact @load_illegal. Qed.
Print Assumptions C95_illegal.
Example C95_illegal_case : ~ xml_chars (B "a" ++ [byte 7]) /\ ~ xml_chars [byte 195] /\ ~ xml_chars [byte 237; byte 160; byte 128].
Proof. exact bell_illegal. Qed.
(** The name of the outer element and what follows the document are not checked. *)
Theorem C95_root_refuted : forall (parse_tag : bytes -> bytes) decode n s d l, faithful decode -> n <> B "language" -> document n s d ->
  (load_xml parse_tag decode l s).2 = true.
Proof. intros parse_tag decode n s d l Hf _ H. by destruct (load_trailing parse_tag decode n s d [] l Hf H). Qed.
Print Assumptions C95_root_refuted.
Theorem C95_trailing_refuted : forall (parse_tag : bytes -> bytes) decode n s d rest l, faithful decode -> document n s d ->
  load_xml parse_tag decode l (s ++ rest) = load_xml parse_tag decode l s /\ (load_xml parse_tag decode l s).2 = true.
Proof. exact @load_trailing. Qed.
Print Assumptions C95_trailing_refuted.

Example C95_case : document (B "language") C95_text (XDoc (B "t") (B "en") [(B "a", B "1 < 2", [])]).
Proof. exact text_document. Qed.
Example C95_read : reader C95_text = Some (XDoc (B "t") (B "en") [(B "a", B "1 < 2", [])]) /\
  reader (B "<html id=""x""/> and more <<<") = Some (XDoc (B "x") [] []).
Proof. vm_compute. split; reflexivity. Qed.
Example C95_rejected : unmarshal (B "<language><entry id=""x"">y</entry></language") = XErr /\ unmarshal (B "<language><entry id=""x"">y</entri></language>") = XErr /\
  unmarshal (B "<language><entry id=""x"">y</language>") = XErr.
Proof. vm_compute. split_and!; reflexivity. Qed.
Example C95_opens : opens [B "b"; B "language"] (B "<language> <b>") /\ xml_name (B "c").
Proof.
  assert (N : forall w, (match w with c :: w' => bool_decide (c ∈ letters) && forallb (fun c => bool_decide (c ∈ letters ++ B "0123456789.-")) w' | [] => false end) = true -> xml_name w)
    by exact name_by_letters.
  assert (W : white []) by constructor. split; [|by apply N].
  exact (op_more [B "language"] (B "<language>") (B " ") (B " ") (B "b") [] [] []
    (op_root [] [] (B "language") [] [] [] de_none (pr_white [] W) (N (B "language") eq_refl) at_nil W)
    (in_text _ _ (white_chars (B " ") (white_dec (B " ") eq_refl))) (N (B "b") eq_refl) at_nil W).
Qed.
Example C95_wrong : after (B "<a>") /\ wrong (B "<!-- x --y") /\ wrong (B "&amp ") /\ wrong (B "&nbsp;") /\ wrong (B "< ") /\ wrong (B "<b c>") /\ wrong (B "<b c=d") /\ wrong (B "<b c='<") /\ wrong (B "<1st>").
Proof. exact wrong_cases. Qed.
Example C95_wrong_read : map reader [B "<a>x<!-- x --y --></a>"; B "<a>x&amp </a>"; B "<a>&nbsp;</a>"; B "<a>1 < 2</a>"; B "<a><b c></b></a>"; B "<a><b c=d/></a>"; B "<a><b c='<'/></a>"; B "<a>]]></a>"] = replicate 8 None.
Proof. vm_compute. reflexivity. Qed.
