(** * Property theorems about the XML form of XLanguage (C43, C44). *)
From Verif Require Import GoBase GoStrings LangModel XmlModel XmlSpec XmlProofs6.

(** C43: a document written by GetXML, in any iteration order, is read back; the line ends of
    the values are those an XML reader delivers. *)
Theorem C43_xml_round_trip : forall parse_tag decode l order l0,
  faithful decode -> order_of (l_entries l) order -> parse_tag (l_tag l) = l_tag l -> header_text l ->
  (forall k v, l_entries l !! k = Some v -> entry_text l (k, v)) ->
  exists l', load_xml parse_tag decode l0 (get_xml l order) = (l', true) /\ loaded l0 l unix l'.
Proof. exact @xml_round_trip. Qed.
Print Assumptions C43_xml_round_trip.
(** Without carriage returns, into a new table: the same table, and the same document again. *)
Theorem C43_xml_same : forall parse_tag decode l order,
  faithful decode -> order_of (l_entries l) order -> parse_tag (l_tag l) = l_tag l -> header_text l ->
  (forall k v, l_entries l !! k = Some v -> entry_text l (k, v) /\ cr ∉ v) ->
  exists l', load_xml parse_tag decode (new_lang [] []) (get_xml l order) = (l', true) /\
    l_name l' = l_name l /\ l_tag l' = l_tag l /\ l_entries l' = l_entries l /\
    (forall k v, l_entries l !! k = Some v -> lget_status l' k = lget_status l k) /\
    (forall order', order_of (l_entries l') order' -> get_xml l' order' = get_xml l order).
Proof. exact @xml_same. Qed.
Print Assumptions C43_xml_same.
(** The reader of the model is one. *)
Theorem C43_reader : faithful reader.
Proof. exact reader_faithful. Qed.
Print Assumptions C43_reader.
Example C43_two : read_back [(B "hello", B "<b>Hello</b> & ""welcome"" ]] >"); (B "bye", B "Goodbye]")] =
  Some [(B "bye", B "Goodbye]"); (B "hello", B "<b>Hello</b> & ""welcome"" ]] >")].
Proof. vm_compute. reflexivity. Qed.
Example C43_none : read_back [] = Some [].
Proof. vm_compute. reflexivity. Qed.
Example C43_status :
  unmarshal (get_xml (lset_status (lset (new_lang (B "n") (B "es")) (B "k") (B "v")) (B "k") (B "done")) [(B "k", B "v")]) =
  XOk (XDoc (B "n") (B "es") [(B "k", B "v", B "done")]).
Proof. vm_compute. reflexivity. Qed.

(** C44: a value with "]]>" and no further markup: the document is rejected. *)
Theorem C44_value_malformed_refuted : forall parse_tag decode l order l0,
  faithful decode -> order_of (l_entries l) order -> header_text l -> forall k v1 v2,
  l_entries l !! k = Some (v1 ++ B "]]>" ++ v2) -> others_text l k -> attr_text k -> attr_text (lget_status l k) ->
  ~ contains (B "]]>") v1 -> byte 60 ∉ v2 -> byte 38 ∉ v2 ->
  load_xml parse_tag decode l0 (get_xml l order) = (l0, false).
Proof. exact @value_malformed. Qed.
Print Assumptions C44_value_malformed_refuted.
Example C44_malformed : unmarshal (xml_of [(B "k", B "a]]>b")]) = XErr.
Proof. vm_compute. reflexivity. Qed.
(** A value with "]]><![CDATA[": read without an error, as another value. *)
Theorem C44_value_changed_refuted : forall parse_tag decode l order l0,
  faithful decode -> order_of (l_entries l) order -> header_text l -> parse_tag (l_tag l) = l_tag l -> forall k v1 v2,
  l_entries l !! k = Some (v1 ++ B "]]><![CDATA[" ++ v2) -> others_text l k -> attr_text k -> attr_text (lget_status l k) ->
  value_text v1 -> value_text v2 ->
  exists l', load_xml parse_tag decode l0 (get_xml l order) = (l', true) /\ lget l' k = unix v1 ++ unix v2 /\
    forall k' v', k' <> k -> l_entries l !! k' = Some v' -> lget l' k' = unix v'.
Proof. exact @value_seam. Qed.
Print Assumptions C44_value_changed_refuted.
Example C44_changed : read_back [(B "k", B "a]]><![CDATA[b")] = Some [(B "k", B "ab")].
Proof. vm_compute. reflexivity. Qed.
(** A value can write an entry of its choice. *)
Theorem C44_value_injects_refuted : forall parse_tag decode l order l0,
  faithful decode -> order_of (l_entries l) order -> header_text l -> parse_tag (l_tag l) = l_tag l -> forall k v1 k2 s2 v2,
  l_entries l !! k = Some (v1 ++ inject k2 s2 ++ v2) -> others_text l k -> attr_text k -> attr_text (lget_status l k) ->
  value_text v1 -> attr_text k2 -> attr_text s2 -> value_text v2 -> l_entries l !! k2 = None ->
  exists l', load_xml parse_tag decode l0 (get_xml l order) = (l', true) /\ lget l' k = unix v1 /\
    lget l' k2 = unix v2 /\ lget_status l' k2 = s2 /\
    forall k' v', k' <> k -> l_entries l !! k' = Some v' -> lget l' k' = unix v'.
Proof. exact @value_inject. Qed.
Print Assumptions C44_value_injects_refuted.
Example C44_injects : read_back [(B "k", B "a]]></entry><entry id=""admin"" status=""""><![CDATA[yes")] = Some [(B "k", B "a"); (B "admin", B "yes")].
Proof. vm_compute. reflexivity. Qed.
(** A value that is not made of XML characters: the document is rejected. *)
Theorem C44_value_not_xml_refuted : forall parse_tag decode l order l0,
  faithful decode -> order_of (l_entries l) order -> header_text l -> forall k v,
  l_entries l !! k = Some v -> others_text l k -> attr_text k -> attr_text (lget_status l k) ->
  ~ contains (B "]]>") v -> ~ xml_chars v ->
  load_xml parse_tag decode l0 (get_xml l order) = (l0, false).
Proof. exact @value_not_xml. Qed.
Print Assumptions C44_value_not_xml_refuted.
Example C44_control : unmarshal (xml_of [(B "k", [byte 7])]) = XErr.
Proof. vm_compute. reflexivity. Qed.
(** Keys with a quote, "<" or "&". *)
Theorem C44_key_quote_refuted : forall parse_tag decode l order l0,
  faithful decode -> order_of (l_entries l) order -> header_text l -> forall k a b v,
  l_entries l !! k = Some v -> others_text l k -> k = a ++ byte 34 :: b -> attr_text a -> byte 61 ∉ b -> byte 62 ∉ b ->
  load_xml parse_tag decode l0 (get_xml l order) = (l0, false).
Proof. exact @key_quote. Qed.
Print Assumptions C44_key_quote_refuted.
Theorem C44_key_lt_refuted : forall parse_tag decode l order l0,
  faithful decode -> order_of (l_entries l) order -> header_text l -> forall k a b v,
  l_entries l !! k = Some v -> others_text l k -> k = a ++ byte 60 :: b -> attr_text a ->
  load_xml parse_tag decode l0 (get_xml l order) = (l0, false).
Proof. exact @key_lt. Qed.
Print Assumptions C44_key_lt_refuted.
Theorem C44_key_amp_refuted : forall parse_tag decode l order l0,
  faithful decode -> order_of (l_entries l) order -> header_text l -> forall k a b v,
  l_entries l !! k = Some v -> others_text l k -> k = a ++ byte 38 :: b -> attr_text a -> byte 59 ∉ b ->
  load_xml parse_tag decode l0 (get_xml l order) = (l0, false).
Proof. exact @key_amp. Qed.
Print Assumptions C44_key_amp_refuted.
Example C44_keys : map (fun k => unmarshal (xml_of [(k, B "v")])) [B "say ""hi"""; B "a<b"; B "R&D"] = [XErr; XErr; XErr].
Proof. vm_compute. reflexivity. Qed.
Example C44_key_changed : read_back [(B "R&amp;D", B "v")] = Some [(B "R&D", B "v")] /\
  read_back [(B "a"" id=""b", B "v")] = Some [(B "b", B "v")].
Proof. vm_compute. split; reflexivity. Qed.
