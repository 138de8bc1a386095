(** * Loading documents; GetXML writes documents (C95). *)
From Verif Require Import GoBase GoStrings LangModel LangSpec LangProofs LangProofs2 XmlModel XmlSpec XmlProofs XmlProofs2 XmlProofs3 XmlProofs6 XmlDocSpec XmlDocProofs XmlDocProofs2.

Lemma document_unique n n' s d d' : document n s d -> document n' s d' -> d = d'.
Proof. intros H1%(unmarshal_document _ _ _ []) H2%(unmarshal_document _ _ _ []). congruence. Qed.
Lemma decode_document decode n s d rest : faithful decode -> document n s d -> decode (s ++ rest) = Some d.
Proof. intros Hf H. specialize (Hf (s ++ rest)). by rewrite (unmarshal_document n s d rest H) in Hf. Qed.
Lemma load_document (parse_tag : bytes -> bytes) decode n s d rest l : faithful decode -> document n s d ->
  exists l', load_xml parse_tag decode l (s ++ rest) = (l', true) /\ l_name l' = x_name d /\ l_tag l' = parse_tag (x_lang d) /\
  (forall id, (forall text status, (id, text, status) ∉ x_entries d) ->
     l_entries l' !! id = l_entries l !! id /\ l_status l' !! id = l_status l !! id) /\
  (forall es1 id text status es2, x_entries d = es1 ++ (id, text, status) :: es2 -> (forall text' status', (id, text', status') ∉ es2) ->
     l_entries l' !! id = Some text /\ l_status l' !! id = Some status).
Proof. intros Hf H. apply load_xml_overlay. by eapply decode_document. Qed.
Lemma load_document_only (parse_tag : bytes -> bytes) decode n s d l : faithful decode -> document n s d ->
  exists l', load_xml parse_tag decode l s = (l', true) /\ l_name l' = x_name d /\ l_tag l' = parse_tag (x_lang d) /\
  (forall id, (forall text status, (id, text, status) ∉ x_entries d) ->
     l_entries l' !! id = l_entries l !! id /\ l_status l' !! id = l_status l !! id) /\
  (forall es1 id text status es2, x_entries d = es1 ++ (id, text, status) :: es2 -> (forall text' status', (id, text', status') ∉ es2) ->
     l_entries l' !! id = Some text /\ l_status l' !! id = Some status).
Proof. intros Hf H. pose proof (load_document parse_tag decode n s d [] l Hf H) as K. by rewrite app_nil_r in K. Qed.
Lemma load_same (parse_tag : bytes -> bytes) decode n n' s s' d l : faithful decode -> document n s d -> document n' s' d ->
  load_xml parse_tag decode l s = load_xml parse_tag decode l s'.
Proof.
  intros Hf H1 H2. unfold load_xml. pose proof (decode_document decode n s d [] Hf H1) as E1. pose proof (decode_document decode n' s' d [] Hf H2) as E2.
  rewrite app_nil_r in E1, E2. by rewrite E1, E2.
Qed.
Lemma load_trailing (parse_tag : bytes -> bytes) decode n s d rest l : faithful decode -> document n s d ->
  load_xml parse_tag decode l (s ++ rest) = load_xml parse_tag decode l s /\ (load_xml parse_tag decode l s).2 = true.
Proof.
  intros Hf H. unfold load_xml. rewrite (decode_document decode n s d rest Hf H). pose proof (decode_document decode n s d [] Hf H) as E. rewrite app_nil_r in E. by rewrite E.
Qed.

(** ** GetXML *)
Lemma attr_spells v : attr_text v -> spells (Some (byte 34)) v v.
Proof.
  intros (Hx & Hq & Hlt & Ham & Hcr). rewrite <- (unix_no_cr v Hcr) at 2. constructor. split_and!; [done..|]. intros c [= <-]. done.
Qed.
Lemma name_by_letters w : (match w with c :: w' => bool_decide (c ∈ letters) && forallb (fun c => bool_decide (c ∈ letters ++ B "0123456789.-")) w' | [] => false end) = true -> xml_name w.
Proof.
  destruct w as [|c w]; [done|]. intros [H1%bool_decide_eq_true H2]%andb_prop. exists c, w. split_and!; [done..|].
  apply Forall_forall. intros x Hx. rewrite forallb_forall in H2. specialize (H2 x (proj1 (elem_of_list_In _ _) Hx)). by apply bool_decide_eq_true in H2.
Qed.
Lemma plain_text s : xml_chars s -> byte 60 ∉ s -> byte 38 ∉ s -> ~ contains (B "]]>") s -> char_text s (unix s).
Proof. intros. split; [|done]. constructor. split_and!; done. Qed.
Lemma white_dec s : forallb (fun c => bool_decide (c ∈ [byte 32; byte 9; byte 10; byte 13])) s = true -> white s.
Proof. intros H. apply Forall_forall. intros x Hx. rewrite forallb_forall in H. specialize (H x (proj1 (elem_of_list_In _ _) Hx)). by apply bool_decide_eq_true in H. Qed.
Lemma empty_text : char_text [] [].
Proof. apply (white_chars []). constructor. Qed.
Lemma two_attrs n1 v1 n2 v2 : xml_name n1 -> xml_name n2 -> n1 <> B "xmlns" -> n2 <> B "xmlns" -> n1 <> n2 -> attr_text v1 -> attr_text v2 ->
  attrs_text [(n1, v1); (n2, v2)] (B " " ++ n1 ++ B "=""" ++ v1 ++ B """ " ++ n2 ++ B "=""" ++ v2 ++ B """").
Proof.
  intros H1 H2 Hx1 Hx2 Hne Hv1 Hv2.
  assert (A2 : attrs_text [(n2, v2)] (B " " ++ n2 ++ B "=""" ++ v2 ++ B """")).
  { apply (at_cons (B " ") n2 [] [] (byte 34) v2 v2 [] []); try done; [by apply white_dec|constructor|constructor|by left|by apply attr_spells|by apply not_elem_of_nil|constructor]. }
  apply (at_cons (B " ") n1 [] [] (byte 34) v1 v1 [(n2, v2)] _); try done; [by apply white_dec|constructor|constructor|by left|by apply attr_spells|].
  intros K. simpl in K. by apply elem_of_list_singleton in K.
Qed.
Lemma entry_element k st v : attr_text k -> attr_text st -> value_text v -> element (B "entry") [(B "id", k); (B "status", st)] (ent k st v) (unix v).
Proof.
  intros Hk Hs Hv.
  pose proof (two_attrs (B "id") k (B "status") st (name_by_letters (B "id") eq_refl) (name_by_letters (B "status") eq_refl) ltac:(done) ltac:(done) ltac:(done) Hk Hs) as Ha.
  assert (Hi : inner (B "<![CDATA[" ++ v ++ B "]]>") (unix v)).
  { pose proof (in_more [] [] _ _ [] [] empty_text (mk_cdata v Hv) (in_text [] [] empty_text)) as H. cbn [app] in H. by rewrite !app_nil_r in H. }
  pose proof (el_open (B "entry") _ _ [] _ _ [] (name_by_letters (B "entry") eq_refl) Ha (white_dec [] eq_refl) Hi (white_dec [] eq_refl)) as H.
  unfold ent. by rewrite <- !app_assoc in H.
Qed.
Lemma gap_text : char_text (lf :: B "  ") (lf :: B "  ").
Proof. apply (white_chars (lf :: B "  ")). by apply white_dec. Qed.
Lemma entries_body l kvs : Forall (entry_text l) kvs -> body (concat (map (fun kv => lf :: xml_entry l kv) kvs) ++ [lf]) (map (read_as l) kvs).
Proof.
  induction 1 as [|[k v] kvs (Hk & Hs & Hv) _ IH].
  - apply (bo_text [lf] [lf]). apply (white_chars [lf]). by apply white_dec.
  - cbn [map concat]. rewrite <- app_assoc. cbn [fst snd] in *.
    exact (bo_entry _ _ _ _ _ k (lget_status l k) _ _ gap_text (entry_element k (lget_status l k) v Hk Hs Hv) ltac:(left; left) ltac:(left; right; left) IH).
Qed.
Lemma get_xml_document l order : header_text l -> (forall kv, kv ∈ order -> entry_text l kv) ->
  exists sorted, sorted ≡ₚ order /\ document (B "language") (get_xml l order) (XDoc (l_name l) (l_tag l) (map (read_as l) sorted)).
Proof.
  intros [Hn Ht] He. destruct (get_xml_shape l order) as (sorted & Hp & ->). exists sorted. split; [done|].
  assert (Hf : Forall (entry_text l) sorted) by (apply Forall_forall; intros kv Hkv; apply He; by rewrite <- Hp).
  assert (Hb : body (match sorted with [] => [lf] | _ => concat (map (fun kv => lf :: xml_entry l kv) sorted) end ++ [lf]) (map (read_as l) sorted)).
  { destruct sorted as [|kv sorted]; [|by apply entries_body]. apply (bo_text _ (unix ([lf] ++ [lf]))). apply white_chars. by apply white_dec. }
  pose proof (two_attrs (B "id") (l_name l) (B "lang") (l_tag l) (name_by_letters (B "id") eq_refl) (name_by_letters (B "lang") eq_refl) ltac:(done) ltac:(done) ltac:(done) Hn Ht) as Ha.
  pose proof (do_open (B "language") _ [lf] _ _ [] _ _ [] (l_name l) (l_tag l) de_loose (pr_white [lf] (white_dec [lf] eq_refl)) (name_by_letters (B "language") eq_refl) Ha
    (white_dec [] eq_refl) Hb (white_dec [] eq_refl) ltac:(left; left) ltac:(left; right; left)) as H.
  unfold head, tail. rewrite <- !app_assoc in H. exact H.
Qed.
