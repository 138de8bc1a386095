(** * The table theorems, and concrete documents. *)
From Verif Require Import GoBase GoStrings GoStringsProofs LangModel XmlModel XmlSpec XmlProofs XmlProofs2 XmlProofs3 XmlProofs4 XmlProofs5.
Local Open Scope Z_scope.

Lemma xml_round_trip parse_tag decode l order l0 :
  faithful decode -> order_of (l_entries l) order -> parse_tag (l_tag l) = l_tag l -> header_text l ->
  (forall k v, l_entries l !! k = Some v -> entry_text l (k, v)) ->
  exists l', load_xml parse_tag decode l0 (get_xml l order) = (l', true) /\ loaded l0 l unix l'.
Proof. intros. by apply round_trip. Qed.
Lemma xml_same parse_tag decode l order :
  faithful decode -> order_of (l_entries l) order -> parse_tag (l_tag l) = l_tag l -> header_text l ->
  (forall k v, l_entries l !! k = Some v -> entry_text l (k, v) /\ cr ∉ v) ->
  exists l', load_xml parse_tag decode (new_lang [] []) (get_xml l order) = (l', true) /\
    l_name l' = l_name l /\ l_tag l' = l_tag l /\ l_entries l' = l_entries l /\
    (forall k v, l_entries l !! k = Some v -> lget_status l' k = lget_status l k) /\
    (forall order', order_of (l_entries l') order' -> get_xml l' order' = get_xml l order).
Proof.
  intros Hd Ho Ht Hh Hg. destruct (xml_round_trip parse_tag decode l order (new_lang [] []) Hd Ho Ht Hh) as (l' & E & H1 & H2 & H3 & H4).
  { intros k v H. by apply Hg. }
  assert (Hst : forall k v, l_entries l !! k = Some v -> lget_status l' k = lget_status l k) by (intros k v H; rewrite H4, H; done).
  assert (Hen : l_entries l' = l_entries l).
  { apply map_eq. intros k. rewrite H3. destruct (l_entries l !! k) as [v|] eqn:Ek; [|done]. rewrite unix_no_cr; [done|]. by apply (Hg k). }
  exists l'. repeat (split; [done|]). intros order' Ho'.
  assert (S : sort_strings (map (xml_entry l') order') = sort_strings (map (xml_entry l) order)).
  { apply sort_strings_perm. unfold order_of in Ho'. rewrite Hen in Ho'. rewrite Ho'. unfold order_of in Ho. rewrite Ho.
    erewrite map_ext_in; [done|]. intros [k v] Hin. apply elem_of_list_In, elem_of_map_to_list in Hin.
    unfold xml_entry. cbn [fst snd]. by rewrite (Hst k v). }
  unfold get_xml. by rewrite H1, H2, S.
Qed.

Section Spoiled.
  Context (parse_tag : bytes -> bytes) (decode : bytes -> option xdoc) (l : lang) (order : list (bytes * bytes)) (l0 : lang).
  Hypothesis Hd : faithful decode.
  Hypothesis Ho : order_of (l_entries l) order.
  Hypothesis Hh : header_text l.

  Lemma value_malformed k v1 v2 :
    l_entries l !! k = Some (v1 ++ B "]]>" ++ v2) -> others_text l k -> attr_text k -> attr_text (lget_status l k) ->
    ~ contains (B "]]>") v1 -> byte 60 ∉ v2 -> byte 38 ∉ v2 ->
    load_xml parse_tag decode l0 (get_xml l order) = (l0, false).
  Proof. intros. eapply bad_load; [done..|]. by apply stray_bad. Qed.
  Lemma value_not_xml k v :
    l_entries l !! k = Some v -> others_text l k -> attr_text k -> attr_text (lget_status l k) ->
    ~ contains (B "]]>") v -> ~ xml_chars v ->
    load_xml parse_tag decode l0 (get_xml l order) = (l0, false).
  Proof. intros. eapply bad_load; [done..|]. by apply illegal_bad. Qed.
  Lemma key_quote k a b v :
    l_entries l !! k = Some v -> others_text l k -> k = a ++ byte 34 :: b -> attr_text a -> byte 61 ∉ b -> byte 62 ∉ b ->
    load_xml parse_tag decode l0 (get_xml l order) = (l0, false).
  Proof. intros. eapply bad_load; [done..|]. apply key_bad. right. by exists a, b. Qed.
  Lemma key_lt k a b v :
    l_entries l !! k = Some v -> others_text l k -> k = a ++ byte 60 :: b -> attr_text a ->
    load_xml parse_tag decode l0 (get_xml l order) = (l0, false).
  Proof.
    intros H1 H2 -> (Hx & ? & ? & ? & ?). eapply bad_load; [done..|]. apply key_bad. left. intros r. rewrite <- app_assoc. by apply lt_bad.
  Qed.
  Lemma key_amp k a b v :
    l_entries l !! k = Some v -> others_text l k -> k = a ++ byte 38 :: b -> attr_text a -> byte 59 ∉ b ->
    load_xml parse_tag decode l0 (get_xml l order) = (l0, false).
  Proof.
    intros H1 H2 -> (Hx & ? & ? & ? & ?) Hb. eapply bad_load; [done..|]. apply key_bad. left. intros r. rewrite <- app_assoc. by apply amp_bad.
  Qed.

  Hypothesis Ht : parse_tag (l_tag l) = l_tag l.
  Lemma value_seam k v1 v2 :
    l_entries l !! k = Some (v1 ++ B "]]><![CDATA[" ++ v2) -> others_text l k -> attr_text k -> attr_text (lget_status l k) ->
    value_text v1 -> value_text v2 ->
    exists l', load_xml parse_tag decode l0 (get_xml l order) = (l', true) /\ lget l' k = unix v1 ++ unix v2 /\
      forall k' v', k' <> k -> l_entries l !! k' = Some v' -> lget l' k' = unix v'.
  Proof.
    intros H1 H2 H3 H4 H5 H6.
    destruct (split_loaded parse_tag decode Hd l order Ho Ht Hh k _ H1 H2 l0 [(k, unix v1 ++ unix v2, lget_status l k)] 5) as (l' & E & A & C).
    - lia.
    - by apply seam_read.
    - cbn. apply NoDup_singleton.
    - intros i Hi. left. by apply elem_of_list_singleton in Hi.
    - exists l'. split; [done|]. split; [apply (A k _ (lget_status l k)); by left|]. intros k' v' Hne Hk. by apply C.
  Qed.
  Lemma value_inject k v1 k2 s2 v2 :
    l_entries l !! k = Some (v1 ++ inject k2 s2 ++ v2) -> others_text l k -> attr_text k -> attr_text (lget_status l k) ->
    value_text v1 -> attr_text k2 -> attr_text s2 -> value_text v2 -> l_entries l !! k2 = None ->
    exists l', load_xml parse_tag decode l0 (get_xml l order) = (l', true) /\ lget l' k = unix v1 /\
      lget l' k2 = unix v2 /\ lget_status l' k2 = s2 /\
      forall k' v', k' <> k -> l_entries l !! k' = Some v' -> lget l' k' = unix v'.
  Proof.
    intros H1 H2 H3 H4 H5 H6 H7 H8 H9.
    assert (Hkk : k <> k2) by (intros Q; rewrite Q in H1; pose proof (eq_trans (eq_sym H1) H9) as Z; discriminate Z).
    destruct (split_loaded parse_tag decode Hd l order Ho Ht Hh k _ H1 H2 l0 [(k, unix v1, lget_status l k); (k2, unix v2, s2)] 7) as (l' & E & A & C).
    - lia.
    - by apply inject_read.
    - cbn. apply NoDup_cons. split; [by intros ->%elem_of_list_singleton|apply NoDup_singleton].
    - intros i Hi. apply elem_of_cons in Hi as [->|Hi]; [by left|]. apply elem_of_list_singleton in Hi as ->. by right.
    - exists l'. split; [done|]. split; [apply (A k _ (lget_status l k)); by left|].
      destruct (A k2 (unix v2) s2) as [-> ->]; [right; by left|]. split; [done|]. split; [done|]. intros k' v' Hne Hk. by apply C.
  Qed.
End Spoiled.

(** ** Concrete documents, run through the reader *)
Definition reader (s : bytes) : option xdoc := match unmarshal s with XOk d => Some d | _ => None end.
Lemma reader_faithful : faithful reader.
Proof. intros s. unfold reader. by destruct (unmarshal s). Qed.
Definition xml_of (kvs : list (bytes * bytes)) : bytes :=
  get_xml (fold_left (fun l kv => lset l kv.1 kv.2) kvs (new_lang (B "messages") (B "en"))) kvs.
Definition read_back (kvs : list (bytes * bytes)) : option (list (bytes * bytes)) :=
  match unmarshal (xml_of kvs) with XOk d => Some (map (fun e => e.1) (x_entries d)) | _ => None end.
