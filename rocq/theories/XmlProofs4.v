(** * GetXML followed by LoadXMLString, on tables. *)
From Verif Require Import GoBase GoStrings GoStringsProofs LangModel XmlModel XmlSpec XmlProofs XmlProofs2 XmlProofs3.
Local Open Scope Z_scope.

(** ** Storing the entries read *)
Definition ids (es : list (bytes * bytes * bytes)) : list bytes := map (fun e => e.1.1) es.
Lemma add_out es : forall l k, k ∉ ids es ->
  l_entries (fold_left add_entry es l) !! k = l_entries l !! k /\ l_status (fold_left add_entry es l) !! k = l_status l !! k.
Proof.
  induction es as [|[[i t] s] es IH]; intros l k H; [done|].
  apply not_elem_of_cons in H as [H1 H2]. cbn [fst] in H1. cbn [fold_left]. destruct (IH (add_entry l (i, t, s)) k H2) as [-> ->].
  cbn [add_entry lset_status lset l_entries l_status]. rewrite !lookup_insert_ne by done. done.
Qed.
Lemma add_in es : forall l k t s, NoDup (ids es) -> (k, t, s) ∈ es ->
  l_entries (fold_left add_entry es l) !! k = Some t /\ l_status (fold_left add_entry es l) !! k = Some s.
Proof.
  induction es as [|[[i t'] s'] es IH]; intros l k t s Hn H; [by apply elem_of_nil in H|].
  cbn [ids map fst] in Hn. apply NoDup_cons in Hn as [Hn1 Hn2]. cbn [fold_left]. apply elem_of_cons in H as [[= -> -> ->]|H].
  - destruct (add_out es (add_entry l (i, t', s')) i Hn1) as [-> ->].
    cbn [add_entry lset_status lset l_entries l_status]. by rewrite !lookup_insert.
  - by apply IH.
Qed.
Lemma add_head es : forall l, l_name (fold_left add_entry es l) = l_name l /\ l_tag (fold_left add_entry es l) = l_tag l.
Proof. induction es as [|[[i t] s] es IH]; intros l; [done|]. cbn [fold_left]. destruct (IH (add_entry l (i, t, s))) as [-> ->]. done. Qed.

Lemma order_elem m order k v : order_of m order -> (k, v) ∈ order <-> m !! k = Some v.
Proof. intros H. unfold order_of in H. rewrite H. apply elem_of_map_to_list. Qed.
Lemma order_nodup m order : order_of m order -> NoDup (map fst order).
Proof. intros H. unfold order_of in H. rewrite H. apply NoDup_fst_map_to_list. Qed.

Section Table.
  Context (parse_tag : bytes -> bytes) (decode : bytes -> option xdoc).
  Hypothesis decode_ok : faithful decode.
  Context (l : lang) (order : list (bytes * bytes)).
  Hypothesis Horder : order_of (l_entries l) order.
  Hypothesis Htag : parse_tag (l_tag l) = l_tag l.
  Hypothesis Hhead : header_text l.

  Lemma round_trip l0 : (forall k v, l_entries l !! k = Some v -> entry_text l (k, v)) ->
    exists l', load_xml parse_tag decode l0 (get_xml l order) = (l', true) /\ loaded l0 l unix l'.
  Proof.
    intros Hgood. destruct (get_xml_shape l order) as (sorted & P & ->).
    assert (Ho : order_of (l_entries l) sorted) by (unfold order_of; by rewrite P).
    assert (Hs : Forall (entry_text l) sorted).
    { apply Forall_forall. intros [k v] H. apply Hgood. by apply (order_elem (l_entries l) sorted k v Ho). }
    unfold load_xml. pose proof (decode_ok (head l (match sorted with [] => [lf] | _ => concat (map (fun kv => lf :: xml_entry l kv) sorted) end ++ tail))) as D.
    rewrite unmarshal_good in D by done. rewrite D. cbn [x_entries x_name x_lang]. eexists. split; [done|].
    assert (Hids : ids (map (read_as l) sorted) = map fst sorted) by (unfold ids; rewrite map_map; done).
    assert (Hn : NoDup (ids (map (read_as l) sorted))) by (rewrite Hids; by apply (order_nodup (l_entries l))).
    destruct (add_head (map (read_as l) sorted) (Lang (l_name l) (parse_tag (l_tag l)) (l_entries l0) (l_status l0))) as [E1 E2].
    split; [by rewrite E1|]. split; [by rewrite E2|].
    assert (K : forall k, match l_entries l !! k with
      | Some v => (k, unix v, lget_status l k) ∈ map (read_as l) sorted
      | None => k ∉ ids (map (read_as l) sorted) end).
    { intros k. destruct (l_entries l !! k) as [v|] eqn:E.
      - apply (order_elem (l_entries l) sorted k v Ho) in E. change (k, unix v, lget_status l k) with (read_as l (k, v)).
        by apply elem_of_list_fmap_1.
      - rewrite Hids. intros H. apply elem_of_list_fmap in H as ([k' v] & -> & H). apply (order_elem (l_entries l) sorted k' v Ho) in H. cbn [fst] in E. congruence. }
    split; intros k; specialize (K k); destruct (l_entries l !! k) as [v|].
    - by destruct (add_in _ (Lang (l_name l) (parse_tag (l_tag l)) (l_entries l0) (l_status l0)) _ _ _ Hn K) as [-> _].
    - by destruct (add_out _ (Lang (l_name l) (parse_tag (l_tag l)) (l_entries l0) (l_status l0)) _ K) as [-> _].
    - unfold lget_status at 1. by destruct (add_in _ (Lang (l_name l) (parse_tag (l_tag l)) (l_entries l0) (l_status l0)) _ _ _ Hn K) as [_ ->].
    - unfold lget_status at 1. by destruct (add_out _ (Lang (l_name l) (parse_tag (l_tag l)) (l_entries l0) (l_status l0)) _ K) as [_ ->].
  Qed.

  (** ** One bad entry among good ones *)
  Context (k v : bytes).
  Hypothesis Hkv : l_entries l !! k = Some v.
  Hypothesis Hothers : forall k' v', k' <> k -> l_entries l !! k' = Some v' -> entry_text l (k', v').

  Lemma one_bad : exists pre post, Forall (entry_text l) pre /\ Forall (entry_text l) post /\
    pre ++ (k, v) :: post ≡ₚ order /\
    get_xml l order = head l (concat (map (fun kv => lf :: xml_entry l kv) pre) ++ (lf :: xml_entry l (k, v) ++ concat (map (fun kv => lf :: xml_entry l kv) post) ++ tail)).
  Proof.
    destruct (get_xml_shape l order) as (sorted & P & E).
    assert (Ho : order_of (l_entries l) sorted) by (unfold order_of; by rewrite P).
    pose proof (proj2 (order_elem _ sorted k v Ho) Hkv) as Hin. apply elem_of_list_split in Hin as (pre & post & ->).
    pose proof (order_nodup _ _ Ho) as Hn. rewrite map_app in Hn. cbn [map fst] in Hn.
    apply NoDup_app in Hn as (_ & Hn1 & Hn2). apply NoDup_cons in Hn2 as [Hn2 _].
    assert (G : forall kv, kv ∈ pre \/ kv ∈ post -> entry_text l kv).
    { intros [k' v'] H. apply Hothers.
      - intros ->. destruct H as [H|H].
        + apply (Hn1 k); [apply elem_of_list_fmap; by exists (k, v')|by left].
        + apply Hn2. apply elem_of_list_fmap. by exists (k, v').
      - apply (order_elem (l_entries l) (pre ++ (k, v) :: post) k' v' Ho). apply elem_of_app. destruct H; [by left|right; by right]. }
    exists pre, post. split; [apply Forall_forall; eauto|]. split; [apply Forall_forall; eauto|]. split; [done|].
    rewrite E. f_equal. replace (match pre ++ (k, v) :: post with [] => [lf] | _ => concat (map (fun kv => lf :: xml_entry l kv) (pre ++ (k, v) :: post)) end)
      with (concat (map (fun kv => lf :: xml_entry l kv) (pre ++ (k, v) :: post))) by (by destruct pre).
    rewrite map_app, concat_app. cbn [map concat]. rewrite <- !app_assoc. done.
  Qed.
  Lemma bad_load l0 : (forall n d rest, xloop (20 + n) (XState [B "language"] d None) (lf :: xml_entry l (k, v) ++ rest) = XErr) ->
    load_xml parse_tag decode l0 (get_xml l order) = (l0, false).
  Proof.
    intros H. destruct one_bad as (pre & post & Hpre & _ & _ & ->). unfold load_xml.
    pose proof (decode_ok (head l (concat (map (fun kv => lf :: xml_entry l kv) pre) ++ (lf :: xml_entry l (k, v) ++ concat (map (fun kv => lf :: xml_entry l kv) post) ++ tail)))) as D.
    rewrite unmarshal_bad in D; [by rewrite D|done|done|]. intros n d. apply H.
  Qed.

  (** The entry read as several. *)
  Lemma split_load l0 es c : (c <= 20)%nat ->
    (forall n d rest, xloop (c + n) (XState [B "language"] d None) (lf :: xml_entry l (k, v) ++ rest) = xloop n (XState [B "language"] (add_doc d es) None) rest) ->
    exists pre post, pre ++ (k, v) :: post ≡ₚ order /\
      load_xml parse_tag decode l0 (get_xml l order) =
      (fold_left add_entry (map (read_as l) pre ++ es ++ map (read_as l) post) (Lang (l_name l) (l_tag l) (l_entries l0) (l_status l0)), true).
  Proof.
    intros Hc H. destruct one_bad as (pre & post & Hpre & Hpost & P & ->). exists pre, post. split; [done|]. unfold load_xml.
    set (s := concat (map (fun kv => lf :: xml_entry l kv) pre) ++ (lf :: xml_entry l (k, v) ++ concat (map (fun kv => lf :: xml_entry l kv) post) ++ tail)).
    pose proof (decode_ok (head l s)) as D.
    assert (E : unmarshal (head l s) = XOk (XDoc (l_name l) (l_tag l) (map (read_as l) pre ++ es ++ map (read_as l) post))).
    { unfold unmarshal.
      assert (L : (63 <= length (head l s) - length s)%nat) by (unfold head; rewrite !app_length; simpl; lia).
      assert (L2 : (length s >= 4 * length pre + 4 * length post)%nat).
      { unfold s. rewrite app_length. cbn [length]. rewrite !app_length. pose proof (entries_long l pre). pose proof (entries_long l post). lia. }
      replace (S (length (head l s))) with (3 + (4 * length pre + (c + (4 * length post + (2 + (S (length (head l s)) - 5 - c - 4 * length pre - 4 * length post))))))%nat by lia.
      rewrite read_head by done. unfold s. rewrite read_entries by done. rewrite H. rewrite read_entries by done. rewrite read_tail.
      unfold add_doc. cbn [x_name x_lang x_entries app]. by rewrite <- !app_assoc. }
    rewrite E in D. rewrite D. cbn [x_entries x_name x_lang]. by rewrite Htag.
  Qed.
  (** What is stored in that case, when the identifiers read are new. *)
  Lemma split_loaded l0 es c : (c <= 20)%nat ->
    (forall n d rest, xloop (c + n) (XState [B "language"] d None) (lf :: xml_entry l (k, v) ++ rest) = xloop n (XState [B "language"] (add_doc d es) None) rest) ->
    NoDup (ids es) -> (forall i, i ∈ ids es -> i = k \/ l_entries l !! i = None) ->
    exists l', load_xml parse_tag decode l0 (get_xml l order) = (l', true) /\
      (forall i t s, (i, t, s) ∈ es -> lget l' i = t /\ lget_status l' i = s) /\
      (forall k' v', k' <> k -> l_entries l !! k' = Some v' -> lget l' k' = unix v' /\ lget_status l' k' = lget_status l k').
  Proof.
    intros Hc H Hn Hnew. destruct (split_load l0 es c Hc H) as (pre & post & P & ->). eexists. split; [done|].
    assert (Ho : order_of (l_entries l) (pre ++ (k, v) :: post)) by (unfold order_of; by rewrite P).
    pose proof (order_nodup _ _ Ho) as Hno. rewrite map_app in Hno. cbn [map fst] in Hno.
    apply NoDup_app in Hno as (Hp1 & Hp2 & Hp3). apply NoDup_cons in Hp3 as [Hp3 Hp4].
    assert (Hids : forall q, ids (map (read_as l) q) = map fst q) by (intros q; unfold ids; rewrite map_map; done).
    assert (Hsep : forall i, i ∈ ids es -> i ∉ map fst pre /\ i ∉ map fst post).
    { intros i Hi. destruct (Hnew i Hi) as [->|Hi'].
      - split; [|done]. intros Q. apply (Hp2 k Q). by left.
      - assert (K : forall q, (forall kv, kv ∈ q -> kv ∈ pre ++ (k, v) :: post) -> i ∉ map fst q).
        { intros q Hq Q. apply elem_of_list_fmap in Q as ([i' t] & -> & Q). apply Hq in Q. apply (order_elem (l_entries l) _ i' t Ho) in Q. cbn [fst] in Hi'. congruence. }
        split; apply K; intros kv Q; apply elem_of_app; [by left|right; by right]. }
    assert (N : NoDup (ids (map (read_as l) pre ++ es ++ map (read_as l) post))).
    { unfold ids. rewrite !map_app. apply NoDup_app. fold (ids (map (read_as l) pre)) (ids es) (ids (map (read_as l) post)). rewrite !Hids.
      split; [done|]. split.
      - intros i Hi Hi2. apply elem_of_app in Hi2 as [Hi2|Hi2]; [by destruct (Hsep i Hi2)|]. apply (Hp2 i Hi). by right.
      - apply NoDup_app. split; [done|]. split; [|done]. intros i Hi Hi2. by destruct (Hsep i Hi). }
    assert (Q : forall i t s, (i, t, s) ∈ map (read_as l) pre ++ es ++ map (read_as l) post ->
       lget (fold_left add_entry (map (read_as l) pre ++ es ++ map (read_as l) post) (Lang (l_name l) (l_tag l) (l_entries l0) (l_status l0))) i = t /\
       lget_status (fold_left add_entry (map (read_as l) pre ++ es ++ map (read_as l) post) (Lang (l_name l) (l_tag l) (l_entries l0) (l_status l0))) i = s).
    { intros i t s Hi. unfold lget, lget_status. by destruct (add_in _ (Lang (l_name l) (l_tag l) (l_entries l0) (l_status l0)) i t s N Hi) as [-> ->]. }
    split.
    - intros i t s Hi. apply Q. apply elem_of_app. right. apply elem_of_app. by left.
    - intros k' v' Hne Hk'. apply Q. change (k', unix v', lget_status l k') with (read_as l (k', v')).
      apply (order_elem _ _ _ _ Ho) in Hk'. apply elem_of_app in Hk' as [Hk'|Hk'].
      + apply elem_of_app. left. by apply elem_of_list_fmap_1.
      + apply elem_of_cons in Hk' as [[= -> _]|Hk']; [done|]. apply elem_of_app. right. apply elem_of_app. right. by apply elem_of_list_fmap_1.
  Qed.
End Table.
