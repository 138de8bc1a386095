(** * LoadXMLString on a language that already has content. *)
From Verif Require Import GoBase GoStrings GoStringsProofs LangModel LangSpec LangProofs.

Lemma fold_add_entry es : forall l, 
  l_name (fold_left add_entry es l) = l_name l /\ l_tag (fold_left add_entry es l) = l_tag l /\
  (forall id, (forall text status, (id, text, status) ∉ es) ->
     l_entries (fold_left add_entry es l) !! id = l_entries l !! id /\ l_status (fold_left add_entry es l) !! id = l_status l !! id) /\
  (forall es1 id text status es2, es = es1 ++ (id, text, status) :: es2 -> (forall text' status', (id, text', status') ∉ es2) ->
     l_entries (fold_left add_entry es l) !! id = Some text /\ l_status (fold_left add_entry es l) !! id = Some status).
Proof.
  induction es as [|[[i t] s] es IH]; intros l.
  - split_and!; [done..|]. intros es1 *. by destruct es1.
  - destruct (IH (add_entry l (i, t, s))) as (I1 & I2 & I3 & I4). cbn [fold_left]. split_and!.
    + by rewrite I1.
    + by rewrite I2.
    + intros id Hid. destruct (I3 id) as [-> ->].
      { intros t' s' Hin. apply (Hid t' s'). by right. }
      assert (i <> id) by (intros ->; apply (Hid t s); left).
      cbn. by rewrite !lookup_insert_ne.
    + intros es1 id text status es2 E Hl. destruct es1 as [|e es1]; simplify_eq/=.
      * destruct (I3 id Hl) as [-> ->]. cbn. by rewrite !lookup_insert.
      * by eapply I4.
Qed.
Lemma load_xml_overlay parse_tag decode l data d : decode data = Some d ->
  exists l', load_xml parse_tag decode l data = (l', true) /\ l_name l' = x_name d /\ l_tag l' = parse_tag (x_lang d) /\
  (forall id, (forall text status, (id, text, status) ∉ x_entries d) ->
     l_entries l' !! id = l_entries l !! id /\ l_status l' !! id = l_status l !! id) /\
  (forall es1 id text status es2, x_entries d = es1 ++ (id, text, status) :: es2 -> (forall text' status', (id, text', status') ∉ es2) ->
     l_entries l' !! id = Some text /\ l_status l' !! id = Some status).
Proof.
  intros E. unfold load_xml. rewrite E. eexists. split; [reflexivity|].
  exact (fold_add_entry (x_entries d) (Lang (x_name d) (parse_tag (x_lang d)) (l_entries l) (l_status l))).
Qed.
Lemma load_xml_rejected parse_tag decode l data : decode data = None -> load_xml parse_tag decode l data = (l, false).
Proof. intros E. unfold load_xml. by rewrite E. Qed.
(** Both loaders keep what the new text does not mention. *)
Lemma load_xml_keeps_old parse_tag decode l data d id v : decode data = Some d ->
  l_entries l !! id = Some v -> (forall text status, (id, text, status) ∉ x_entries d) ->
  lget (load_xml parse_tag decode l data).1 id = v.
Proof.
  intros E Hv Hn. destruct (load_xml_overlay parse_tag decode l data d E) as (l' & -> & _ & _ & H & _). unfold lget. cbn [fst].
  destruct (H id Hn) as [-> _]. by rewrite Hv.
Qed.
Lemma load_string_keeps_old l data raws lines id v :
  raw_lines data raws -> Forall short raws -> Forall2 chomp raws lines ->
  l_entries l !! id = Some v -> (forall line v', line ∈ lines -> ~ entry_line line id v') ->
  lget (load_string l data).1 id = v.
Proof.
  intros H1 H2 H3 Hv Hn. destruct (load_string_ok l data raws lines H1 H2 H3) as (l' & -> & Ho & _). unfold lget. cbn [fst].
  rewrite (overlay_keeps _ _ _ _ Ho Hn). by rewrite Hv.
Qed.
