(** * The reader on the documents of XmlDocSpec (C95): elements and documents. *)
From Verif Require Import GoBase GoStrings LangModel XmlModel XmlSpec XmlProofs XmlProofs2 XmlProofs3 XmlDocSpec XmlDocProofs.
Local Open Scope Z_scope.

Scheme inner_mut := Induction for inner Sort Prop with markup_mut := Induction for markup Sort Prop with element_mut := Induction for element Sort Prop.

(** Reading [c] leads from one state to another, whatever follows (or whatever markup follows). *)
Definition eats (st : xstate) (c : bytes) (st' : xstate) : Prop :=
  exists k, (k <= length c)%nat /\ forall n rest, xloop (k + n) st (c ++ rest) = xloop n st' rest.
Definition eats_lt (st : xstate) (c : bytes) (st' : xstate) : Prop :=
  exists k, (k <= length c)%nat /\ forall n rest, xloop (k + n) st (c ++ byte 60 :: rest) = xloop n st' (byte 60 :: rest).
Lemma eats_token st c t st' : c <> [] -> (forall rest, raw_token (c ++ rest) = XOk (Some (t, rest))) -> take_token st t = XOk (inr st') -> eats st c st'.
Proof.
  intros Hc Ht Hs. exists 1%nat. split; [destruct c; [done|simpl; lia]|]. intros n rest. change (1 + n)%nat with (S n). rewrite xloop_S, Ht. cbn [xbind]. by rewrite Hs.
Qed.
Lemma eats_cat st a st1 b st2 : eats st a st1 -> eats st1 b st2 -> eats st (a ++ b) st2.
Proof.
  intros (k & Hk & H1) (k2 & Hk2 & H2). exists (k + k2)%nat. rewrite app_length. split; [lia|]. intros n rest. rewrite <- app_assoc, <- Nat.add_assoc, H1. apply H2.
Qed.
Lemma eats_lt_cat st a st1 b st2 : eats st a st1 -> eats_lt st1 b st2 -> eats_lt st (a ++ b) st2.
Proof.
  intros (k & Hk & H1) (k2 & Hk2 & H2). exists (k + k2)%nat. rewrite app_length. split; [lia|]. intros n rest. rewrite <- app_assoc, <- Nat.add_assoc, H1. apply H2.
Qed.
(** Something that starts with a "<". *)
Lemma lt_cat st a st1 b st2 : eats_lt st a st1 -> (exists b', b = byte 60 :: b') -> eats st1 b st2 -> eats st (a ++ b) st2.
Proof.
  intros (k & Hk & H1) (b' & ->) (k2 & Hk2 & H2). exists (k + k2)%nat. rewrite app_length. split; [lia|]. intros n rest. rewrite <- app_assoc, <- Nat.add_assoc.
  cbn [app]. rewrite H1. apply H2.
Qed.
Lemma eats_nil st : eats st [] st.
Proof. exists 0%nat. split; [done|]. done. Qed.

Lemma char_data_app st u v : char_data (char_data st u) v = char_data st (u ++ v).
Proof. destruct st as [[|a [|b [|c o]]] d [[[id t] s]|]]; simpl; try done. unfold char_data. simpl. by rewrite <- app_assoc. Qed.
Lemma char_data_nil st : char_data st [] = st.
Proof. destruct st as [[|a [|b [|c o]]] d [[[id t] s]|]]; try done. unfold char_data. simpl. by rewrite app_nil_r. Qed.
Lemma char_data_open st u : xs_open (char_data st u) = xs_open st.
Proof. by destruct st as [[|a [|b [|c o]]] d [[[id t] s]|]]. Qed.
Lemma eats_text st s u : char_text s u -> eats_lt st s (char_data st u).
Proof.
  intros H. destruct (decide (s = [])) as [->|Hs].
  - rewrite (text_empty u H), char_data_nil. exists 0%nat. split; [done|]. done.
  - exists 1%nat. split; [destruct s; [done|simpl; lia]|]. intros n rest. change (1 + n)%nat with (S n). rewrite xloop_S, (token_text s u) by done. done.
Qed.
Lemma lt_head s : exists b', B "<" ++ s = byte 60 :: b'. Proof. by exists s. Qed.
Lemma remark_head m : remark m -> exists m', m = byte 60 :: m'.
Proof. destruct 1; by eexists. Qed.
Lemma element_head n al m u : element n al m u -> exists m', m = byte 60 :: m'.
Proof. destruct 1; by eexists. Qed.
Lemma markup_head m v : markup m v -> exists m', m = byte 60 :: m'.
Proof. destruct 1 as [| |n al m u H]; [by eexists|by apply remark_head|by eapply element_head]. Qed.

Lemma token_tag n al a w e rest : xml_name n -> attrs_text al a -> white w -> 
  raw_token ((B "<" ++ n ++ a ++ w ++ tag_end e) ++ rest) = XOk (Some (TStart n al e, rest)).
Proof. intros. rewrite <- !app_assoc. by apply token_start. Qed.
Definition deep (st : xstate) : Prop := (2 <= length (xs_open st))%nat.
Lemma start_deep st n al : deep st -> start_element st n al = XState (n :: xs_open st) (xs_doc st) (xs_entry st).
Proof. destruct st as [[|a [|b o]] d e]; unfold deep; simpl; [lia|lia|done]. Qed.
Lemma end_deep st n : deep st -> end_element (XState (n :: xs_open st) (xs_doc st) (xs_entry st)) n = XOk (inr st).
Proof. destruct st as [[|a [|b o]] d e]; unfold deep; simpl; [lia|lia|]. intros _. unfold end_element. simpl. by rewrite bool_decide_eq_true_2. Qed.
Lemma char_deeper st n u : deep st -> char_data (XState (n :: xs_open st) (xs_doc st) (xs_entry st)) u = XState (n :: xs_open st) (xs_doc st) (xs_entry st).
Proof. destruct st as [[|a [|b o]] d e]; unfold deep; simpl; [lia|lia|done]. Qed.
Lemma eats_inner r u : inner r u -> forall st, deep st -> eats_lt st r (char_data st u).
Proof.
  revert r u. apply (inner_mut (fun r u _ => forall st, deep st -> eats_lt st r (char_data st u)) (fun m v _ => forall st, deep st -> eats st m (char_data st v))
    (fun n al m u _ => forall st, deep st -> eats st m st)).
  - intros s u H st _. by apply eats_text.
  - intros s u m v r w Hs Hm IHm Hr IHr st Hd.
    assert (D1 : deep (char_data st u)) by (unfold deep; by rewrite char_data_open).
    assert (D2 : deep (char_data (char_data st u) v)) by (unfold deep; by rewrite !char_data_open).
    pose proof (eats_lt_cat _ _ _ _ _ (lt_cat _ _ _ _ _ (eats_text st s u Hs) (markup_head _ _ Hm) (IHm _ D1)) (IHr _ D2)) as H.
    rewrite <- app_assoc in H. by rewrite !char_data_app in H.
  - intros v Hv st _. eapply eats_token; [done|intros rest; by apply token_cdata|done].
  - intros m Hm st _. rewrite char_data_nil. eapply eats_token; [by destruct (remark_head _ Hm) as [? ->]|intros rest; by apply token_remark|done].
  - intros n al m u _ IH st Hd. rewrite char_data_nil. by apply IH.
  - intros n al a w1 r u w2 Hn Ha Hw1 Hr IH Hw2 st Hd.
    set (st1 := XState (n :: xs_open st) (xs_doc st) (xs_entry st)).
    assert (E1 : eats st (B "<" ++ n ++ a ++ w1 ++ B ">") st1).
    { eapply eats_token; [done|intros rest; by apply (token_tag n al a w1 false)|]. simpl. by rewrite start_deep. }
    assert (E2 : eats_lt st1 r st1).
    { assert (deep st1) as D by (unfold deep, st1 in *; simpl; lia). specialize (IH st1 D). unfold st1 in *. by rewrite char_deeper in IH. }
    assert (E3 : eats st1 (B "</" ++ n ++ w2 ++ B ">") st).
    { eapply eats_token; [done|intros rest; rewrite <- !app_assoc; by apply token_end|]. simpl. by apply end_deep. }
    pose proof (eats_cat _ _ _ _ _ E1 (lt_cat _ _ _ _ _ E2 (ex_intro _ _ eq_refl) E3)) as H. by rewrite <- !app_assoc in H.
  - intros n al a w1 Hn Ha Hw st Hd. eapply eats_token; [done|intros rest; by apply (token_tag n al a w1 true)|]. simpl. rewrite start_deep by done. by apply end_deep.
Qed.

(** ** The content of the root *)
Lemma root_other root d n al m u : element n al m u -> n <> B "entry" -> eats (XState [root] d None) m (XState [root] d None).
Proof.
  intros He Hne. destruct He as [n al a w1 r u w2 Hn Ha Hw1 Hr Hw2|n al a w1 Hn Ha Hw].
  - set (st1 := XState [n; root] d None).
    assert (E1 : eats (XState [root] d None) (B "<" ++ n ++ a ++ w1 ++ B ">") st1).
    { eapply eats_token; [done|intros rest; by apply (token_tag n al a w1 false)|]. simpl. unfold start_element. simpl. by rewrite bool_decide_eq_false_2. }
    assert (E2 : eats_lt st1 r st1) by (change st1 with (char_data st1 u) at 2; apply eats_inner; [done|unfold deep; simpl; lia]).
    assert (E3 : eats st1 (B "</" ++ n ++ w2 ++ B ">") (XState [root] d None)).
    { eapply eats_token; [done|intros rest; rewrite <- !app_assoc; by apply token_end|]. simpl. unfold end_element. simpl. by rewrite bool_decide_eq_true_2. }
    pose proof (eats_cat _ _ _ _ _ E1 (lt_cat _ _ _ _ _ E2 (ex_intro _ _ eq_refl) E3)) as H. by rewrite <- !app_assoc in H.
  - eapply eats_token; [done|intros rest; by apply (token_tag n al a w1 true)|]. simpl. unfold start_element. simpl. rewrite bool_decide_eq_false_2 by done.
    unfold end_element. simpl. by rewrite bool_decide_eq_true_2.
Qed.
Lemma root_entry root d al m u id st : element (B "entry") al m u -> given al (B "id") id -> given al (B "status") st ->
  eats (XState [root] d None) m (XState [root] (add_doc d [(id, u, st)]) None).
Proof.
  intros He Hid Hst. remember (B "entry") as n eqn:En. destruct He as [n al a w1 r u w2 Hn Ha Hw1 Hr Hw2|n al a w1 Hn Ha Hw].
  - pose proof (attr_given al _ _ (attrs_nodup _ _ Ha) Hid) as Eid. pose proof (attr_given al _ _ (attrs_nodup _ _ Ha) Hst) as Est.
    set (st1 := XState [n; root] d (Some (id, [], st))). set (st2 := XState [n; root] d (Some (id, u, st))).
    assert (E1 : eats (XState [root] d None) (B "<" ++ n ++ a ++ w1 ++ B ">") st1).
    { eapply eats_token; [done|intros rest; by apply (token_tag n al a w1 false)|]. cbn [take_token]. unfold start_element. cbn [xs_open]. rewrite bool_decide_eq_true_2 by done. by rewrite Eid, Est. }
    assert (E2 : eats_lt st1 r st2) by (change st2 with (char_data st1 u); apply eats_inner; [done|unfold deep; simpl; lia]).
    assert (E3 : eats st2 (B "</" ++ n ++ w2 ++ B ">") (XState [root] (add_doc d [(id, u, st)]) None)).
    { eapply eats_token; [done|intros rest; rewrite <- !app_assoc; by apply token_end|]. cbn [take_token]. unfold end_element. cbn [xs_open st2]. by rewrite bool_decide_eq_true_2. }
    pose proof (eats_cat _ _ _ _ _ E1 (lt_cat _ _ _ _ _ E2 (ex_intro _ _ eq_refl) E3)) as H. by rewrite <- !app_assoc in H.
  - pose proof (attr_given al _ _ (attrs_nodup _ _ Ha) Hid) as Eid. pose proof (attr_given al _ _ (attrs_nodup _ _ Ha) Hst) as Est.
    eapply eats_token; [done|intros rest; by apply (token_tag n al a w1 true)|]. cbn [take_token]. unfold start_element. cbn [xs_open]. rewrite (bool_decide_eq_true_2 (n = _)) by done.
    rewrite Eid, Est. unfold end_element. cbn [xs_open]. by rewrite bool_decide_eq_true_2.
Qed.
Lemma add_doc_app d a b : add_doc (add_doc d a) b = add_doc d (a ++ b).
Proof. unfold add_doc. simpl. by rewrite <- app_assoc. Qed.
Lemma add_doc_nil d : add_doc d [] = d.
Proof. unfold add_doc. rewrite app_nil_r. by destruct d. Qed.
Lemma eats_body r es : body r es -> forall root d, eats_lt (XState [root] d None) r (XState [root] (add_doc d es) None).
Proof.
  assert (T : forall root d s u, char_text s u -> eats_lt (XState [root] d None) s (XState [root] d None)).
  { intros root d s u H. change (XState [root] d None) with (char_data (XState [root] d None) u) at 2. by apply eats_text. }
  induction 1 as [s u Hs|s u v r es Hs Hv _ IH|s u m r es Hs Hm _ IH|s u n al m v r es Hs Hm Hn _ IH|s u al m v id st r es Hs Hm Hid Hst _ IH]; intros root d.
  - rewrite add_doc_nil. by eapply T.
  - assert (E : eats (XState [root] d None) (B "<![CDATA[" ++ v ++ B "]]>") (XState [root] d None)).
    { eapply eats_token; [done|intros rest; by apply token_cdata|done]. }
    pose proof (eats_lt_cat _ _ _ _ _ (lt_cat _ _ _ _ _ (T root d s u Hs) (ex_intro _ _ eq_refl) E) (IH root d)) as H. by rewrite <- app_assoc in H.
  - assert (E : eats (XState [root] d None) m (XState [root] d None)).
    { eapply eats_token; [by destruct (remark_head _ Hm) as [? ->]|intros rest; by apply token_remark|done]. }
    pose proof (eats_lt_cat _ _ _ _ _ (lt_cat _ _ _ _ _ (T root d s u Hs) (remark_head _ Hm) E) (IH root d)) as H. by rewrite <- app_assoc in H.
  - pose proof (eats_lt_cat _ _ _ _ _ (lt_cat _ _ _ _ _ (T root d s u Hs) (element_head _ _ _ _ Hm) (root_other root d _ _ _ _ Hm Hn)) (IH root d)) as H. by rewrite <- app_assoc in H.
  - pose proof (eats_lt_cat _ _ _ _ _ (lt_cat _ _ _ _ _ (T root d s u Hs) (element_head _ _ _ _ Hm) (root_entry root d _ _ _ _ _ Hm Hid Hst)) (IH root _)) as H.
    rewrite add_doc_app in H. by rewrite <- app_assoc in H.
Qed.

(** ** Documents *)
Lemma white_chars s : white s -> char_text s (unix s).
Proof.
  intros H. split; [constructor; split_and!|].
  - induction H as [|c s Hc _ (cs & H1 & ->)]; [by exists []|]. 
    assert (exists n, xml_char n /\ utf8 n = [c]) as (n & Hn & En).
    { repeat (apply elem_of_cons in Hc as [->|Hc]; [|]); [exists 32|exists 9|exists 10|exists 13|by apply elem_of_nil in Hc]; (split; [unfold xml_char; lia|reflexivity]). }
    exists (n :: cs). split; [by constructor|]. simpl. by rewrite En.
  - intros K. apply (proj1 (Forall_forall _ _) H) in K. by apply (bool_decide_unpack _) in K || (revert K; apply (bool_decide_unpack _); by vm_compute).
  - intros K. apply (proj1 (Forall_forall _ _) H) in K. revert K; apply (bool_decide_unpack _); by vm_compute.
  - done.
  - intros (x & y & ->). apply Forall_app in H as [_ H]. inversion H as [|? ? K]; subst. revert K; apply (bool_decide_unpack _); by vm_compute.
Qed.
Lemma eats_prolog p : prolog p -> forall d, eats_lt (XState [] d None) p (XState [] d None).
Proof.
  assert (T : forall d s, white s -> eats_lt (XState [] d None) s (XState [] d None)).
  { intros d s H. change (XState [] d None) with (char_data (XState [] d None) (unix s)) at 2. by apply eats_text, white_chars. }
  induction 1 as [s Hs|s m r Hs Hm _ IH]; intros d; [by apply T|].
  assert (E : eats (XState [] d None) m (XState [] d None)).
  { eapply eats_token; [by destruct (remark_head _ Hm) as [? ->]|intros rest; by apply token_remark|done]. }
  pose proof (eats_lt_cat _ _ _ _ _ (lt_cat _ _ _ _ _ (T d s Hs) (remark_head _ Hm) E) (IH d)) as H. by rewrite <- app_assoc in H.
Qed.
Lemma eats_decl de st : declaration de -> eats st de st.
Proof.
  intros H. destruct (decide (de = [])) as [->|Hne]; [apply eats_nil|]. eapply eats_token; [done| |].
  - intros rest. by destruct (token_decl de rest H).
  - done.
Qed.
Lemma unmarshal_document n s d rest : document n s d -> unmarshal (s ++ rest) = XOk d.
Proof.
  set (st0 := XState [] (XDoc [] [] []) None).
  destruct 1 as [de p al a w1 r es w2 name tag Hde Hp Hn Ha Hw1 Hr Hw2 Hname Htag|de p al a w1 name tag Hde Hp Hn Ha Hw1 Hname Htag];
    pose proof (attr_given al _ _ (attrs_nodup _ _ Ha) Hname) as Ename; pose proof (attr_given al _ _ (attrs_nodup _ _ Ha) Htag) as Etag.
  - set (st1 := XState [n] (XDoc name tag []) None). set (st2 := XState [n] (XDoc name tag es) None).
    assert (E1 : eats st0 (B "<" ++ n ++ a ++ w1 ++ B ">") st1).
    { eapply eats_token; [done|intros rst; by apply (token_tag n al a w1 false)|]. cbn [take_token]. unfold start_element. cbn [xs_open]. by rewrite Ename, Etag. }
    pose proof (eats_body r es Hr n (XDoc name tag [])) as E2. change (eats_lt st1 r st2) in E2.
    destruct (eats_decl de st0 Hde) as (k0 & Hk0 & H0). destruct (eats_prolog p Hp (XDoc [] [] [])) as (k1 & Hk1 & H1).
    destruct E1 as (k2 & Hk2 & H2). destruct E2 as (k3 & Hk3 & H3).
    unfold unmarshal. set (L := length _). assert (HL : (k0 + (k1 + (k2 + k3)) < L)%nat).
    { unfold L. rewrite !app_length in *. simpl in *. lia. }
    replace (S L) with (k0 + (k1 + (k2 + (k3 + S (L - k0 - k1 - k2 - k3)))))%nat by lia.
    rewrite <- !app_assoc. rewrite H0. change (B "<" ++ ?x) with (byte 60 :: x). fold st0 in H1. rewrite H1.
    change (byte 60 :: ?x) with (B "<" ++ x). specialize (H2 (k3 + S (L - k0 - k1 - k2 - k3))%nat (r ++ B "</" ++ n ++ w2 ++ B ">" ++ rest)).
    rewrite <- !app_assoc in H2. rewrite H2. change (B "</" ++ ?x) with (byte 60 :: (B "/" ++ x)). rewrite H3.
    change (byte 60 :: B "/" ++ ?x) with (B "</" ++ x). rewrite xloop_S, token_end by done. cbn [xbind take_token]. unfold end_element. cbn [xs_open st2]. by rewrite bool_decide_eq_true_2.
  - destruct (eats_decl de st0 Hde) as (k0 & Hk0 & H0). destruct (eats_prolog p Hp (XDoc [] [] [])) as (k1 & Hk1 & H1).
    unfold unmarshal. set (L := length _). assert (HL : (k0 + k1 < L)%nat).
    { unfold L. rewrite !app_length in *. simpl in *. lia. }
    replace (S L) with (k0 + (k1 + S (L - k0 - k1)))%nat by lia.
    rewrite <- !app_assoc. rewrite H0. change (B "<" ++ ?x) with (byte 60 :: x). fold st0 in H1. rewrite H1.
    change (byte 60 :: ?x) with (B "<" ++ x). rewrite xloop_S. rewrite (token_start n al a w1 true) by done. cbn [xbind take_token]. unfold start_element. cbn [xs_open st0].
    rewrite Ename, Etag. unfold end_element. cbn [xs_open]. by rewrite bool_decide_eq_true_2.
Qed.
