(** * Entries that GetXML spoils. *)
From Verif Require Import GoBase GoStrings GoStringsProofs LangModel XmlModel XmlSpec XmlProofs XmlProofs2 XmlProofs3.
Local Open Scope Z_scope.

(** ** Values *)
Lemma entry_shape l k v rest : lf :: xml_entry l (k, v) ++ rest =
  lf :: B "  <entry id=""" ++ k ++ B """ status=""" ++ lget_status l k ++ B """>" ++ (B "<![CDATA[" ++ v ++ B "]]>" ++ B "</entry>" ++ rest).
Proof. unfold xml_entry. cbn [fst snd]. rewrite <- !app_assoc. reflexivity. Qed.

Lemma stray_bad l k v1 v2 : attr_text k -> attr_text (lget_status l k) -> ~ contains (B "]]>") v1 -> byte 60 ∉ v2 -> byte 38 ∉ v2 ->
  forall n d rest, xloop (20 + n) (XState [B "language"] d None) (lf :: xml_entry l (k, v1 ++ B "]]>" ++ v2) ++ rest) = XErr.
Proof.
  intros Hk Hs Hv Hlt Ham n d rest. rewrite entry_shape. change (20 + n)%nat with (S (S (S (S (16 + n))))).
  rewrite read_to_value by done. rewrite xloop_S, read_cdata. rewrite <- (app_assoc v1), <- (app_assoc (B "]]>")).
  rewrite text_cdata by done. destruct (legal v1); [|done]. cbn [xbind take_token]. rewrite xloop_S.
  assert (E : raw_token (v2 ++ B "]]>" ++ B "</entry>" ++ rest) = XErr).
  { assert (T : text None false (v2 ++ B "]]>" ++ B "</entry>" ++ rest) = XErr).
    { unfold text. apply xtext_stray; [done..|]. rewrite !app_length. simpl. lia. }
    destruct v2 as [|c v2].
    - change ([] ++ B "]]>" ++ B "</entry>" ++ rest) with ("]"%char :: B "]>" ++ B "</entry>" ++ rest) in *.
      unfold raw_token. change (is_byte 60 "]"%char) with false. cbv iota. by rewrite T.
    - apply not_elem_of_cons in Hlt as [Hc _]. cbn [app] in *. unfold raw_token. rewrite (byte_neq 60 c) by (done || lia). by rewrite T. }
  by rewrite E.
Qed.
Lemma illegal_bad l k v : attr_text k -> attr_text (lget_status l k) -> ~ contains (B "]]>") v -> ~ xml_chars v ->
  forall n d rest, xloop (20 + n) (XState [B "language"] d None) (lf :: xml_entry l (k, v) ++ rest) = XErr.
Proof.
  intros Hk Hs Hv Hx n d rest. rewrite entry_shape. change (20 + n)%nat with (S (S (S (17 + n)))).
  rewrite read_to_value by done. rewrite xloop_S, read_cdata. rewrite text_cdata by done.
  destruct (legal v) eqn:E; [|done]. by apply legal_iff in E.
Qed.
(** "]]><![CDATA[" in a value disappears. *)
Lemma seam_read l k v1 v2 : attr_text k -> attr_text (lget_status l k) -> value_text v1 -> value_text v2 ->
  forall n d rest, xloop (5 + n) (XState [B "language"] d None) (lf :: xml_entry l (k, v1 ++ B "]]><![CDATA[" ++ v2) ++ rest) =
    xloop n (XState [B "language"] (add_doc d [(k, unix v1 ++ unix v2, lget_status l k)]) None) rest.
Proof.
  intros Hk Hs [Hx1 Hv1] [Hx2 Hv2] n d rest. rewrite entry_shape. change (5 + n)%nat with (S (S (S (S (S n))))).
  rewrite read_to_value by done. rewrite xloop_S, read_cdata. rewrite <- (app_assoc v1), <- (app_assoc (B "]]><![CDATA[")).
  change (B "]]><![CDATA[" ++ ?x) with (B "]]>" ++ (B "<![CDATA[" ++ x)). rewrite text_cdata by done.
  rewrite (proj2 (legal_iff v1) Hx1). cbn [xbind take_token char_data xs_open xs_entry xs_doc app].
  rewrite xloop_S, read_cdata, text_cdata by done. rewrite (proj2 (legal_iff v2) Hx2).
  cbn [xbind take_token char_data xs_open xs_entry xs_doc app]. rewrite xloop_S, read_end. reflexivity.
Qed.
(** A value that closes its entry and opens another. *)
Lemma inject_read l k v1 k2 s2 v2 : attr_text k -> attr_text (lget_status l k) -> value_text v1 -> attr_text k2 -> attr_text s2 -> value_text v2 ->
  forall n d rest, xloop (7 + n) (XState [B "language"] d None) (lf :: xml_entry l (k, v1 ++ inject k2 s2 ++ v2) ++ rest) =
    xloop n (XState [B "language"] (add_doc d [(k, unix v1, lget_status l k); (k2, unix v2, s2)]) None) rest.
Proof.
  intros Hk Hs Hv1 Hk2 Hs2 Hv2 n d rest. change (7 + n)%nat with (4 + (3 + n))%nat.
  replace (lf :: xml_entry l (k, v1 ++ inject k2 s2 ++ v2) ++ rest) with (lf :: xml_entry l (k, v1) ++ (ent k2 s2 v2 ++ rest)).
  2:{ rewrite !entry_shape. unfold ent, inject. rewrite <- !app_assoc. reflexivity. }
  rewrite read_entry by (by split). rewrite read_ent by done. unfold add_doc. cbn [x_name x_lang x_entries].
  by rewrite <- app_assoc.
Qed.

(** ** Keys *)
Lemma skip_app b r : exists b', skip_space (b ++ dq :: r) = b' ++ dq :: r /\ b' ⊆ b.
Proof.
  induction b as [|c b (b' & IH & Hb)]; [by exists []|]. cbn [app skip_space]. destruct (blank_byte c).
  - exists b'. split; [done|]. intros x Hx. right. by apply Hb.
  - exists (c :: b). done.
Qed.
Lemma read_name_app b r : exists b', (read_name (b ++ dq :: r)).2 = b' ++ dq :: r /\ b' ⊆ b.
Proof.
  induction b as [|c b (b' & IH & Hb)]; [by exists []|]. cbn [app read_name]. destruct (name_byte c).
  - exists b'. destruct (read_name (b ++ dq :: r)) as [w q]. cbn [snd] in *. split; [done|]. intros x Hx. right. by apply Hb.
  - exists (c :: b). done.
Qed.
Lemma read_number_app base b r : forall acc, exists b', (read_number base acc (b ++ dq :: r)).2 = b' ++ dq :: r /\ b' ⊆ b.
Proof.
  induction b as [|c b IH]; intros acc.
  - exists []. split; [|done]. cbn [app read_number]. by destruct (base =? 16).
  - cbn [app read_number]. destruct (if base =? 16 then hex_val c else digit_val c) as [z|].
    + destruct (IH (Some (base * match acc with Some a => a | None => 0 end + z))) as (b' & E & Hb).
      exists b'. split; [done|]. intros x Hx. right. by apply Hb.
    + by exists (c :: b).
Qed.
Lemma sub_not (x : ascii) (a b : bytes) : a ⊆ b -> x ∉ b -> x ∉ a.
Proof. intros H Hx Ha. by apply Hx, H. Qed.
Lemma quote_bad b r n acc : byte 61 ∉ b -> byte 62 ∉ b -> xattrs (S n) acc (b ++ dq :: r) = XErr.
Proof.
  intros He Hg. cbn [xattrs]. destruct (skip_app b r) as (b1 & -> & H1).
  assert (K : forall b2, b2 ⊆ b -> match skip_space (b2 ++ dq :: r) with e :: _ => is_byte 61 e = false | [] => True end).
  { intros b2 H2. destruct (skip_app b2 r) as (b3 & -> & H3). destruct b3 as [|c b3]; [done|]. cbn [app].
    apply byte_neq; [lia|]. intros ->. apply He. apply H2, H3. by left. }
  destruct (read_name_app b1 r) as (b2 & E2 & H2).
  assert (K2 := K b2 ltac:(etransitivity; done)).
  destruct b1 as [|c b1]; cbn [app] in *.
  - change (is_byte 47 dq) with false. change (is_byte 62 dq) with false. cbv iota. rewrite E2.
    destruct (skip_space (b2 ++ dq :: r)) as [|e q]; [done|]. by rewrite K2.
  - rewrite (byte_neq 62 c); [|lia|intros ->; apply Hg, H1; by left].
    destruct (is_byte 47 c).
    { destruct b1 as [|c1 b1]; cbn [app]; [done|]. rewrite (byte_neq 62 c1); [done|lia|].
      intros ->. apply Hg, H1. right. by left. }
    rewrite E2. destruct (skip_space (b2 ++ dq :: r)) as [|e q]; [done|]. by rewrite K2.
Qed.
Lemma xtext_walk a : forall n b0 b1 acc rest,
  dq ∉ a -> byte 60 ∉ a -> byte 38 ∉ a -> cr ∉ a -> is_byte 13 b1 = false -> (length a < n)%nat ->
  exists m c0 c1, (n - length a)%nat = S m /\ is_byte 13 c1 = false /\
  xtext n (Some dq) false b0 b1 acc (a ++ rest) = xtext (S m) (Some dq) false c0 c1 (reverse a ++ acc) rest.
Proof.
  induction a as [|c a IH]; intros n b0 b1 acc rest Hq Hlt Ham Hcr Hb1 Hn.
  - destruct n as [|n]; [simpl in Hn; lia|]. exists n, b0, b1. done.
  - apply not_elem_of_cons in Hq as [Hq Hq']. apply not_elem_of_cons in Hlt as [Hlt Hlt'].
    apply not_elem_of_cons in Ham as [Ham Ham']. apply not_elem_of_cons in Hcr as [Hcr Hcr'].
    destruct n as [|n]; [simpl in Hn; lia|]. cbn [app xtext].
    rewrite (bool_decide_eq_false_2 (Some dq = None)) by done. cbn [andb negb].
    rewrite (byte_neq 60 c) by (done || lia). cbn [andb].
    rewrite bool_decide_eq_false_2 by congruence.
    rewrite (byte_neq 38 c) by (done || lia). cbn [andb].
    rewrite (byte_neq 13 c) by (done || lia). rewrite Hb1. cbn [andb].
    destruct (IH n b1 c (c :: acc) rest) as (m & c0 & c1 & E1 & E2 & E3); [done..|by apply byte_neq; [lia|]|simpl in Hn; lia|].
    exists m, c0, c1. split; [simpl; lia|]. split; [done|]. rewrite E3. by rewrite reverse_cons, <- app_assoc.
Qed.
Lemma lt_bad a rest : dq ∉ a -> byte 60 ∉ a -> byte 38 ∉ a -> cr ∉ a -> text (Some dq) false (a ++ byte 60 :: rest) = XErr.
Proof.
  intros H1 H2 H3 H4. unfold text.
  destruct (xtext_walk a (S (length (a ++ byte 60 :: rest))) nul nul [] (byte 60 :: rest)) as (m & c0 & c1 & _ & _ & ->); [done..|rewrite app_length; lia|].
  reflexivity.
Qed.
Lemma entity_bad b r : byte 59 ∉ b -> entity (b ++ dq :: r) = XErr.
Proof.
  intros Hb.
  assert (K : forall b', b' ⊆ b -> match b' ++ dq :: r with e :: _ => is_byte 59 e = false | [] => True end).
  { intros b' H. destruct b' as [|c b']; [done|]. cbn [app]. apply byte_neq; [lia|]. intros ->. apply Hb, H. by left. }
  assert (N : forall base acc c, c ⊆ b -> match read_number base acc (c ++ dq :: r) with
      (Some n, e :: _) => is_byte 59 e = false | _ => True end).
  { intros base acc c Hc. destruct (read_number_app base c r acc) as (b' & E & Hb'). destruct (read_number base acc (c ++ dq :: r)) as [[z|] q]; [|done].
    cbn [snd] in E. subst q. apply K. by transitivity c. }
  destruct b as [|c b]; [done|]. cbn [app entity]. destruct (is_byte 35 c).
  - destruct b as [|x b]; cbn [app].
    + done.
    + destruct (is_byte 120 x).
      * pose proof (N 16 None b ltac:(intros y Hy; right; by right)) as Q. destruct (read_number 16 None (b ++ dq :: r)) as [[z|] [|e q]]; [done| |done..]. by rewrite Q.
      * pose proof (N 10 None (x :: b) ltac:(intros y Hy; by right)) as Q. cbn [app] in Q. destruct (read_number 10 None (x :: b ++ dq :: r)) as [[z|] [|e q]]; [done| |done..]. by rewrite Q.
  - destruct (read_name_app (c :: b) r) as (b' & E & H'). cbn [app] in E. destruct (read_name (c :: b ++ dq :: r)) as [w q]. cbn [snd] in E. subst q.
    specialize (K b' H'). destruct (b' ++ dq :: r) as [|e q]; [done|]. by rewrite K.
Qed.
Lemma amp_bad a b r : dq ∉ a -> byte 60 ∉ a -> byte 38 ∉ a -> cr ∉ a -> byte 59 ∉ b -> text (Some dq) false (a ++ byte 38 :: b ++ dq :: r) = XErr.
Proof.
  intros H1 H2 H3 H4 Hb. unfold text.
  destruct (xtext_walk a (S (length (a ++ byte 38 :: b ++ dq :: r))) nul nul [] (byte 38 :: b ++ dq :: r)) as (m & c0 & c1 & _ & _ & ->); [done..|rewrite app_length; lia|].
  cbn [xtext]. rewrite (bool_decide_eq_false_2 (Some dq = None)) by done. cbn [andb negb].
  change (is_byte 60 (byte 38)) with false. cbn [andb]. rewrite bool_decide_eq_false_2 by done.
  change (is_byte 38 (byte 38)) with true. cbn [andb]. by rewrite entity_bad.
Qed.

(** What a key must be for the attribute to be spoiled. *)
Lemma key_bad l k v : (forall r, text (Some dq) false (k ++ dq :: r) = XErr) \/
    (exists a b, k = a ++ dq :: b /\ attr_text a /\ byte 61 ∉ b /\ byte 62 ∉ b) ->
  forall n d rest, xloop (20 + n) (XState [B "language"] d None) (lf :: xml_entry l (k, v) ++ rest) = XErr.
Proof.
  intros H n d rest. rewrite entry_shape. change (20 + n)%nat with (S (S (S (17 + n)))).
  rewrite xloop_S. change (lf :: B "  <entry id=""" ++ ?x) with (lf :: B "  <" ++ (B "entry id=""" ++ x)).
  rewrite read_gap. cbn [xbind take_token char_data xs_open xs_entry]. rewrite xloop_S.
  change (B "<" ++ (B "entry id=""" ++ ?x)) with (B "<entry id=""" ++ x). rewrite start_entry. change (length (B " id=""" ++ ?x)) with (S (S (S (S (S (length x)))))). rewrite attr_id.
  destruct H as [H|(a & b & -> & Ha & Hb1 & Hb2)].
  - change (B """ status=""" ++ ?x) with (dq :: (B " status=""" ++ x)). by rewrite H.
  - change (B """ status=""" ++ ?x) with (dq :: (B " status=""" ++ x)). rewrite <- app_assoc. cbn [app].
    rewrite text_attr by done. cbn [xbind]. change (length (B " id=""" ++ ?x)) with (S (S (S (S (S (length x)))))).
    by rewrite quote_bad.
Qed.
