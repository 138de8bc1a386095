(** * Bytes that are no XML characters are rejected (C95). *)
From Verif Require Import GoBase GoStrings LangModel LangSpec XmlModel XmlSpec XmlProofs XmlProofs2 XmlProofs3 XmlDocSpec XmlDocProofs XmlDocProofs2 XmlDocProofs3 XmlDocProofs4 XmlDocProofs5 XmlDocProofs6.
From Coq Require Import Lia.
Local Open Scope Z_scope.

Lemma xtext_plain r : forall n b0 b1 acc rest, byte 60 ∉ r -> byte 38 ∉ r -> ~ contains (B "]]>") (b0 :: b1 :: r) ->
  exists b0' b1', xtext (length r + n) None false b0 b1 acc (r ++ rest) = xtext n None false b0' b1' (reverse (unl (is_byte 13 b1) r) ++ acc) rest.
Proof.
  induction r as [|c r IH]; intros n b0 b1 acc rest Hlt Ham Hc; [by exists b0, b1|].
  apply not_elem_of_cons in Hlt as [Hlt Hlt']. apply not_elem_of_cons in Ham as [Ham Ham'].
  cbn [length Nat.add app xtext unl].
  assert (Hno : forall b, b && is_byte 93 b0 && is_byte 93 b1 && is_byte 62 c = false).
  { intros b. destruct (b && _ && _ && _) eqn:E; [|done]. exfalso.
    apply andb_prop in E as [E E3]. apply andb_prop in E as [E E2]. apply andb_prop in E as [_ E1].
    apply is_byte_true in E1 as [-> _]. apply is_byte_true in E2 as [-> _]. apply is_byte_true in E3 as [-> _]. apply Hc. by exists [], r. }
  rewrite Hno. rewrite (byte_neq 60 c) by (done || lia). cbn [andb]. rewrite bool_decide_eq_false_2 by done.
  rewrite (byte_neq 38 c) by (done || lia). cbn [andb].
  assert (Hc' : ~ contains (B "]]>") (b1 :: c :: r)) by (intros K; by apply Hc, contains_cons).
  destruct (is_byte 13 c) eqn:E13.
  - destruct (IH n b1 c (lf :: acc) rest Hlt' Ham' Hc') as (x & y & E). exists x, y. rewrite E, E13. by rewrite reverse_cons, <- app_assoc.
  - destruct (is_byte 13 b1 && is_byte 10 c) eqn:E10.
    + destruct (IH n b1 c acc rest Hlt' Ham' Hc') as (x & y & E). exists x, y. by rewrite E, E13.
    + destruct (IH n b1 c (c :: acc) rest Hlt' Ham' Hc') as (x & y & E). exists x, y. rewrite E, E13. by rewrite reverse_cons, <- app_assoc.
Qed.
Lemma text_illegal r rest : byte 60 ∉ r -> byte 38 ∉ r -> ~ contains (B "]]>") r -> ~ xml_chars r -> text None false (r ++ byte 60 :: rest) = XErr.
Proof.
  intros H1 H2 H3 H4. unfold text. rewrite app_length. cbn [length].
  replace (S (length r + S (length rest)))%nat with (length r + S (S (length rest)))%nat by lia.
  destruct (xtext_plain r (S (S (length rest))) nul nul [] (byte 60 :: rest) H1 H2) as (x & y & ->); [by apply contains_nul|].
  rewrite (xtext_end None) by done. change (is_byte 13 nul) with false. rewrite (proj1 (unl_unix r)), app_nil_r, reverse_involutive.
  unfold finish. rewrite legal_unix. destruct (legal r) eqn:E; [|done]. by apply legal_iff in E.
Qed.
Lemma illegal_rejected s r rest : after s -> byte 60 ∉ r -> byte 38 ∉ r -> ~ contains (B "]]>") r -> ~ xml_chars r -> unmarshal (s ++ r ++ B "<" ++ rest) = XErr.
Proof.
  intros Ha H1 H2 H3 H4. destruct (eats_after s Ha) as (st & Hs & _).
  destruct (eats_unmarshal s st (r ++ B "<" ++ rest) Hs) as (k & Hk & ->). destruct k as [|k]; [lia|]. rewrite xloop_S.
  enough (raw_token (r ++ B "<" ++ rest) = XErr) as -> by done.
  destruct r as [|c r]; [destruct H4; by apply legal_iff|]. pose proof H1 as [Hc _]%not_elem_of_cons.
  unfold raw_token. cbn [app]. rewrite (byte_neq 60 c) by (done || lia). change (B "<" ++ rest) with (byte 60 :: rest).
  change (c :: r ++ byte 60 :: rest) with ((c :: r) ++ byte 60 :: rest). by rewrite text_illegal.
Qed.
Lemma load_illegal (parse_tag : bytes -> bytes) decode l s r rest : faithful decode -> after s ->
  byte 60 ∉ r -> byte 38 ∉ r -> ~ contains (B "]]>") r -> ~ xml_chars r -> load_xml parse_tag decode l (s ++ r ++ B "<" ++ rest) = (l, false).
Proof. intros Hf Ha H1 H2 H3 H4. apply rejected; [done|]. by apply illegal_rejected. Qed.
Lemma bell_illegal : ~ xml_chars (B "a" ++ [byte 7]) /\ ~ xml_chars [byte 195] /\ ~ xml_chars [byte 237; byte 160; byte 128].
Proof. split_and!; intros H%legal_iff; vm_compute in H; discriminate. Qed.
