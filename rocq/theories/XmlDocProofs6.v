(** * Texts with an error in the middle are rejected (C95). *)
From Verif Require Import GoBase GoStrings LangModel LangSpec XmlModel XmlSpec XmlProofs XmlProofs2 XmlProofs3 XmlDocSpec XmlDocProofs XmlDocProofs2 XmlDocProofs3 XmlDocProofs5.
Local Open Scope Z_scope.

(** Reading text, whatever follows. *)
Lemma xtext_reach q s u : spells q s u -> q <> Some (byte 38) -> forall n b0 b1 acc rest, (q = None -> ~ contains (B "]]>") (b0 :: b1 :: s)) -> is_byte 13 b1 = false ->
  (length (s ++ rest) < n)%nat -> exists n' b0' b1' acc', (length rest < n')%nat /\ xtext n q false b0 b1 acc (s ++ rest) = xtext n' q false b0' b1' acc' rest.
Proof.
  intros Hsp Hq38.
  assert (Hrun : forall r n b0 b1 acc rest, run q r -> (q = None -> ~ contains (B "]]>") (b0 :: b1 :: r)) ->
    exists b0' b1' acc', xtext (length r + n) q false b0 b1 acc (r ++ rest) = xtext n q false b0' b1' acc' rest).
  { intros r n b0 b1 acc rest (_ & H1 & H2 & H3) Hc.
    revert n b0 b1 acc H1 H2 H3 Hc. induction r as [|c r IH]; intros n b0 b1 acc Hlt Ham Hq Hc; [by exists b0, b1, acc|].
    apply not_elem_of_cons in Hlt as [Hlt Hlt']. apply not_elem_of_cons in Ham as [Ham Ham'].
    assert (Hq' : forall c, q = Some c -> c ∉ r) by (intros x Hx; specialize (Hq x Hx); set_solver).
    assert (Hqc : q <> Some c) by (intros Hx; specialize (Hq c Hx); set_solver).
    cbn [length Nat.add app xtext].
    assert (bool_decide (q = None) && is_byte 93 b0 && is_byte 93 b1 && is_byte 62 c = false) as ->.
    { destruct (bool_decide _ && _ && _ && _) eqn:E; [|done]. exfalso.
      apply andb_prop in E as [E E3]. apply andb_prop in E as [E E2]. apply andb_prop in E as [E0 E1]. apply bool_decide_eq_true in E0.
      apply is_byte_true in E1 as [-> _]. apply is_byte_true in E2 as [-> _]. apply is_byte_true in E3 as [-> _].
      apply (Hc E0). by exists [], r. }
    rewrite (byte_neq 60 c) by (done || lia). cbn [andb]. rewrite bool_decide_eq_false_2 by done.
    rewrite (byte_neq 38 c) by (done || lia). cbn [andb].
    assert (Hc' : q = None -> ~ contains (B "]]>") (b1 :: c :: r)) by (intros E K; by apply (Hc E), contains_cons).
    destruct (is_byte 13 c); [by apply IH|]. destruct (is_byte 13 b1 && is_byte 10 c); by apply IH. }
  induction Hsp as [r Hr|r a t s u Hr Ha Hs IH]; intros n b0 b1 acc rest Hc Hb Hn; rewrite !app_length in Hn.
  - replace n with (length r + (n - length r))%nat by lia. destruct (Hrun r (n - length r)%nat b0 b1 acc rest Hr Hc) as (x & y & z & ->).
    exists (n - length r)%nat, x, y, z. split; [lia|done].
  - destruct (entity_ok a t Ha) as (a' & -> & Hent). cbn [length] in Hn.
    replace n with (length r + S (n - length r - 1))%nat by lia. rewrite <- !app_assoc.
    destruct (Hrun r (S (n - length r - 1)) b0 b1 acc ((byte 38 :: a') ++ s ++ rest) Hr) as (x & y & z & ->).
    { intros Hq K. apply (Hc Hq). change (b0 :: b1 :: r ++ (byte 38 :: a') ++ s) with ((b0 :: b1 :: r) ++ (byte 38 :: a') ++ s). by apply contains_prefix. }
    cbn [app xtext]. change (is_byte 62 (byte 38)) with false. rewrite !andb_false_r. change (is_byte 60 (byte 38)) with false. cbn [andb negb].
    rewrite bool_decide_eq_false_2 by done.
    change (is_byte 38 (byte 38)) with true. cbn [andb]. rewrite Hent. cbn [xbind]. apply IH; [|done|rewrite app_length; lia].
    intros Hq. apply contains_nul. intros K. apply (Hc Hq). change (b0 :: b1 :: r ++ (byte 38 :: a') ++ s) with ([b0; b1] ++ r ++ (byte 38 :: a') ++ s).
    by do 3 apply contains_suffix.
Qed.
Lemma text_reach q s u rest : spells q s u -> q <> Some (byte 38) -> (q = None -> ~ contains (B "]]>") s) ->
  exists n b0 b1 acc, (length rest < n)%nat /\ text q false (s ++ rest) = xtext n q false b0 b1 acc rest.
Proof. intros Hs Hq Hc. unfold text. eapply xtext_reach; [done|done| |done|lia]. intros E. by apply contains_nul, Hc. Qed.

Lemma separator_name c : c ∈ separators -> name_byte c = false.
Proof. intros H. apply negb_true_iff. revert c H. by apply Forall_bytes. Qed.
Lemma name_rest w c r : Forall (fun c => c ∈ letters ++ B "0123456789.-") w -> name_byte c = false -> read_name (w ++ c :: r) = (w, c :: r).
Proof. intros Hw Hc. apply read_plain; [|done]. eapply Forall_impl; [exact Hw|]. intros x Hx. by apply rest_plain. Qed.
Lemma rest_not_hash x : x ∈ letters ++ B "0123456789.-" -> is_byte 35 x = false.
Proof. intros H. apply negb_true_iff. revert x H. by apply Forall_bytes. Qed.
Lemma loose_entity a rest : loose_ampersand a -> exists a', a = byte 38 :: a' /\ entity (a' ++ rest) = XErr.
Proof.
  destruct 1 as [w c Hw Hc H59|w Hw Hk].
  - exists (w ++ [c]). split; [done|]. rewrite <- app_assoc. cbn [app].
    assert (exists x y, w ++ c :: rest = x :: y /\ is_byte 35 x = false) as (x & y & E & Hx).
    { destruct w as [|x w]; simpl.
      - exists c, rest. split; [done|]. apply negb_true_iff. clear H59. revert c Hc. by apply Forall_bytes.
      - inversion Hw; subst. eexists _, _. split; [done|]. by apply rest_not_hash. }
    unfold entity. rewrite E, Hx, <- E. rewrite name_rest by (done || by apply separator_name). cbn iota beta.
    by rewrite (byte_neq 59 c) by (done || lia).
  - exists (w ++ B ";"). split; [done|]. rewrite <- app_assoc. cbn [app B].
    assert (exists x y, w ++ ";"%char :: rest = x :: y /\ is_byte 35 x = false) as (x & y & E & Hx).
    { destruct w as [|x w]; simpl; [by eexists _, _|]. inversion Hw; subst. eexists _, _. split; [done|]. by apply rest_not_hash. }
    change (B ";" ++ rest) with (";"%char :: rest). unfold entity. rewrite E, Hx, <- E. rewrite name_rest by done. cbn iota beta.
    change (is_byte 59 ";"%char) with true. cbn iota. rewrite !not_elem_of_cons in Hk. destruct Hk as (? & ? & ? & ? & ? & _).
    by rewrite !bool_decide_eq_false_2 by done.
Qed.
Lemma xtext_amp q n b0 b1 acc a rest : loose_ampersand a -> q <> Some (byte 38) -> (0 < n)%nat -> xtext n q false b0 b1 acc (a ++ rest) = XErr.
Proof.
  intros Ha Hq Hn. destruct (loose_entity a rest Ha) as (a' & -> & He). destruct n as [|n]; [lia|]. cbn [app xtext].
  change (is_byte 62 (byte 38)) with false. rewrite !andb_false_r. change (is_byte 60 (byte 38)) with false. cbn [andb negb].
  rewrite bool_decide_eq_false_2 by done. change (is_byte 38 (byte 38)) with true. cbn [andb]. by rewrite He.
Qed.
Lemma xtext_less q n b0 b1 acc rest : (0 < n)%nat -> xtext n (Some q) false b0 b1 acc (byte 60 :: rest) = XErr.
Proof. intros Hn. destruct n as [|n]; [lia|]. cbn [xtext]. rewrite bool_decide_eq_false_2 by done. done. Qed.
Lemma xtext_bracket n b0 b1 acc s : xtext (S n) None false b0 b1 acc ("]"%char :: s) = xtext n None false b1 "]"%char ("]"%char :: acc) s.
Proof.
  cbn [xtext]. change (is_byte 62 "]"%char) with false. rewrite !andb_false_r. rewrite bool_decide_eq_false_2 by done.
  change (is_byte 60 "]"%char) with false. change (is_byte 38 "]"%char) with false. change (is_byte 13 "]"%char) with false. change (is_byte 10 "]"%char) with false. cbn [andb negb].
  by destruct (is_byte 13 b1).
Qed.
Lemma xtext_brackets n b0 b1 acc rest : (3 <= n)%nat -> xtext n None false b0 b1 acc (B "]]>" ++ rest) = XErr.
Proof.
  intros Hn. destruct n as [|[|[|n]]]; [lia..|]. change (B "]]>" ++ rest) with ("]"%char :: "]"%char :: ">"%char :: rest).
  rewrite xtext_bracket, xtext_bracket. cbn [xtext]. by rewrite bool_decide_eq_true_2.
Qed.

(** ** Attributes *)
Definition value_bad (s : bytes) : Prop := match skip_space s with [] => True | q :: r => is_byte 34 q || is_byte 39 q = true -> text (Some q) false r = XErr end.
Lemma begun_token b c s : attr_begun b -> name_byte c = false -> blank_byte c = false -> (is_byte 61 c = false \/ value_bad s) -> raw_token (b ++ c :: s) = XErr.
Proof.
  intros [n al a w k w' Hn Ha Hw Hne Hk Hw'] Hc Hbl Hbad. rewrite <- !app_assoc.
  destruct (name_head n Hn) as (x & n' & En & _ & H47 & _ & H63 & H33). unfold raw_token. change (B "<" ++ ?z) with (byte 60 :: z). change (is_byte 60 (byte 60)) with true. cbn iota.
  set (tl := w' ++ c :: s).
  assert (Hname : xname (n ++ a ++ w ++ k ++ tl) = XOk (n, a ++ w ++ k ++ tl)).
  { destruct Ha as [|v1 kk v2 v3 q ss v al' r' Hv1 Hv1ne Hkk _ _ _ _ _ _ _].
    - destruct w as [|y w]; [done|]. inversion Hw as [|? ? Hy]. cbn [app]. apply xname_ok; [done|]. by apply white_not_name.
    - destruct v1 as [|y v1]; [done|]. inversion Hv1 as [|? ? Hy]. rewrite <- !app_assoc. cbn [app]. apply xname_ok; [done|]. by apply white_not_name. }
  rewrite Hname. rewrite En at 1. cbn [app]. rewrite H47, H63, H33. cbn [xbind]. pose proof (attrs_long _ _ Ha) as Hl.
  replace (S (length (a ++ w ++ k ++ tl))) with (length al + S (length (a ++ w ++ k ++ tl) - length al))%nat by (rewrite !app_length; lia).
  rewrite (xattrs_run al a Ha) by (by destruct w). cbn [xattrs]. rewrite skip_white by done.
  destruct (name_head k Hk) as (c' & k' & Ek & Hb & H47' & H62 & _).
  assert (Ehead : k ++ tl = c' :: (k' ++ tl)) by (by rewrite Ek).
  rewrite Ehead at 1. rewrite skip_stop by done. cbn iota beta. rewrite H47', H62. rewrite <- Ehead.
  assert (Hname' : xname (k ++ tl) = XOk (k, tl)) by (unfold tl; by apply (xname_white k w' c)).
  assert (Hread : (read_name (k ++ tl)).2 = tl).
  { destruct (name_plain k Hk) as (c0 & k0 & -> & _ & Hp). destruct (white_app_head w' c s (fun x => name_byte x = false) Hw') as (y & z & E & Hx'); [done|apply white_not_name|].
    unfold tl. rewrite E. by rewrite read_plain. }
  rewrite Hread, Hname'. unfold tl. rewrite skip_white by done. rewrite skip_stop by done. cbn iota beta.
  destruct (is_byte 61 c); [|done]. destruct Hbad as [|Hbad]; [done|]. cbn [xbind]. unfold value_bad in Hbad.
  destruct (skip_space s) as [|q r2]; [done|]. destruct (is_byte 34 q || is_byte 39 q); [|done]. by rewrite Hbad.
Qed.
Lemma value_at w q s : white w -> blank_byte q = false -> (is_byte 34 q || is_byte 39 q = true -> text (Some q) false s = XErr) -> value_bad (w ++ q :: s).
Proof. intros Hw Hq H. unfold value_bad. rewrite skip_white by done. by rewrite skip_stop by done. Qed.
Lemma not_white c : ~ white [c] -> blank_byte c = false.
Proof.
  intros H. destruct (blank_byte c) eqn:E; [|done]. destruct H. unfold blank_byte in E. rewrite !orb_true_iff in E.
  constructor; [|constructor]. destruct E as [[[E|E]|E]|E]; apply is_byte_true in E as [-> _]; set_solver.
Qed.
(** ** A comment with two dashes *)
Lemma comment_dashes c x rest : forall b0 b1, ~ contains (B "--") (b0 :: b1 :: c ++ B "-") -> x <> ">"%char -> comment b0 b1 (c ++ B "--" ++ x :: rest) = None.
Proof.
  induction c as [|b c IH]; intros b0 b1 Hc Hx.
  - assert (is_byte 45 b0 && is_byte 45 b1 = false) as E.
    { destruct (_ && _) eqn:E; [|done]. apply andb_prop in E as [E1 E2]. apply is_byte_true in E1 as [-> _]. apply is_byte_true in E2 as [-> _]. destruct Hc. by exists [], (B "-"). }
    assert (is_byte 45 b1 = false) as E'.
    { destruct (is_byte 45 b1) eqn:E2; [|done]. apply is_byte_true in E2 as [-> _]. destruct Hc. by exists [b0], []. }
    change (B "--" ++ x :: rest) with ("-"%char :: "-"%char :: x :: rest). cbn [app comment]. rewrite E. change (is_byte 45 "-"%char) with true. rewrite E'. cbn [andb].
    by rewrite (byte_neq 62 x) by (done || lia).
  - cbn [app comment]. assert (is_byte 45 b0 && is_byte 45 b1 = false) as ->.
    { destruct (_ && _) eqn:E; [|done]. apply andb_prop in E as [E1 E2]. apply is_byte_true in E1 as [-> _]. apply is_byte_true in E2 as [-> _]. destruct Hc. by exists [], ((b :: c) ++ B "-"). }
    apply IH; [|done]. intros K. apply Hc. by apply contains_cons.
Qed.
(** ** Tokens *)
Lemma wrong_tag m : wrong m -> (exists m', m = byte 60 :: m') \/ loose_ampersand m \/ m = B "]]>".
Proof.
  assert (forall b, attr_begun b -> exists b', b = byte 60 :: b') as Hb by (intros b []; by eexists).
  destruct 1; try (left; by eexists); try (left; match goal with H : attr_begun _ |- _ => destruct (Hb _ H) as [? ->]; by eexists end); tauto.
Qed.
Lemma no_start c : c ∈ B "0123456789.-" -> plain_byte c = true /\ name_start c = false /\ is_byte 47 c = false /\ is_byte 63 c = false /\ is_byte 33 c = false.
Proof.
  intros H. assert (K : plain_byte c && negb (name_start c) && negb (is_byte 47 c) && negb (is_byte 63 c) && negb (is_byte 33 c) = true).
  { revert c H. apply Forall_bytes. by vm_compute. }
  rewrite !andb_true_iff, !negb_true_iff in K. tauto.
Qed.
Lemma token_wrong m m' rest : wrong m -> m = byte 60 :: m' -> raw_token (m ++ rest) = XErr.
Proof.
  intros Hm Em. destruct Hm as [c x Hc Hx|c Hc Hn|b c Hb Hc Hne Hw|b w c Hb Hw Hnw H34 H39|b w q s v Hb Hw Hq Hs|b w q s v a Hb Hw Hq Hs Ha|a Ha| |c w x Hc Hw Hx].
  - rewrite <- !app_assoc. cbn [app]. change (B "<!--" ++ ?z) with ("<"%char :: "!"%char :: "-"%char :: "-"%char :: z).
    unfold raw_token. change (is_byte 60 "<"%char) with true. change (is_byte 47 "!"%char) with false. change (is_byte 63 "!"%char) with false. change (is_byte 33 "!"%char) with true.
    change (is_byte 91 "-"%char) with false. change (is_byte 45 "-"%char) with true. cbn iota. by rewrite comment_dashes by (done || by apply contains_nul2).
  - change ((B "<" ++ [c]) ++ rest) with ("<"%char :: c :: rest). unfold raw_token. change (is_byte 60 "<"%char) with true. cbn iota.
    assert (c <> "/"%char /\ c <> "!"%char /\ c <> "?"%char) as (H1 & H2 & H3) by (split_and!; intros ->; apply Hn; set_solver).
    rewrite (byte_neq 47 c), (byte_neq 63 c), (byte_neq 33 c) by (done || lia). unfold xname. cbn [read_name]. by rewrite (separator_name c Hc).
  - rewrite <- app_assoc. cbn [app]. apply begun_token; [done|by apply separator_name|by apply not_white|]. left. apply byte_neq; [lia|done].
  - rewrite <- !app_assoc. cbn [app]. change (B "=" ++ ?z) with ("="%char :: z). apply begun_token; [done..|]. right. apply value_at; [done|by apply not_white|].
    rewrite (byte_neq 34 c), (byte_neq 39 c) by (done || lia). done.
  - rewrite <- !app_assoc. cbn [app]. change (B "=" ++ ?z) with ("="%char :: z). apply begun_token; [done..|]. right.
    apply value_at; [done|by destruct Hq as [->| ->]|]. intros _. change (B "<" ++ rest) with (byte 60 :: rest).
    destruct (text_reach (Some q) s v (byte 60 :: rest) Hs) as (n & b0 & b1 & acc & Hn & ->); [by destruct Hq as [->| ->]|done|]. apply xtext_less. simpl in Hn. lia.
  - rewrite <- !app_assoc. cbn [app]. change (B "=" ++ ?z) with ("="%char :: z). apply begun_token; [done..|]. right.
    apply value_at; [done|by destruct Hq as [->| ->]|]. intros _.
    destruct (text_reach (Some q) s v (a ++ rest) Hs) as (n & b0 & b1 & acc & Hn & ->); [by destruct Hq as [->| ->]|done|]. apply xtext_amp; [done|by destruct Hq as [->| ->]|lia].
  - by destruct Ha.
  - done.
  - rewrite <- !app_assoc. cbn [app]. change (B "<" ++ ?z) with ("<"%char :: z). unfold raw_token. change (is_byte 60 "<"%char) with true. cbn iota.
    destruct (no_start c Hc) as (Hp & Hs & H1 & H2 & H3). rewrite H1, H2, H3.
    assert (Hall : Forall (fun c => plain_byte c = true) (c :: w)).
    { constructor; [done|]. eapply Forall_impl; [exact Hw|]. intros y. apply rest_plain. }
    assert (xname (c :: w ++ x :: rest) = XErr) as ->; [|done].
    unfold xname. change (c :: w ++ x :: rest) with ((c :: w) ++ x :: rest). rewrite read_plain by (done || by apply separator_name). rewrite Hs.
    assert (existsb (fun c => (128 <=? ord c) || is_byte 58 c) (c :: w) = false) as ->; [|done].
    clear -Hall. induction Hall as [|y w' Hy _ IH]; [done|]. cbn [existsb]. rewrite IH. apply andb_prop in Hy as [_ Hy]. apply negb_true_iff in Hy. by rewrite Hy.
Qed.
Lemma eats_element st n al m u : sound_state st -> element n al m u -> exists st', eats st m st' /\ sound_state st'.
Proof.
  intros [Ho He] Hm. destruct st as [[|r1 [|r2 o]] d e]; [done| |].
  - specialize (He eq_refl). simpl in He. subst e. destruct (decide (n = B "entry")) as [->|Hn].
    + destruct (given_ex al (B "id")) as [id Hid], (given_ex al (B "status")) as [st Hst]. eexists. split; [by eapply root_entry|]. done.
    + eexists. split; [by eapply root_other|]. done.
  - set (st := XState (r1 :: r2 :: o) d e). assert (Hd : deep st) by (unfold deep; simpl; lia). exists st. split; [|done].
    destruct Hm as [n al a w1 r u w2 Hn Ha Hw1 Hr Hw2|n al a w1 Hn Ha Hw].
    + set (st1 := XState (n :: xs_open st) (xs_doc st) (xs_entry st)).
      assert (E1 : eats st (B "<" ++ n ++ a ++ w1 ++ B ">") st1).
      { eapply eats_token; [done|intros rest; by apply (token_tag n al a w1 false)|]. simpl. by rewrite start_deep. }
      assert (E2 : eats_lt st1 r st1).
      { assert (deep st1) as D by (unfold deep, st1 in *; simpl; lia). pose proof (eats_inner r u Hr st1 D) as IH. unfold st1 in *. by rewrite char_deeper in IH. }
      assert (E3 : eats st1 (B "</" ++ n ++ w2 ++ B ">") st).
      { eapply eats_token; [done|intros rest; rewrite <- !app_assoc; by apply token_end|]. cbn [take_token]. by apply end_deep. }
      pose proof (eats_cat _ _ _ _ _ E1 (lt_cat _ _ _ _ _ E2 (ex_intro _ _ eq_refl) E3)) as H. by rewrite <- !app_assoc in H.
    + eapply eats_token; [done|intros rest; by apply (token_tag n al a w1 true)|]. cbn [take_token]. rewrite start_deep by done. by apply end_deep.
Qed.
Lemma sound_data st v : sound_state st -> sound_state (char_data st v).
Proof. destruct st as [[|a [|b [|c o]]] d [[[id t] s]|]]; try done. Qed.
Lemma eats_after s : after s -> exists st, eats st0 s st /\ sound_state st.
Proof.
  destruct 1 as [n ns s Ho|n ns s r u m v Ho Hr Hm]; destruct (eats_opens _ _ Ho) as (st & Hs & _ & Hst); [by exists st|].
  destruct (eats_content st r u Hst Hr) as (st' & He & _ & Hst').
  assert (exists st2, eats st' m st2 /\ sound_state st2) as (st2 & Hm2 & Hst2).
  { destruct Hm as [v Hv|m Hm|n' al m u' Hm]; [| |by eapply eats_element].
    - eexists. split; [eapply eats_token; [done|intros rest; by apply token_cdata|done]|]. by apply sound_data.
    - exists st'. split; [|done]. eapply eats_token; [by destruct (remark_head _ Hm) as [? ->]|intros rest; by apply token_remark|done]. }
  exists st2. split; [|done]. eapply eats_cat; [done|]. eapply lt_cat; [done|by eapply markup_head|done].
Qed.
Lemma run_no_lt s u : char_text s u -> forall c s', s = c :: s' -> is_byte 60 c = false.
Proof.
  intros [Hs _] c s' E. destruct Hs as [r (_ & H & _)|r a t s u (_ & H & _) Ha _].
  - subst r. apply not_elem_of_cons in H as [H _]. apply byte_neq; [lia|done].
  - destruct r as [|x r]; [|injection E as -> _; apply not_elem_of_cons in H as [H _]; apply byte_neq; [lia|done]].
    destruct (entity_ok _ _ Ha) as (a' & -> & _). by injection E as <- _.
Qed.
Lemma error_rejected s t u m rest : after s -> char_text t u -> wrong m -> unmarshal (s ++ t ++ m ++ rest) = XErr.
Proof.
  intros Ha Ht Hm. destruct (eats_after s Ha) as (st & Hs & _). destruct (wrong_tag m Hm) as [[m' Em]|K].
  - destruct (eats_lt_unmarshal (s ++ t) (char_data st u) (m' ++ rest)) as (k & Hk & E); [eapply eats_lt_cat; [done|by apply eats_text]|].
    rewrite Em, <- app_assoc in *. cbn [app]. etransitivity; [exact E|]. destruct k as [|k]; [lia|]. rewrite xloop_S.
    change (byte 60 :: m' ++ rest) with ((byte 60 :: m') ++ rest). by rewrite (token_wrong _ m').
  - destruct (eats_unmarshal s st (t ++ m ++ rest) Hs) as (k & Hk & ->). destruct k as [|k]; [lia|]. rewrite xloop_S.
    enough (raw_token (t ++ m ++ rest) = XErr) as -> by done.
    assert (exists c z, t ++ m ++ rest = c :: z /\ is_byte 60 c = false) as (c & z & E & Hc).
    { destruct t as [|c t]; [|exists c, (t ++ m ++ rest); split; [done|]; by eapply run_no_lt].
      destruct K as [K| ->]; [|by eexists _, _]. destruct (loose_entity m rest K) as (a' & -> & _). by eexists _, _. }
    assert (text None false (t ++ m ++ rest) = XErr) as E2.
    { destruct Ht as [Ht Hct]. destruct (text_reach None t u (m ++ rest) Ht) as (n & b0 & b1 & acc & Hn & ->); [done|done|].
      destruct K as [K| ->]; [apply xtext_amp; [done|done|lia]|]. apply xtext_brackets. simpl in Hn. lia. }
    unfold raw_token. rewrite E, Hc, <- E, E2. done.
Qed.
Lemma load_error (parse_tag : bytes -> bytes) decode l s t u m rest : faithful decode -> after s -> char_text t u -> wrong m ->
  load_xml parse_tag decode l (s ++ t ++ m ++ rest) = (l, false).
Proof. intros Hf Ha Ht Hm. apply rejected; [done|]. by eapply error_rejected. Qed.

(** ** Cases *)
Lemma name_a : xml_name (B "a"). Proof. by apply name_by_letters. Qed.
Lemma begun_b : attr_begun (B "<b c").
Proof. exact (ab (B "b") [] [] (B " ") (B "c") [] ltac:(by apply name_by_letters) at_nil (white_dec (B " ") eq_refl) ltac:(done) ltac:(by apply name_by_letters) (white_dec [] eq_refl)). Qed.
Lemma plain_letters w : forallb (fun c => bool_decide (c ∈ letters ++ B "0123456789.-")) w = true -> Forall (fun c => c ∈ letters ++ B "0123456789.-") w.
Proof. intros H. apply Forall_forall. intros c Hc. rewrite forallb_forall in H. specialize (H c (proj1 (elem_of_list_In _ _) Hc)). by apply bool_decide_eq_true in H. Qed.
Lemma separator_dec c : bool_decide (c ∈ separators) = true -> c ∈ separators.
Proof. by intros ?%bool_decide_eq_true. Qed.
Lemma wrong_cases : after (B "<a>") /\ wrong (B "<!-- x --y") /\ wrong (B "&amp ") /\ wrong (B "&nbsp;") /\ wrong (B "< ") /\ wrong (B "<b c>") /\ wrong (B "<b c=d") /\ wrong (B "<b c='<") /\ wrong (B "<1st>").
Proof.
  split_and!.
  - exact (af_open _ _ _ (op_root [] [] (B "a") [] [] [] de_none (pr_white [] (white_dec [] eq_refl)) name_a at_nil (white_dec [] eq_refl))).
  - apply (wr_dashes (B " x ") "y"%char); [|done]. intros (a & b & E). do 4 (destruct a as [|? a]; [done|injection E as _ E]). by destruct a.
  - apply wr_amp, (la_name (B "amp") " "%char); [by apply plain_letters|by apply separator_dec|done].
  - apply wr_amp, (la_unknown (B "nbsp")); [by apply plain_letters|]. rewrite !not_elem_of_cons. split_and!; try done. apply not_elem_of_nil.
  - apply (wr_tag_name " "%char); [by apply separator_dec|]. change (B "/!?") with ["/"%char; "!"%char; "?"%char]. rewrite !not_elem_of_cons. split_and!; try done. apply not_elem_of_nil.
  - apply (wr_no_equals (B "<b c") ">"%char); [exact begun_b|by apply separator_dec|done|]. intros H. inversion H as [|? ? K _]. rewrite !elem_of_cons in K. destruct K as [K|[K|[K|[K|K]]]]; try done. by apply elem_of_nil in K.
  - apply (wr_no_quote (B "<b c") [] "d"%char); [exact begun_b|by apply white_dec| |done|done]. intros H. inversion H as [|? ? K _]. rewrite !elem_of_cons in K. destruct K as [K|[K|[K|[K|K]]]]; try done. by apply elem_of_nil in K.
  - apply (wr_value_less (B "<b c") [] (byte 39) [] []); [exact begun_b|by apply white_dec|by right|]. exact (sp_run _ [] ltac:(split_and!; [by apply legal_iff|apply not_elem_of_nil|apply not_elem_of_nil|intros; apply not_elem_of_nil])).
  - apply (wr_tag_digit "1"%char (B "st") ">"%char); [|by apply plain_letters|by apply separator_dec]. by apply (bool_decide_eq_true _).
Qed.
