(** * The reader on the documents of XmlDocSpec (C95): bytes, names, text, attributes. *)
From Verif Require Import GoBase GoStrings LangModel XmlModel XmlSpec XmlProofs XmlProofs2 XmlDocSpec.
Local Open Scope Z_scope.

(** ** Blanks and names *)
Lemma white_blank c : c ∈ [byte 32; byte 9; byte 10; byte 13] -> blank_byte c = true.
Proof. intros H. repeat (apply elem_of_cons in H as [->|H]; [done|]). by apply elem_of_nil in H. Qed.
Lemma skip_white w s : white w -> skip_space (w ++ s) = skip_space s.
Proof. induction 1 as [|c w Hc _ IH]; [done|]. simpl. by rewrite (white_blank c Hc). Qed.
Lemma skip_stop c s : blank_byte c = false -> skip_space (c :: s) = c :: s.
Proof. simpl. by intros ->. Qed.
Lemma skip_split s : exists w s', s = w ++ s' /\ skip_space s = s' /\ white w.
Proof.
  induction s as [|c s (w & s' & -> & E & H)]; [exists [], []; split_and!; [done..|constructor]|]. simpl. destruct (blank_byte c) eqn:Eb.
  - exists (c :: w), s'. split_and!; [done|done|]. constructor; [|done]. unfold blank_byte in Eb.
    assert (c = chr_of 32 \/ c = chr_of 13 \/ c = chr_of 10 \/ c = chr_of 9) as Hc.
    { repeat (apply orb_prop in Eb as [Eb|Eb]); apply is_byte_true in Eb as [-> _]; auto. }
    destruct Hc as [->|[->|[->| ->]]]; apply (bool_decide_unpack _); by vm_compute.
  - exists [], (c :: w ++ s'). split_and!; [done|done|constructor].
Qed.

Definition plain_byte (c : ascii) : bool := name_byte c && negb ((128 <=? ord c) || is_byte 58 c).
Lemma Forall_bytes (l : bytes) (f : ascii -> bool) : forallb f l = true -> forall c, c ∈ l -> f c = true.
Proof. intros H c Hc. rewrite forallb_forall in H. by apply H, elem_of_list_In. Qed.
Lemma letter_start c : c ∈ letters -> name_start c = true /\ plain_byte c = true.
Proof. intros Hc. split; revert c Hc; apply Forall_bytes; by vm_compute. Qed.
Lemma rest_plain c : c ∈ letters ++ B "0123456789.-" -> plain_byte c = true.
Proof. revert c. apply Forall_bytes. by vm_compute. Qed.
Lemma read_plain w c r : Forall (fun c => plain_byte c = true) w -> name_byte c = false -> read_name (w ++ c :: r) = (w, c :: r).
Proof.
  intros Hw Hc. induction Hw as [|x w Hx _ IH]; simpl; [by rewrite Hc|]. apply andb_prop in Hx as [-> _]. by rewrite IH.
Qed.
Lemma name_plain w : xml_name w -> exists c w', w = c :: w' /\ name_start c = true /\ Forall (fun c => plain_byte c = true) w.
Proof.
  intros (c & w' & -> & Hc & Hw). exists c, w'. apply letter_start in Hc as [H1 H2]. split_and!; [done..|]. constructor; [done|].
  eapply Forall_impl; [exact Hw|]. intros x. apply rest_plain.
Qed.
Lemma xname_ok w c r : xml_name w -> name_byte c = false -> xname (w ++ c :: r) = XOk (w, c :: r).
Proof.
  intros (a & w' & -> & Ha & Hw)%name_plain Hc. unfold xname. rewrite read_plain by done. rewrite Ha.
  assert (existsb (fun c => (128 <=? ord c) || is_byte 58 c) (a :: w') = false) as ->; [|done].
  clear -Hw. induction Hw as [|x w Hx _ IH]; [done|]. cbn [existsb]. rewrite IH. apply andb_prop in Hx as [_ Hx]. apply negb_true_iff in Hx. by rewrite Hx.
Qed.
(** A byte that can follow a name here. *)
Lemma white_app_head w c r (P : ascii -> Prop) : white w -> P c -> (forall x, x ∈ [byte 32; byte 9; byte 10; byte 13] -> P x) -> exists x y, w ++ c :: r = x :: y /\ P x.
Proof. intros Hw Hc HP. destruct Hw as [|x w Hx Hw]; [by exists c, r|]. exists x, (w ++ c :: r). split; [done|by apply HP]. Qed.
Lemma white_not_name x : x ∈ [byte 32; byte 9; byte 10; byte 13] -> name_byte x = false.
Proof. intros H. repeat (apply elem_of_cons in H as [->|H]; [done|]). by apply elem_of_nil in H. Qed.
Lemma xname_white n w c r : xml_name n -> white w -> name_byte c = false -> xname (n ++ w ++ c :: r) = XOk (n, w ++ c :: r).
Proof.
  intros Hn Hw Hc. destruct (white_app_head w c r (fun x => name_byte x = false) Hw Hc white_not_name) as (x & y & -> & Hx). by apply xname_ok.
Qed.

(** ** References *)
Lemma digit10 c d : digit 10 c d -> digit_val c = Some d.
Proof.
  intros [Hd H]. assert (d = 0 \/ d = 1 \/ d = 2 \/ d = 3 \/ d = 4 \/ d = 5 \/ d = 6 \/ d = 7 \/ d = 8 \/ d = 9) as K by lia.
  repeat destruct K as [->|K]; try subst d; destruct H as [H|H]; vm_compute in H; injection H as <-; by vm_compute.
Qed.
Lemma digit16 c d : digit 16 c d -> hex_val c = Some d.
Proof.
  intros [Hd H]. assert (d = 0 \/ d = 1 \/ d = 2 \/ d = 3 \/ d = 4 \/ d = 5 \/ d = 6 \/ d = 7 \/ d = 8 \/ d = 9 \/ d = 10 \/ d = 11 \/ d = 12 \/ d = 13 \/ d = 14 \/ d = 15) as K by lia.
  repeat destruct K as [->|K]; try subst d; destruct H as [H|H]; vm_compute in H; injection H as <-; by vm_compute.
Qed.
Lemma number_read base ds n : base = 10 \/ base = 16 -> numeral base ds n -> forall r, read_number base None (ds ++ r) = read_number base (Some n) r.
Proof.
  intros Hb. induction 1 as [c d Hd|ds n c d Hn IH Hd]; intros r.
  - simpl. destruct Hb as [->| ->]; simpl; [rewrite (digit10 _ _ Hd)|rewrite (digit16 _ _ Hd)]; done.
  - rewrite <- app_assoc, IH. simpl. destruct Hb as [->| ->]; simpl; [rewrite (digit10 _ _ Hd)|rewrite (digit16 _ _ Hd)]; done.
Qed.
Lemma number_stop base n r : base = 10 \/ base = 16 -> read_number base (Some n) (B ";" ++ r) = (Some n, B ";" ++ r).
Proof. intros [->| ->]; reflexivity. Qed.
Lemma numeral_head base ds n : numeral base ds n -> exists c d r, ds = c :: r /\ digit base c d.
Proof. induction 1 as [c d Hd|ds n c d _ (c' & d' & r & -> & H') _]; [by exists c, d, []|by exists c', d', (r ++ [c])]. Qed.
Lemma digit10_not_x c d : digit 10 c d -> is_byte 120 c = false.
Proof.
  intros H%digit10. destruct (is_byte 120 c) eqn:E; [|done]. apply is_byte_true in E as [-> _]. by vm_compute in H.
Qed.
Lemma entity_ok a t : reference a t -> exists a', a = byte 38 :: a' /\ forall r, entity (a' ++ r) = XOk (t, r).
Proof.
  destruct 1 as [| | | | |ds n Hn Hx|ds n Hn Hx]; try (eexists; split; [reflexivity|]; intros r; reflexivity).
  - exists (B "#" ++ ds ++ B ";"). split; [done|]. intros r. destruct (numeral_head _ _ _ Hn) as (c & d & ds' & E & Hd).
    rewrite <- !app_assoc. unfold entity. change (B "#" ++ ?x) with ("#"%char :: x). cbn iota beta. change (is_byte 35 "#"%char) with true. cbn iota.
    assert (match ds ++ B ";" ++ r with x :: s2 => if is_byte 120 x then read_number 16 None s2 else read_number 10 None (ds ++ B ";" ++ r) | [] => (None, []) end
            = (Some n, B ";" ++ r)) as ->.
    { transitivity (read_number 10 None (ds ++ B ";" ++ r)).
      - rewrite E at 1. cbn [app]. by rewrite (digit10_not_x _ _ Hd).
      - rewrite (number_read 10 ds n) by auto. apply number_stop. by left. }
    change (B ";" ++ r) with (";"%char :: r). cbn iota beta. change (is_byte 59 ";"%char) with true. cbn [andb].
    assert (n <=? 1114111 = true) as ->; [|done]. apply Z.leb_le. unfold xml_char in Hx. lia.
  - exists (B "#x" ++ ds ++ B ";"). split; [done|]. intros r. 
    rewrite <- !app_assoc. unfold entity. change (B "#x" ++ ?x) with ("#"%char :: "x"%char :: x). cbn iota beta. change (is_byte 35 "#"%char) with true. 
    change (is_byte 120 "x"%char) with true. cbn iota. rewrite (number_read 16 ds n) by auto. rewrite number_stop by auto.
    change (B ";" ++ r) with (";"%char :: r). cbn iota beta. change (is_byte 59 ";"%char) with true. cbn [andb].
    assert (n <=? 1114111 = true) as ->; [|done]. apply Z.leb_le. unfold xml_char in Hx. lia.
Qed.

(** ** Text *)
Lemma xml_chars_app a b : xml_chars a -> xml_chars b -> xml_chars (a ++ b).
Proof. intros (x & Hx & ->) (y & Hy & ->). exists (x ++ y). split; [by apply Forall_app|]. by rewrite map_app, concat_app. Qed.
Lemma reference_chars a t : reference a t -> xml_chars t.
Proof.
  destruct 1 as [| | | | |ds n Hn Hx|ds n Hn Hx]; try (apply legal_iff; reflexivity); exists [n]; (split; [constructor; [done|constructor]|]); simpl; by rewrite app_nil_r.
Qed.
Lemma spells_chars q s u : spells q s u -> xml_chars u.
Proof.
  induction 1 as [r (Hr & _)|r a t s u (Hr & _) Ha _ IH].
  - apply legal_iff. rewrite legal_unix. by apply legal_iff.
  - apply xml_chars_app; [apply legal_iff; rewrite legal_unix; by apply legal_iff|]. apply xml_chars_app; [by eapply reference_chars|done].
Qed.
Lemma contains_suffix p a b : contains p b -> contains p (a ++ b).
Proof. intros (x & y & ->). exists (a ++ x), y. by rewrite <- app_assoc. Qed.
Lemma contains_prefix p a b : contains p a -> contains p (a ++ b).
Proof. intros (x & y & ->). exists x, (y ++ b). by rewrite <- !app_assoc. Qed.
(** The byte that ends a text. *)
Definition ends (q : option ascii) (e : ascii) : Prop := match q with Some c => (e = c /\ c <> byte 60 /\ c <> byte 38) | None => e = byte 60 end.
Lemma xtext_end q e n b0 b1 acc rest : ends q e -> xtext (S n) q false b0 b1 acc (e :: rest) = finish (reverse acc) (match q with Some _ => rest | None => e :: rest end).
Proof.
  destruct q as [c|]; simpl.
  - intros (-> & Hc & _). rewrite (byte_neq 60 c) by (done || lia). cbn [andb]. by rewrite bool_decide_eq_true_2.
  - intros ->. change (is_byte 62 (byte 60)) with false. by rewrite !andb_false_r.
Qed.
Lemma xtext_spells q s u : spells q s u -> forall n b0 b1 acc e rest, ends q e -> (q = None -> ~ contains (B "]]>") (b0 :: b1 :: s)) -> is_byte 13 b1 = false ->
  (length s < n)%nat -> xtext n q false b0 b1 acc (s ++ e :: rest) = finish (reverse acc ++ u) (match q with Some _ => rest | None => e :: rest end).
Proof.
  assert (Hrun : forall r n b0 b1 acc rest, run q r -> (q = None -> ~ contains (B "]]>") (b0 :: b1 :: r)) -> is_byte 13 b1 = false ->
    exists b0' b1', xtext (length r + n) q false b0 b1 acc (r ++ rest) = xtext n q false b0' b1' (reverse (unix r) ++ acc) rest).
  { intros r n b0 b1 acc rest (_ & H1 & H2 & H3) Hc Hb. rewrite <- (proj1 (unl_unix r)). replace (unl false r) with (unl (is_byte 13 b1) r) by (by rewrite Hb). clear Hb.
    revert n b0 b1 acc H1 H2 H3 Hc. induction r as [|c r IH]; intros n b0 b1 acc Hlt Ham Hq Hc; [by exists b0, b1|].
    apply not_elem_of_cons in Hlt as [Hlt Hlt']. apply not_elem_of_cons in Ham as [Ham Ham'].
    assert (Hq' : forall c, q = Some c -> c ∉ r) by (intros x Hx; specialize (Hq x Hx); set_solver).
    assert (Hqc : q <> Some c) by (intros Hx; specialize (Hq c Hx); set_solver).
    cbn [length Nat.add app xtext unl].
    assert (bool_decide (q = None) && is_byte 93 b0 && is_byte 93 b1 && is_byte 62 c = false) as ->.
    { destruct (bool_decide _ && _ && _ && _) eqn:E; [|done]. exfalso.
      apply andb_prop in E as [E E3]. apply andb_prop in E as [E E2]. apply andb_prop in E as [E0 E1]. apply bool_decide_eq_true in E0.
      apply is_byte_true in E1 as [-> _]. apply is_byte_true in E2 as [-> _]. apply is_byte_true in E3 as [-> _].
      apply (Hc E0). by exists [], r. }
    rewrite (byte_neq 60 c) by (done || lia). cbn [andb]. rewrite bool_decide_eq_false_2 by done.
    rewrite (byte_neq 38 c) by (done || lia). cbn [andb].
    assert (Hc' : q = None -> ~ contains (B "]]>") (b1 :: c :: r)) by (intros E K; by apply (Hc E), contains_cons).
    destruct (is_byte 13 c) eqn:E13.
    - destruct (IH n b1 c (lf :: acc) Hlt' Ham' Hq' Hc') as (x & y & E). exists x, y. rewrite E, E13. by rewrite reverse_cons, <- app_assoc.
    - destruct (is_byte 13 b1 && is_byte 10 c) eqn:E10.
      + destruct (IH n b1 c acc Hlt' Ham' Hq' Hc') as (x & y & E). exists x, y. by rewrite E, E13.
      + destruct (IH n b1 c (c :: acc) Hlt' Ham' Hq' Hc') as (x & y & E). exists x, y. rewrite E, E13. by rewrite reverse_cons, <- app_assoc. }
  induction 1 as [r Hr|r a t s u Hr Ha Hs IH]; intros n b0 b1 acc e rest He Hc Hb Hn.
  - replace n with (length r + S (n - length r - 1))%nat by lia. destruct (Hrun r (S (n - length r - 1)) b0 b1 acc (e :: rest) Hr Hc Hb) as (x & y & ->).
    rewrite xtext_end by done. by rewrite reverse_app, reverse_involutive.
  - destruct (entity_ok a t Ha) as (a' & -> & Hent). rewrite !app_length in Hn. cbn [length] in Hn.
    replace n with (length r + S (n - length r - 1))%nat by lia. rewrite <- !app_assoc.
    destruct (Hrun r (S (n - length r - 1)) b0 b1 acc ((byte 38 :: a') ++ s ++ e :: rest) Hr) as (x & y & ->); [|done|].
    { intros Hq K. apply (Hc Hq). change (b0 :: b1 :: r ++ (byte 38 :: a') ++ s) with ((b0 :: b1 :: r) ++ (byte 38 :: a') ++ s). by apply contains_prefix. }
    cbn [app xtext]. change (is_byte 62 (byte 38)) with false. rewrite !andb_false_r. change (is_byte 60 (byte 38)) with false. cbn [andb negb].
    rewrite bool_decide_eq_false_2.
    2:{ intros ->. by destruct He as (-> & _ & He). }
    change (is_byte 38 (byte 38)) with true. cbn [andb]. rewrite Hent. cbn [xbind]. rewrite IH; [|done| |done|lia].
    + f_equal. rewrite !reverse_app, !reverse_involutive. by rewrite <- !app_assoc.
    + intros Hq. apply contains_nul. intros K. apply (Hc Hq). change (b0 :: b1 :: r ++ (byte 38 :: a') ++ s) with ([b0; b1] ++ r ++ (byte 38 :: a') ++ s).
      by do 3 apply contains_suffix.
Qed.
Lemma text_spells q s u e rest : spells q s u -> ends q e -> (q = None -> ~ contains (B "]]>") s) ->
  text q false (s ++ e :: rest) = XOk (u, match q with Some _ => rest | None => e :: rest end).
Proof.
  intros Hs He Hc. unfold text. erewrite xtext_spells; [|done|done| |done|].
  - unfold finish. cbn [reverse rev_append app]. change (reverse [] ++ u) with u. by rewrite (proj2 (legal_iff u) (spells_chars _ _ _ Hs)).
  - intros Hq. apply contains_nul. by apply Hc.
  - rewrite app_length. simpl. lia.
Qed.

(** ** Attributes *)
(** The end of a start tag. *)
Definition tag_end (e : bool) : bytes := if e then B "/>" else B ">".
Lemma name_head n : xml_name n -> exists c n', n = c :: n' /\ blank_byte c = false /\ is_byte 47 c = false /\ is_byte 62 c = false /\ is_byte 63 c = false /\ is_byte 33 c = false.
Proof.
  intros (c & n' & -> & Hc & _). exists c, n'. split; [done|].
  assert (forallb (fun c => negb (blank_byte c) && negb (is_byte 47 c) && negb (is_byte 62 c) && negb (is_byte 63 c) && negb (is_byte 33 c)) letters = true) as H by (by vm_compute).
  rewrite forallb_forall in H. specialize (H c (proj1 (elem_of_list_In _ _) Hc)). rewrite !andb_true_iff, !negb_true_iff in H. tauto.
Qed.
Lemma xattrs_ok al a : attrs_text al a -> forall n acc w e rest, (length al < n)%nat -> white w ->
  xattrs n acc (a ++ w ++ tag_end e ++ rest) = XOk (acc ++ al, e, rest).
Proof.
  induction 1 as [|w1 k w2 w3 q s v al r Hw1 _ Hk Hx Hw2 Hw3 Hq Hs _ _ IH]; intros n acc w e rest Hn Hw.
  - destruct n as [|n]; [lia|]. cbn [app xattrs]. rewrite skip_white by done. rewrite app_nil_r. by destruct e.
  - destruct n as [|n]; [lia|]. rewrite <- !app_assoc. cbn [xattrs]. rewrite skip_white by done.
    destruct (name_head k Hk) as (c & k' & Ek & Hb & H47 & H62 & _).
    set (tl := w2 ++ B "=" ++ w3 ++ [q] ++ s ++ [q] ++ r ++ w ++ tag_end e ++ rest).
    assert (Ehead : k ++ tl = c :: (k' ++ tl)) by (by rewrite Ek).
    rewrite Ehead at 1. rewrite skip_stop by done. cbn iota beta. rewrite H47, H62. rewrite <- Ehead.
    assert (Hname : xname (k ++ tl) = XOk (k, tl)) by (unfold tl; apply (xname_white k w2 "="%char); done).
    assert (Hread : (read_name (k ++ tl)).2 = tl).
    { destruct (name_plain k Hk) as (c0 & k0 & -> & _ & Hp). destruct (white_app_head w2 "="%char (w3 ++ [q] ++ s ++ [q] ++ r ++ w ++ tag_end e ++ rest) (fun x => name_byte x = false) Hw2) as (x & y & E & Hx'); [done|apply white_not_name|].
      unfold tl. change (B "=" ++ ?z) with ("="%char :: z). rewrite E. by rewrite read_plain. }
    rewrite Hread, Hname. unfold tl at 1. rewrite skip_white by done. change (B "=" ++ ?z) with ("="%char :: z). rewrite skip_stop by done. cbn iota beta.
    change (is_byte 61 "="%char) with true. cbn [xbind]. rewrite skip_white by done. cbn [app].
    assert (Hqb : blank_byte q = false) by (by destruct Hq as [->| ->]). rewrite skip_stop by done. cbn iota beta.
    assert (is_byte 34 q || is_byte 39 q = true) as -> by (by destruct Hq as [->| ->]).
    rewrite (text_spells (Some q) s v q); [|done| |done].
    2:{ simpl. destruct Hq as [->| ->]; done. }
    cbn [xbind]. rewrite bool_decide_eq_false_2 by done.
    assert (exists y z, r ++ w ++ tag_end e ++ rest = y :: z) as (y & z & Er) by (destruct (r ++ w ++ tag_end e ++ rest) eqn:E; [by destruct r, w, e|eauto]).
    rewrite Er. rewrite <- Er. rewrite IH; [|simpl in Hn; lia|done]. by rewrite <- app_assoc.
Qed.
Lemma attrs_long al a : attrs_text al a -> (length al <= length a)%nat.
Proof. induction 1 as [|w1 k w2 w3 q s v al r _ Hw1 _ _ _ _ _ _ _ _ IH]; [done|]. rewrite !app_length. destruct w1; [done|]. simpl. lia. Qed.
Lemma attrs_nodup al a : attrs_text al a -> NoDup (map fst al).
Proof. induction 1; simpl; constructor; done. Qed.
Lemma attr_absent k al v : k ∉ map fst al -> attr k al v = v.
Proof. revert v. induction al as [|[n w] al IH]; intros v; [done|]. simpl. intros [H1 H2]%not_elem_of_cons. rewrite bool_decide_eq_false_2 by congruence. by apply IH. Qed.
Lemma attr_given al k v : NoDup (map fst al) -> given al k v -> attr k al [] = v.
Proof.
  intros Hn [H|[H ->]]; [|by apply attr_absent]. generalize (@nil ascii) as v0. induction al as [|[n w] al IH]; intros v0; [by apply elem_of_nil in H|].
  simpl in *. apply NoDup_cons in Hn as [Hn1 Hn2]. apply elem_of_cons in H as [[= -> ->]|H].
  - rewrite bool_decide_eq_true_2 by done. by apply attr_absent.
  - by apply IH.
Qed.

(** ** Tokens *)
Lemma token_start n al a w e rest : xml_name n -> attrs_text al a -> white w ->
  raw_token (B "<" ++ n ++ a ++ w ++ tag_end e ++ rest) = XOk (Some (TStart n al e, rest)).
Proof.
  intros Hn Ha Hw. destruct (name_head n Hn) as (c & n' & En & _ & H47 & _ & H63 & H33).
  assert (Hname : xname (n ++ a ++ w ++ tag_end e ++ rest) = XOk (n, a ++ w ++ tag_end e ++ rest)).
  { assert (Hw' : forall c r, name_byte c = false -> xname (n ++ w ++ c :: r) = XOk (n, w ++ c :: r)) by (intros; by apply xname_white).
    destruct Ha as [|w1 k w2 w3 q s v al r Hw1 Hne Hk _ _ _ _ _ _ _].
    - destruct e; by apply Hw'.
    - destruct w1 as [|x w1]; [done|]. inversion Hw1; subst x. rewrite <- !app_assoc. cbn [app]. apply xname_ok; [done|]. by apply white_not_name. }
  unfold raw_token. change (B "<" ++ ?x) with ("<"%char :: x). cbn iota beta. change (is_byte 60 "<"%char) with true. cbn iota.
  rewrite Hname. rewrite En at 1. cbn [app]. rewrite H47, H63, H33. cbn [xbind].
  rewrite (xattrs_ok al a) by (done || (rewrite app_length; pose proof (attrs_long _ _ Ha); lia)). done.
Qed.
Lemma token_end n w rest : xml_name n -> white w -> raw_token (B "</" ++ n ++ w ++ B ">" ++ rest) = XOk (Some (TEnd n, rest)).
Proof.
  intros Hn Hw. unfold raw_token. change (B "</" ++ ?x) with ("<"%char :: "/"%char :: x). cbn iota beta. change (is_byte 60 "<"%char) with true.
  change (is_byte 47 "/"%char) with true. cbn iota. change (B ">" ++ rest) with (">"%char :: rest). rewrite xname_white by done. cbn [xbind].
  rewrite skip_white by done. rewrite skip_stop by done. reflexivity.
Qed.
Lemma proc_cons a b s : proc (a :: b :: s) = if is_byte 63 a && is_byte 62 b then Some ([], s) else match proc (b :: s) with Some (w, r) => Some (a :: w, r) | None => None end.
Proof. reflexivity. Qed.
Lemma proc_end d r : ~ contains (B "?>") d -> exists w, proc (d ++ B "?>" ++ r) = Some (w, r).
Proof.
  induction d as [|a d IH]; intros H; [by exists []|]. destruct IH as [w Hw]; [intros K; by apply H, contains_cons|].
  cbn [app]. destruct (d ++ B "?>" ++ r) as [|b s] eqn:E; [by destruct d|]. rewrite proc_cons. destruct (is_byte 63 a && is_byte 62 b) eqn:Eb.
  - exfalso. apply andb_prop in Eb as [Ea Eb]. apply is_byte_true in Ea as [-> _]. apply is_byte_true in Eb as [-> _].
    destruct d as [|x d]; [discriminate E|]. injection E as -> _. apply H. by exists [], d.
  - rewrite Hw. by eexists.
Qed.
Lemma contains_head_drop p w s : contains p s -> contains p (w ++ s).
Proof. apply contains_suffix. Qed.
Lemma comment_end c : forall b0 b1 r, ~ contains (B "--") (b0 :: b1 :: c ++ B "-") -> comment b0 b1 (c ++ B "-->" ++ r) = Some r.
Proof.
  induction c as [|x c IH]; intros b0 b1 r H.
  - cbn [app]. change (B "-->" ++ r) with ("-"%char :: "-"%char :: ">"%char :: r). cbn [comment].
    destruct (is_byte 45 b0 && is_byte 45 b1) eqn:E.
    { exfalso. apply andb_prop in E as [E1 E2]. apply is_byte_true in E1 as [-> _]. apply is_byte_true in E2 as [-> _]. apply H. by exists [], (B "-"). }
    change (is_byte 45 "-"%char) with true. change (is_byte 62 ">"%char) with true. rewrite andb_true_r. destruct (is_byte 45 b1) eqn:E1; [|done].
    exfalso. apply is_byte_true in E1 as [-> _]. apply H. by exists [b0], [].
  - cbn [app comment]. destruct (is_byte 45 b0 && is_byte 45 b1) eqn:E.
    { exfalso. apply andb_prop in E as [E1 E2]. apply is_byte_true in E1 as [-> _]. apply is_byte_true in E2 as [-> _]. apply H. by exists [], ((x :: c) ++ B "-"). }
    apply IH. intros K. apply H. by apply contains_cons.
Qed.
Lemma contains_nul2 c : ~ contains (B "--") c -> ~ contains (B "--") (nul :: nul :: c).
Proof.
  intros H (x & y & E). destruct x as [|x1 [|x2 x]]; [done|done|]. injection E as _ _ E. apply H. by exists x, y.
Qed.
Lemma token_remark m rest : remark m -> raw_token (m ++ rest) = XOk (Some (TProc, rest)).
Proof.
  destruct 1 as [c Hc|w ws d Hn Hx Hw Hd Hc]; rewrite <- !app_assoc.
  - change (raw_token (B "<!--" ++ c ++ B "-->" ++ rest)) with (match comment nul nul (c ++ B "-->" ++ rest) with Some r => XOk (Some (TProc, r)) | None => XErr end).
    rewrite comment_end; [done|]. by apply contains_nul2.
  - unfold raw_token. change (B "<?" ++ ?x) with ("<"%char :: "?"%char :: x). cbn iota beta. change (is_byte 60 "<"%char) with true.
    change (is_byte 47 "?"%char) with false. change (is_byte 63 "?"%char) with true. cbn iota.
    assert (xname (w ++ ws ++ d ++ B "?>" ++ rest) = XOk (w, ws ++ d ++ B "?>" ++ rest)) as ->.
    { destruct ws as [|x ws].
      - rewrite (Hd eq_refl). by apply xname_ok.
      - inversion Hw; subst. cbn [app]. apply xname_ok; [done|]. by apply white_not_name. }
    cbn [xbind]. rewrite skip_white by done.
    assert (exists y, proc (skip_space (d ++ B "?>" ++ rest)) = Some (y, rest)) as [y ->].
    { destruct (skip_split d) as (w' & d' & -> & Ed & Hw'). rewrite <- app_assoc, skip_white by done.
      assert (skip_space (d' ++ B "?>" ++ rest) = d' ++ B "?>" ++ rest) as ->.
      { destruct d' as [|x d']; [done|]. cbn [app]. apply skip_stop. rewrite skip_white in Ed by done. simpl in Ed. destruct (blank_byte x) eqn:Eb; [|done].
        exfalso. destruct (skip_split d') as (w2 & d2 & -> & Ed2 & _). rewrite Ed2 in Ed. apply (f_equal length) in Ed. simpl in Ed. rewrite app_length in Ed. lia. }
      apply proc_end. intros K. apply Hc. by apply contains_suffix. }
    rewrite (bool_decide_eq_false_2 (w = B "xml")) by done. done.
Qed.
Lemma token_decl de rest : declaration de -> de = [] \/ raw_token (de ++ rest) = XOk (Some (TProc, rest)).
Proof. destruct 1; [by left|right; reflexivity|right; reflexivity]. Qed.
Lemma token_cdata v rest : value_text v -> raw_token ((B "<![CDATA[" ++ v ++ B "]]>") ++ rest) = XOk (Some (TChars (unix v), rest)).
Proof.
  intros [Hx Hv]. rewrite <- !app_assoc.
  change (raw_token (B "<![CDATA[" ++ v ++ B "]]>" ++ rest)) with (let? (v, r) := text None true (v ++ B "]]>" ++ rest) in XOk (Some (TChars v, r))).
  rewrite text_cdata by done. by rewrite (proj2 (legal_iff v) Hx).
Qed.
Lemma token_text s u rest : char_text s u -> s <> [] -> raw_token (s ++ byte 60 :: rest) = XOk (Some (TChars u, byte 60 :: rest)).
Proof.
  intros [Hs Hc] Hne. destruct s as [|c s]; [done|]. unfold raw_token. cbn [app].
  assert (is_byte 60 c = false) as ->.
  { clear -Hs. inversion Hs as [r (_ & H & _) E|r a t s' u' (_ & H & _) Ha _ E]; subst.
    - apply byte_neq; [lia|]. intros ->. apply H. left.
    - destruct r as [|x r].
      + destruct (entity_ok _ _ Ha) as (a' & -> & _). simpl in E. injection E as <- _. done.
      + simpl in E. injection E as <- _. apply byte_neq; [lia|]. intros ->. apply H. left. }
  change (c :: s ++ byte 60 :: rest) with ((c :: s) ++ byte 60 :: rest). rewrite (text_spells None (c :: s) u (byte 60) rest) by done. done.
Qed.
Lemma text_empty u : char_text [] u -> u = [].
Proof. intros [Hs _]. inversion Hs as [r Hr E|r a t s' u' _ Ha _ E]; subst; [done|]. destruct (entity_ok _ _ Ha) as (a' & -> & _). by destruct r. Qed.
