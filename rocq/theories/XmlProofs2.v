(** * Reading attributes, CDATA sections and entries. *)
From Verif Require Import GoBase GoStrings GoStringsProofs LangModel XmlModel XmlSpec XmlProofs.
Local Open Scope Z_scope.

(** ** Line ends, with the state "the previous byte was a carriage return" *)
Fixpoint unl (p : bool) (s : bytes) : bytes :=
  match s with
  | [] => []
  | a :: s' => if is_byte 13 a then lf :: unl true s' else if p && is_byte 10 a then unl false s' else a :: unl false s'
  end.
Lemma is_byte_cr a : is_byte 13 a = true <-> a = cr.
Proof. rewrite is_byte_true. change (chr_of 13) with cr. intuition lia. Qed.
Lemma is_byte_lf a : is_byte 10 a = true <-> a = lf.
Proof. rewrite is_byte_true. change (chr_of 10) with lf. intuition lia. Qed.
Lemma unl_unix s : unl false s = unix s /\ unl true s = match s with b :: s' => if ascii_dec b lf then unix s' else unix s | [] => [] end.
Proof.
  induction s as [|a s [IH1 IH2]]; [done|]. simpl.
  destruct (is_byte 13 a) eqn:E.
  { apply is_byte_cr in E as ->. destruct (ascii_dec cr cr); [|done]. rewrite IH2.
    destruct (ascii_dec cr lf); [done|]. done. }
  destruct (ascii_dec a cr) as [->|Hcr]; [by rewrite (proj2 (is_byte_cr cr) eq_refl) in E|].
  rewrite IH1. split; [done|]. destruct (is_byte 10 a) eqn:E2.
  - apply is_byte_lf in E2 as ->. by destruct (ascii_dec lf lf).
  - destruct (ascii_dec a lf) as [->|]; [by rewrite (proj2 (is_byte_lf lf) eq_refl) in E2|done].
Qed.
Lemma unix_no_cr s : cr ∉ s -> unix s = s.
Proof.
  induction s as [|a s IH]; [done|]. intros H. apply not_elem_of_cons in H as [H1 H2]. simpl.
  destruct (ascii_dec a cr) as [->|]; [done|]. by rewrite IH.
Qed.
Lemma unix_out s : cr ∉ unix s.
Proof.
  destruct (unl_unix s) as [<- _]. generalize false as p. induction s as [|a s IH]; intros p; simpl; [apply not_elem_of_nil|].
  destruct (is_byte 13 a) eqn:E; [apply not_elem_of_cons; split; [done|apply IH]|].
  destruct (p && is_byte 10 a); [apply IH|]. apply not_elem_of_cons. split; [|apply IH].
  intros <-. by rewrite (proj2 (is_byte_cr cr) eq_refl) in E.
Qed.

Lemma if_same {A} (b : bool) (x : A) : (if b then x else x) = x.
Proof. by destruct b. Qed.
Lemma legal_ascii a s : ord a <? 128 = true -> legal (a :: s) = (is_byte 9 a || is_byte 10 a || is_byte 13 a || (32 <=? ord a)) && legal s.
Proof. intros H. simpl. by rewrite H. Qed.
Lemma cont_high a : cont a = true -> ord a <? 128 = false.
Proof. intros H. bdec. apply Z.ltb_ge. lia. Qed.
Lemma high_unl p a s : ord a <? 128 = false -> unl p (a :: s) = a :: unl false s.
Proof.
  intros H. simpl. apply Z.ltb_ge in H. rewrite (proj2 (is_byte_false 13 a)) by lia. rewrite (proj2 (is_byte_false 10 a)) by lia.
  by rewrite andb_false_r.
Qed.
(** The normal form of a legal text is legal, and only of a legal one. *)
Lemma legal_unl s : forall p, legal (unl p s) = legal s.
Proof.
  remember (length s) as n eqn:En. revert s En. induction (lt_wf n) as [n _ IH]. intros s -> p.
  destruct s as [|a s1]; [done|]. destruct (ord a <? 128) eqn:Ea.
  { cbn [unl]. rewrite (legal_ascii a s1 Ea). destruct (is_byte 13 a) eqn:E13.
    - rewrite legal_ascii by done. rewrite (IH (length s1)) by (simpl; lia || done). rewrite ?orb_true_r. done.
    - destruct (is_byte 10 a) eqn:E10.
      + destruct p; cbn [andb].
        * rewrite (IH (length s1)) by (simpl; lia || done). by rewrite ?orb_true_r.
        * rewrite legal_ascii by done. rewrite (IH (length s1)) by (simpl; lia || done). by rewrite E13, E10.
      + rewrite andb_false_r. rewrite legal_ascii by done. rewrite (IH (length s1)) by (simpl; lia || done). by rewrite E13, E10. }
  rewrite high_unl by done.
  assert (L2 : forall b t, (length (b :: t) <= length s1)%nat -> ord b <? 128 = true -> exists d t', unl false (b :: t) = d :: t' /\ ord d <? 128 = true).
  { intros b t _ Hb. cbn [unl andb]. destruct (is_byte 13 b); eauto. }
  cbn [legal]. rewrite Ea. destruct s1 as [|b s2]; [done|].
  destruct (ord b <? 128) eqn:Eb.
  { (* an ASCII byte after a lead byte: illegal on both sides *)
    destruct (L2 b s2) as (d & t' & Ed & Hd); [simpl; lia|done|]. rewrite Ed.
    assert (K : forall c, ord c <? 128 = true -> cont c = false /\ in_range 160 191 c = false /\ in_range 128 159 c = false /\ in_range 144 191 c = false /\ in_range 128 143 c = false).
    { intros c Hc. apply Z.ltb_lt in Hc. unfold cont, in_range. repeat split; apply andb_false_iff; left; apply Z.leb_gt; lia. }
    destruct (K b Eb) as (-> & -> & -> & -> & ->). destruct (K d Hd) as (-> & -> & -> & -> & ->).
    rewrite !if_same. cbn [andb]. rewrite !andb_false_r. cbn [andb].
    repeat match goal with |- context [match ?x with _ => _ end] => destruct x end; done. }
  rewrite high_unl by done. destruct (in_range 194 223 a) eqn:E2.
  { rewrite (IH (length s2)) by (simpl; lia || done). done. }
  destruct s2 as [|c s3]; [done|]. destruct (ord c <? 128) eqn:Ec.
  { destruct (L2 c s3) as (d & t' & Ed & Hd); [simpl; lia|done|]. rewrite Ed.
    assert (K : forall c, ord c <? 128 = true -> cont c = false).
    { intros e He. apply Z.ltb_lt in He. unfold cont, in_range. apply andb_false_iff; left; apply Z.leb_gt; lia. }
    rewrite (K c Ec), (K d Hd). rewrite !andb_false_r. cbn [andb].
    repeat match goal with |- context [match ?x with _ => _ end] => destruct x end; done. }
  rewrite high_unl by done. destruct (in_range 224 239 a) eqn:E3.
  { rewrite (IH (length s3)) by (simpl; lia || done). done. }
  destruct s3 as [|d s4]; [done|]. destruct (ord d <? 128) eqn:Ed.
  { destruct (L2 d s4) as (e & t' & Ee & He); [simpl; lia|done|]. rewrite Ee.
    assert (K : forall c, ord c <? 128 = true -> cont c = false).
    { intros f Hf. apply Z.ltb_lt in Hf. unfold cont, in_range. apply andb_false_iff; left; apply Z.leb_gt; lia. }
    rewrite (K d Ed), (K e He). by rewrite !andb_false_r. }
  rewrite high_unl by done. rewrite (IH (length s4)) by (simpl; lia || done). done.
Qed.
Lemma legal_unix s : legal (unix s) = legal s.
Proof. destruct (unl_unix s) as [<- _]. apply legal_unl. Qed.

(** ** Attributes *)
Definition dq : ascii := byte 34.
Lemma byte_neq n c : 0 <= n < 256 -> c <> chr_of n -> is_byte n c = false.
Proof. intros Hn Hc. destruct (is_byte n c) eqn:E; [|done]. apply is_byte_true in E as [-> _]. done. Qed.
Lemma xtext_attr a : forall n b0 b1 acc rest,
  dq ∉ a -> byte 60 ∉ a -> byte 38 ∉ a -> cr ∉ a -> is_byte 13 b1 = false -> (length a < n)%nat ->
  xtext n (Some dq) false b0 b1 acc (a ++ dq :: rest) = finish (reverse acc ++ a) rest.
Proof.
  induction a as [|c a IH]; intros n b0 b1 acc rest Hq Hlt Ham Hcr Hb1 Hn.
  - destruct n; [lia|]. cbn [app xtext]. rewrite app_nil_r. reflexivity.
  - apply not_elem_of_cons in Hq as [Hq Hq']. apply not_elem_of_cons in Hlt as [Hlt Hlt'].
    apply not_elem_of_cons in Ham as [Ham Ham']. apply not_elem_of_cons in Hcr as [Hcr Hcr'].
    destruct n as [|n]; [simpl in Hn; lia|]. cbn [app xtext].
    rewrite (bool_decide_eq_false_2 (Some dq = None)) by done. cbn [andb negb].
    rewrite (byte_neq 60 c) by (done || lia). cbn [andb].
    rewrite bool_decide_eq_false_2 by congruence.
    rewrite (byte_neq 38 c) by (done || lia). cbn [andb].
    rewrite (byte_neq 13 c) by (done || lia). rewrite Hb1. cbn [andb].
    rewrite IH; [|done..|by apply byte_neq; [lia|]|simpl in Hn; lia].
    rewrite reverse_cons, <- app_assoc. done.
Qed.
Lemma text_attr a rest : attr_text a -> text (Some dq) false (a ++ dq :: rest) = XOk (a, rest).
Proof.
  intros (Hx & Hq & Hlt & Ham & Hcr). unfold text. rewrite xtext_attr; [|done..|rewrite app_length; simpl; lia].
  unfold finish. cbn [reverse rev_append app]. change (reverse [] ++ a) with a. by rewrite (proj2 (legal_iff a) Hx).
Qed.

(** ** CDATA sections *)
Lemma contains_cons p c s : contains p s -> contains p (c :: s).
Proof. intros (x & y & ->). by exists (c :: x), y. Qed.
Lemma xtext_cdata v : forall n b0 b1 acc rest,
  ~ contains (B "]]>") (b0 :: b1 :: v) -> (length v + 2 < n)%nat ->
  xtext n None true b0 b1 acc (v ++ B "]]>" ++ rest) = finish (reverse acc ++ unl (is_byte 13 b1) v) rest.
Proof.
  induction v as [|c v IH]; intros n b0 b1 acc rest Hc Hn.
  - destruct n as [|[|[|n]]]; [simpl in Hn; lia..|]. cbn [app]. unfold B. cbn [list_ascii_of_string app xtext].
    rewrite !(bool_decide_eq_true_2 (None = None)) by done.
    change (is_byte 62 "]"%char) with false. rewrite !andb_false_r. change (is_byte 60 "]"%char) with false.
    change (is_byte 38 "]"%char) with false. change (is_byte 13 "]"%char) with false. change (is_byte 10 "]"%char) with false.
    rewrite ?andb_false_r. rewrite !(bool_decide_eq_false_2 (None = Some _)) by done.
    change (is_byte 93 "]"%char) with true. change (is_byte 62 ">"%char) with true. cbn [andb drop unl].
    by rewrite app_nil_r.
  - destruct n as [|n]; [simpl in Hn; lia|]. cbn [app xtext].
    rewrite (bool_decide_eq_true_2 (None = None)) by done. cbn [negb]. rewrite !andb_false_r. cbn [andb].
    rewrite (bool_decide_eq_false_2 (None = Some _)) by done.
    destruct (is_byte 93 b0 && is_byte 93 b1 && is_byte 62 c) eqn:E.
    { exfalso. apply andb_prop in E as [E E3]. apply andb_prop in E as [E1 E2].
      apply is_byte_true in E1 as [-> _]. apply is_byte_true in E2 as [-> _]. apply is_byte_true in E3 as [-> _].
      apply Hc. by exists [], v. }
    assert (Hc' : ~ contains (B "]]>") (b1 :: c :: v)) by (intros K; by apply Hc, contains_cons).
    cbn [unl]. destruct (is_byte 13 c) eqn:E13.
    + rewrite IH; [|done|simpl in Hn; lia]. rewrite E13, reverse_cons, <- app_assoc. done.
    + destruct (is_byte 13 b1 && is_byte 10 c) eqn:E10.
      * rewrite IH; [|done|simpl in Hn; lia]. by rewrite E13.
      * rewrite IH; [|done|simpl in Hn; lia]. rewrite E13, reverse_cons, <- app_assoc. done.
Qed.
Lemma contains_nul v : ~ contains (B "]]>") v -> ~ contains (B "]]>") (nul :: nul :: v).
Proof.
  intros H (x & y & E). destruct x as [|x1 [|x2 x]]; [done| |].
  - simpl in E. injection E as _ E _. done.
  - simpl in E. injection E as _ _ E. apply H. by exists x, y.
Qed.
Lemma text_cdata v rest : ~ contains (B "]]>") v ->
  text None true (v ++ B "]]>" ++ rest) = if legal v then XOk (unix v, rest) else XErr.
Proof.
  intros H. unfold text. rewrite xtext_cdata; [|by apply contains_nul|rewrite !app_length; simpl; lia].
  change (is_byte 13 nul) with false. change (reverse [] ++ unl false v) with (unl false v).
  unfold finish. rewrite legal_unl. by destruct (unl_unix v) as [-> _].
Qed.

(** ** Plain text that runs into "]]>" *)
Lemma xtext_stray v : forall n b0 b1 acc rest,
  byte 60 ∉ v -> byte 38 ∉ v -> (length v + 2 < n)%nat -> xtext n None false b0 b1 acc (v ++ B "]]>" ++ rest) = XErr.
Proof.
  induction v as [|c v IH]; intros n b0 b1 acc rest Hlt Ham Hn.
  - destruct n as [|[|[|n]]]; [simpl in Hn; lia..|]. cbn [app]. unfold B. cbn [list_ascii_of_string app xtext].
    rewrite !(bool_decide_eq_true_2 (None = None)) by done.
    change (is_byte 62 "]"%char) with false. rewrite !andb_false_r. change (is_byte 60 "]"%char) with false.
    change (is_byte 38 "]"%char) with false. change (is_byte 13 "]"%char) with false. change (is_byte 10 "]"%char) with false.
    rewrite ?andb_false_r. rewrite !(bool_decide_eq_false_2 (None = Some _)) by done.
    change (is_byte 93 "]"%char) with true. change (is_byte 62 ">"%char) with true. done.
  - apply not_elem_of_cons in Hlt as [Hlt Hlt']. apply not_elem_of_cons in Ham as [Ham Ham'].
    destruct n as [|n]; [simpl in Hn; lia|]. cbn [app xtext].
    rewrite (bool_decide_eq_true_2 (None = None)) by done. cbn [negb andb].
    rewrite (byte_neq 60 c) by (done || lia). cbn [andb].
    rewrite (bool_decide_eq_false_2 (None = Some _)) by done.
    rewrite (byte_neq 38 c) by (done || lia). cbn [andb].
    destruct (is_byte 93 b0 && is_byte 93 b1 && is_byte 62 c); [done|].
    destruct (is_byte 13 c); [by apply IH; [done..|simpl in Hn; lia]|].
    destruct (is_byte 13 b1 && is_byte 10 c); by apply IH; [done..|simpl in Hn; lia].
Qed.
