(** * The pattern text of xtemplate.go denotes [meta]. *)
From Verif Require Import GoBase GoStrings Regex RegexSyntax DatasetModel LangModel TemplateModel.

Lemma cat_assoc a b c s : matches (Cat (Cat a b) c) s = matches (Cat a (Cat b c)) s.
Proof.
  simpl. induction (matches a s) as [|m l IH]; [done|]. simpl. rewrite flat_map_app, IH. f_equal.
  induction (matches b (m_rest m)) as [|m' l' IH']; [done|]. simpl. rewrite map_app, IH'. f_equal.
  simpl. rewrite map_map. apply map_ext. intros x. simpl. by rewrite <- !app_assoc.
Qed.
Lemma cat_eps_l a s : matches (Cat Eps a) s = matches a s.
Proof. simpl. rewrite app_nil_r. rewrite <-(map_id (matches a s)) at 2. apply map_ext. intros [t g r]. simpl. by rewrite app_nil_r. Qed.
Lemma cat_eps_r a s : matches (Cat a Eps) s = matches a s.
Proof.
  simpl. induction (matches a s) as [|[t g r] l IH]; [done|]. simpl. rewrite app_nil_r. f_equal. done.
Qed.
Lemma cat_cong a a' b b' : (forall s, matches a s = matches a' s) -> (forall s, matches b s = matches b' s) ->
  forall s, matches (Cat a b) s = matches (Cat a' b') s.
Proof.
  intros Ha Hb s. simpl. rewrite Ha. apply flat_map_ext. intros m. by rewrite Hb.
Qed.
Lemma lazy_cong p q s : (forall c, p c = q c) -> lazy_matches p s = lazy_matches q s.
Proof. intros H. induction s as [|c s IH]; [done|]. simpl. by rewrite H, IH. Qed.

(** Right nested sequences ending in [Eps]. *)
Fixpoint norm (r : re) (k : re) : re :=
  match r with
  | Eps => k
  | Cat a b => norm a (norm b k)
  | One p => Cat (One p) k
  | Lazy p => Cat (Lazy p) k
  | Alt a b => Cat (Alt (norm a Eps) (norm b Eps)) k
  | Opt a => Cat (Opt (norm a Eps)) k
  | Group n a => Cat (Group n (norm a Eps)) k
  end.
Lemma norm_ok r : forall k s, matches (norm r k) s = matches (Cat r k) s.
Proof.
  induction r as [|p|a IHa b IHb|a IHa b IHb|p|a IHa|n a IHa]; intros k s.
  - by rewrite cat_eps_l.
  - done.
  - cbn [norm]. rewrite cat_assoc, IHa. apply cat_cong; [done|]. intros s'. apply IHb.
  - cbn [norm]. apply cat_cong; [|done]. intros s'. cbn [matches]. rewrite IHa, IHb. f_equal; apply cat_eps_r.
  - done.
  - cbn [norm]. apply cat_cong; [|done]. intros s'. cbn [matches]. rewrite IHa. f_equal. apply cat_eps_r.
  - cbn [norm]. apply cat_cong; [|done]. intros s'. cbn [matches]. rewrite IHa. f_equal. apply cat_eps_r.
Qed.
Definition all_chars : list ascii := map ascii_of_nat (List.seq 0 256).
Lemma all_chars_all c : c ∈ all_chars.
Proof.
  apply elem_of_list_In, in_map_iff. exists (nat_of_ascii c). split; [apply ascii_nat_embedding|].
  apply in_seq. pose proof (nat_ascii_bounded c). lia.
Qed.
Definition same_class (p q : ascii -> bool) : bool := forallb (fun c => Bool.eqb (p c) (q c)) all_chars.
Lemma same_class_ok p q : same_class p q = true -> forall c, p c = q c.
Proof.
  intros H c. apply eqb_prop. apply forallb_forall with (x := c) in H; [done|]. apply elem_of_list_In, all_chars_all.
Qed.
Fixpoint same (a b : re) : bool :=
  match a, b with
  | Eps, Eps => true
  | One p, One q | Lazy p, Lazy q => same_class p q
  | Cat a1 a2, Cat b1 b2 | Alt a1 a2, Alt b1 b2 => same a1 b1 && same a2 b2
  | Opt a1, Opt b1 => same a1 b1
  | Group n a1, Group k b1 => Nat.eqb n k && same a1 b1
  | _, _ => false
  end.
Lemma same_ok a : forall b, same a b = true -> forall s, matches a s = matches b s.
Proof.
  induction a as [|p|a1 IH1 a2 IH2|a1 IH1 a2 IH2|p|a IH|n a IH]; intros [|q|b1 b2|b1 b2|q|b|k b] H s; try discriminate H; cbn [same] in H.
  - done.
  - cbn [matches]. destruct s as [|c s]; [done|]. by rewrite (same_class_ok _ _ H).
  - apply andb_true_iff in H as [H1 H2]. apply cat_cong; [by apply IH1|by apply IH2].
  - apply andb_true_iff in H as [H1 H2]. cbn [matches]. by rewrite (IH1 _ H1), (IH2 _ H2).
  - cbn [matches]. apply lazy_cong. by apply same_class_ok.
  - cbn [matches]. by rewrite (IH _ H).
  - apply andb_true_iff in H as [H1 H2]. apply Nat.eqb_eq in H1 as ->. cbn [matches]. by rewrite (IH _ H2).
Qed.
Lemma same_norm a b : same (norm a Eps) (norm b Eps) = true -> forall s, matches a s = matches b s.
Proof.
  intros H s. rewrite <-(cat_eps_r a), <-(cat_eps_r b), <- !norm_ok. by apply same_ok.
Qed.

Lemma find_first_cong a b : (forall s, matches a s = matches b s) -> forall s, find_first a s = find_first b s.
Proof. intros H s. induction s as [|c s IH]; cbn [find_first]; rewrite H; [done|]. by rewrite IH. Qed.
Lemma find_all_cong a b : (forall s, matches a s = matches b s) -> forall n s, find_all n a s = find_all n b s.
Proof. intros H n. induction n as [|n IH]; intros s; [done|]. simpl. rewrite (find_first_cong a b H). destruct (find_first b s) as [[pre m]|]; [by rewrite IH|done]. Qed.

Lemma pattern_denotes : exists r, regexp_of pattern = Some r /\ (forall s, matches r s = matches meta s) /\
  forall n s, find_all n r s = find_all n meta s.
Proof.
  assert (H : match regexp_of pattern with Some r => same (norm r Eps) (norm meta Eps) | None => false end = true) by (vm_compute; reflexivity).
  destruct (regexp_of pattern) as [r|]; [|discriminate H].
  exists r. split; [done|]. pose proof (same_norm _ _ H) as H'.
  split; [done|]. by apply find_all_cong.
Qed.
