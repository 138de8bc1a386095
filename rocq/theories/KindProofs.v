(** * Reading plain and thread safe data (C129). *)
From Verif Require Import GoBase GoStrings GoStringsProofs DatasetModel LangModel DatasetSpec DatasetProofs DatasetProofs2 DatasetProofs3 DatasetProofs4
  TemplateModel TemplateSpec RenderSpec HoleSpec HoleProofs SameSpec SameProofs KindSpec.
Local Open Scope nat_scope.

Lemma inside_dataset h l x m : inside h l x m -> dataset_at h l.
Proof. destruct 1; [left; eauto|right; eauto]. Qed.
Lemma inside_no_collection h l x m xs : inside h l x m -> ~ collection_at h l xs.
Proof. intros [? ? E|? ? ? ? E _] [H|H]; by rewrite E in H. Qed.
Lemma dataset_no_collection h l xs : dataset_at h l -> ~ collection_at h l xs.
Proof. intros [[? E]|[? E]] [H|H]; by rewrite E in H. Qed.
Lemma inside_self h x m y m' : h !! x = Some (ODs m) -> inside h x y m' -> y = x /\ m' = m.
Proof. intros E H. destruct (inside_det _ _ _ _ _ _ H (in_ds h x m E)). by subst. Qed.
Lemma inside_step h l d x m : h !! l = Some (OTs (Some d)) -> inside h l x m -> inside h d x m.
Proof. intros E H. inversion H; subst; [by rewrite E in *|]. match goal with A : h !! l = Some (OTs (Some ?d')) |- _ => rewrite E in A; injection A as -> end. done. Qed.
Lemma wrapped_path h l x m p r : inside h l x m -> at_path h x p r -> at_path h l p r.
Proof. induction 1; [done|]. intros. eapply ap_wrap; eauto. Qed.

Section Reads.
  Context (R : loc -> loc -> Prop) (b : bool) (h h' : heap) (Ha : alike R b h h').
  Notation sv := (same_value R).
  Notation sa := (option_Forall2 sv).
  Lemma kd_inside l l' x m : R l l' -> inside h l x m -> exists x' m', inside h' l' x' m' /\ R x x' /\ forall k, sa (m !! k) (m' !! k).
  Proof.
    intros HR Hi. destruct (Ha _ _ HR) as [y my x' m' H1 H2 H3 H4|xs xs' H1 _ _ _|H1 _].
    - destruct (inside_det _ _ _ _ _ _ Hi H1); subst. eauto.
    - by destruct (inside_no_collection _ _ _ _ _ Hi H1).
    - destruct Hi; by rewrite H1 in *.
  Qed.
  Lemma kd_dataset l l' : R l l' -> dataset_at h l -> dataset_at h' l'.
  Proof.
    intros HR Hd. destruct (Ha _ _ HR) as [y my x' m' H1 H2 H3 H4|xs xs' H1 _ _ _|H1 _].
    - by eapply inside_dataset.
    - by destruct (dataset_no_collection _ _ _ Hd H1).
    - destruct Hd as [[? E]|[? E]]; by rewrite H1 in E.
  Qed.
  Lemma kd_has_inside l l' : R l l' -> dataset_at h l -> exists x m, inside h l x m.
  Proof.
    intros HR Hd. destruct (Ha _ _ HR) as [y my x' m' H1 H2 H3 H4|xs xs' H1 _ _ _|H1 _].
    - eauto.
    - by destruct (dataset_no_collection _ _ _ Hd H1).
    - destruct Hd as [[? E]|[? E]]; by rewrite H1 in E.
  Qed.
  Lemma kd_coll c c' xs : R c c' -> collection_at h c xs -> exists xs', collection_at h' c' xs' /\ Forall2 (option_Forall2 R) xs xs'.
  Proof.
    intros HR Hc. destruct (Ha _ _ HR) as [y my x' m' H1 H2 H3 H4|ys xs' H1 H2 H3 _|H1 _].
    - by destruct (inside_no_collection _ _ _ _ _ H1 Hc).
    - assert (ys = xs) as -> by (destruct Hc as [E|E], H1 as [E1|E1]; congruence). eauto.
    - destruct Hc as [E|E]; by rewrite H1 in E.
  Qed.
End Reads.
Lemma kd_flip R b h h' : alike R b h h' -> alike (flip R) b h' h.
Proof.
  intros Ha l' l H. destruct (Ha _ _ H) as [x m x' m' H1 H2 H3 H4|xs xs' H1 H2 H3 H4|H1 H2].
  - eapply sc_dataset; [done..|]. intros k. destruct (H4 k); constructor. by apply flip_sv.
  - eapply sc_collection; [done..| |]; [|intros Hb; symmetry; by apply H4]. apply Forall2_flip. eapply Forall2_impl; [exact H3|]. intros. by apply flip_ro.
  - by apply sc_nothing.
Qed.
Lemma kd_one_flip R h h' : one_to_one R h h' -> one_to_one (flip R) h' h.
Proof. intros H a c a' c' H1 H2 ? ? ? ?. symmetry. by apply H. Qed.
Lemma kd_dataset_r R b h h' l l' : alike R b h h' -> R l l' -> dataset_at h' l' -> dataset_at h l.
Proof. intros Ha HR. exact (kd_dataset (flip R) b h' h (kd_flip _ _ _ _ Ha) l' l HR). Qed.
Lemma kd_coll_r R b h h' c c' xs' : alike R b h h' -> R c c' -> collection_at h' c' xs' -> exists xs, collection_at h c xs /\ Forall2 (option_Forall2 R) xs xs'.
Proof.
  intros Ha HR Hc. destruct (kd_coll (flip R) b h' h (kd_flip _ _ _ _ Ha) c' c xs' HR Hc) as (xs & Hx & HF). exists xs. split; [done|].
  apply Forall2_flip. eapply Forall2_impl; [exact HF|]. intros u v Huv. apply (flip_ro (flip R)). done.
Qed.

Section Paths.
  Context (R : loc -> loc -> Prop) (b : bool) (h h' : heap) (Ha : alike R b h h').
  Notation sv := (same_value R).
  Notation sa := (option_Forall2 sv).
  Lemma kd_not_dataset r r' : sa r r' -> (forall d, r = Some (VRef d) -> ~ dataset_at h d) -> forall d', r' = Some (VRef d') -> ~ dataset_at h' d'.
  Proof.
    intros Hr Hn d' -> Hd. inversion Hr as [v ? Hv|]; subst. destruct Hv as [[<- Hne]|(d & ? & -> & [= <-] & HR)]; [by destruct (Hne d')|].
    apply (Hn d eq_refl). by eapply kd_dataset_r.
  Qed.
  Lemma kd_plain v v' : sv v v' -> plain h v -> plain h' v'.
  Proof.
    intros Hv [H1 H2]. split.
    - intros d' -> Hd. eapply (kd_not_dataset (Some v) (Some (VRef d'))); [by constructor| |done|done]. intros d [= ->]. by apply H1.
    - intros c' xs' -> Hc. destruct Hv as [[<- Hne]|(c & ? & -> & [= <-] & HR)]; [by destruct (Hne c')|].
      destruct (kd_coll_r _ _ _ _ _ _ _ Ha HR Hc) as (xs & Hx & _). by apply (H2 c xs).
  Qed.
  Lemma kd_path l p r : at_path h l p r -> forall a a' x m, R a a' -> inside h a x m -> inside h l x m -> exists r', at_path h' a' p r' /\ sa r r'.
  Proof.
    induction 1 as [l d p r Hl _ IH|l m0 k Hl|l m0 k p Hl Hk Hp|l m0 k d p r Hl Hk Hd Hp _ IH|l m0 k c xs s p Hl Hk Hc Hi
      |l m0 k c xs s i d Hl Hk Hc Hs Hx|l m0 k c xs s i d p r Hl Hk Hc Hs Hx Hp Hat IH|l m0 k p v Hl Hk Hv Hp]; intros a a' x m HR Hia Hil.
    - apply (IH a a' x m HR Hia). by eapply inside_step.
    - destruct (inside_self _ _ _ _ _ Hl Hil); subst. destruct (kd_inside _ _ _ _ Ha _ _ _ _ HR Hia) as (x' & m' & Hi' & _ & Hm).
      exists (m' !! k). split; [|done]. eapply wrapped_path; [done|]. apply ap_last. by apply inside_at in Hi'.
    - destruct (inside_self _ _ _ _ _ Hl Hil); subst. destruct (kd_inside _ _ _ _ Ha _ _ _ _ HR Hia) as (x' & m' & Hi' & _ & Hm).
      exists None. split; [|constructor]. eapply wrapped_path; [done|]. apply inside_at in Hi'. eapply ap_missing; [done|by eapply sm_none|done].
    - destruct (inside_self _ _ _ _ _ Hl Hil); subst. destruct (kd_inside _ _ _ _ Ha _ _ _ _ HR Hia) as (x' & m' & Hi' & _ & Hm).
      destruct (sm_get R m0 m' k (VRef d) Hm Hk) as (v' & Hk' & (d' & -> & HRd)%sv_ref).
      destruct (kd_has_inside _ _ _ _ Ha _ _ HRd Hd) as (y & my & Hy). destruct (IH d d' y my HRd Hy Hy) as (r' & ? & ?).
      exists r'. split; [|done]. eapply wrapped_path; [done|]. apply inside_at in Hi'. eapply ap_dataset; [done..|by eapply kd_dataset|done|done].
    - destruct (inside_self _ _ _ _ _ Hl Hil); subst. destruct (kd_inside _ _ _ _ Ha _ _ _ _ HR Hia) as (x' & m' & Hi' & _ & Hm).
      destruct (sm_get R m0 m' k (VRef c) Hm Hk) as (v' & Hk' & (c' & -> & HRc)%sv_ref).
      destruct (kd_coll _ _ _ _ Ha _ _ _ HRc Hc) as (xs' & Hc' & HF). exists None. split; [|constructor]. eapply wrapped_path; [done|]. apply inside_at in Hi'.
      eapply ap_no_index; [done..|]. intros i d' Hden Hx'. destruct (Forall2_lookup_r _ _ _ _ _ HF Hx') as (e & He & Hed).
      inversion Hed as [d ? Hdd|]; subst. by apply (Hi i d).
    - destruct (inside_self _ _ _ _ _ Hl Hil); subst. destruct (kd_inside _ _ _ _ Ha _ _ _ _ HR Hia) as (x' & m' & Hi' & _ & Hm).
      destruct (sm_get R m0 m' k (VRef c) Hm Hk) as (v' & Hk' & (c' & -> & HRc)%sv_ref).
      destruct (kd_coll _ _ _ _ Ha _ _ _ HRc Hc) as (xs' & Hc' & HF). destruct (Forall2_lookup_l _ _ _ _ _ HF Hx) as (e & He & Hed).
      inversion Hed as [? d' Hdd|]; subst. exists (Some (VRef d')). apply inside_at in Hi' as Hx2. split; [eapply wrapped_path; [done|]; by eapply ap_element|]. constructor. by apply sv_mk.
    - destruct (inside_self _ _ _ _ _ Hl Hil); subst. destruct (kd_inside _ _ _ _ Ha _ _ _ _ HR Hia) as (x' & m' & Hi' & _ & Hm).
      destruct (sm_get R m0 m' k (VRef c) Hm Hk) as (v' & Hk' & (c' & -> & HRc)%sv_ref).
      destruct (kd_coll _ _ _ _ Ha _ _ _ HRc Hc) as (xs' & Hc' & HF). destruct (Forall2_lookup_l _ _ _ _ _ HF Hx) as (e & He & Hed).
      inversion Hed as [? d' Hdd|]; subst. assert (Hds : dataset_at h d) by (destruct Hat; [right|left..]; eauto).
      destruct (kd_has_inside _ _ _ _ Ha _ _ Hdd Hds) as (y & my & Hy). destruct (IH d d' y my Hdd Hy Hy) as (r' & ? & ?).
      exists r'. split; [|done]. eapply wrapped_path; [done|]. apply inside_at in Hi'. by eapply ap_in_element.
    - destruct (inside_self _ _ _ _ _ Hl Hil); subst. destruct (kd_inside _ _ _ _ Ha _ _ _ _ HR Hia) as (x' & m' & Hi' & _ & Hm).
      destruct (sm_get R m0 m' k v Hm Hk) as (v' & Hk' & Hvv). eexists. split; [|apply Hm].
      eapply wrapped_path; [done|]. apply inside_at in Hi'. eapply ap_literal; [done..|by eapply kd_plain|done].
  Qed.
  Lemma path_dataset l p r : at_path h l p r -> dataset_at h l.
  Proof. destruct 1; [right|left..]; eauto. Qed.
  Lemma kd_answers d d' key r : R d d' -> answers h d key r -> exists r', answers h' d' key r' /\ sa r r'.
  Proof.
    intros HR (s & segs & Hs & Hp). destruct (kd_has_inside _ _ _ _ Ha _ _ HR (path_dataset _ _ _ Hp)) as (x & m & Hi).
    destruct (kd_path _ _ _ Hp d d' x m HR Hi Hi) as (r' & Hp' & Hr). exists r'. split; [|done]. by exists s, segs.
  Qed.
  Lemma kd_found sc key r : found h sc key r -> forall sc', Forall2 R sc sc' -> exists r', found h' sc' key r' /\ sa r r'.
  Proof.
    induction 1 as [key|d sc key v Hv|d sc key r Hn _ IH]; intros sc' HF.
    - inversion HF; subst. exists None. split; constructor.
    - inversion HF as [|? d' ? sc2 HR HF']; subst. destruct (kd_answers _ _ _ _ HR Hv) as (r' & Hr' & Hs).
      inversion Hs; subst. eexists. split; [by apply fd_here|done].
    - inversion HF as [|? d' ? sc2 HR HF']; subst. destruct (kd_answers _ _ _ _ HR Hn) as (r' & Hr' & Hs).
      inversion Hs; subst. destruct (IH sc2 HF') as (r2 & ? & ?). exists r2. split; [by apply fd_outer|done].
  Qed.
End Paths.
(** Where the value of a path stands. *)
Lemma path_end h l p r : at_path h l p r -> forall v, r = Some v ->
  (exists k, tail (joined p) k /\ binds h k v) \/ (exists k i, tail (joined p) k /\ denotes k (Z.of_nat i)).
Proof.
  assert (Hup : forall s p v, p <> [] -> (exists k, tail (joined p) k /\ binds h k v) \/ (exists k i, tail (joined p) k /\ denotes k (Z.of_nat i)) ->
    (exists k, tail (joined (s :: p)) k /\ binds h k v) \/ (exists k i, tail (joined (s :: p)) k /\ denotes k (Z.of_nat i))).
  { intros s q v Hq [(k & Ht & Hb)|(k & i & Ht & Hd)]; [left; exists k|right; exists k, i]; (split; [by apply tail_joined|done]). }
  induction 1 as [l d p r Hl _ IH|l m0 k Hl|l m0 k p Hl Hk Hp|l m0 k d p r Hl Hk Hd Hp _ IH|l m0 k c xs s p Hl Hk Hc Hi
      |l m0 k c xs s i d Hl Hk Hc Hs Hx|l m0 k c xs s i d p r Hl Hk Hc Hs Hx Hp Hat IH|l m0 k p v Hl Hk Hv Hp]; intros w E.
  - by apply IH.
  - left. exists k. split; [left; simpl; by rewrite app_nil_r|]. by exists l, m0.
  - discriminate E.
  - apply Hup; [done|by apply IH].
  - discriminate E.
  - right. exists s, i. split; [|done]. right. exists k. simpl. by rewrite app_nil_r.
  - apply Hup; [done|]. apply Hup; [done|by apply IH].
  - left. eexists. split; [by left|]. by exists l, m0.
Qed.
Lemma answer_end h d key v : answers h d key (Some v) -> (exists k, tail key k /\ binds h k v) \/ (exists k i, tail key k /\ denotes k (Z.of_nat i)).
Proof.
  intros (s & segs & [_ ->] & Hp). exact (path_end _ _ _ _ Hp v eq_refl).
Qed.
Lemma found_end h sc key v : found h sc key (Some v) -> (exists k, tail key k /\ binds h k v) \/ (exists k i, tail key k /\ denotes k (Z.of_nat i)).
Proof. intros H. remember (Some v) as r eqn:E. induction H; simplify_eq; [by eapply answer_end|by apply IHfound]. Qed.
