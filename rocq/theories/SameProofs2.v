(** * Executions of clones (C92). *)
From Verif Require Import GoBase GoStrings GoStringsProofs DatasetModel LangModel DatasetSpec DatasetProofs DatasetProofs2 DatasetProofs3 DatasetProofs4
  TemplateModel TemplateSpec RenderSpec SameSpec SameProofs.

Lemma alike_language R h h' langs d d' lg : alike R h h' -> R d d' -> language_of langs h d lg -> language_of langs h' d' lg.
Proof.
  intros Ha HR (r & Hr & Hl). destruct (alike_answers R h h' Ha _ _ _ _ HR Hr) as (r' & Hr' & Hs). exists r'. split; [done|].
  destruct Hl as [(k & -> & ->)|[Hn ->]].
  - left. exists k. inversion Hs as [? v' Hv|]; subst. destruct Hv as [[-> _]|(? & ? & ? & _)]; done.
  - right. split; [|done]. intros k ->. inversion Hs as [v ? Hv|]; subst. destruct Hv as [[<- _]|(? & ? & _ & ? & _)]; [|done]. by apply (Hn k).
Qed.
Lemma executes_alike R F ord ord' langs th h h' t d d' h1 out : order_ok ord -> order_ok ord' -> one_to_one R \/ loop_free th t ->
  alike R h h' -> R d d' -> executes F ord langs th h t d h1 out -> exists h1', executes F ord' langs th h' t d' h1' out /\ alike R h1 h1'.
Proof.
  intros Ho Ho' Hb Ha HR (lg & Hlg & Hr).
  assert (HF : Forall2 R [d] [d']) by (by repeat constructor).
  assert (exists h1', renders F ord' th lg h' [d'] t h1' out /\ alike R h1 h1') as (h1' & ? & ?).
  { destruct Hb as [Hb|(S & Ht & HS & Hno)].
    - refine (proj1 (alike_renders R F ord ord' Ho Ho' th lg (fun _ => False) _ _) _ _ _ _ _ Hr h' [d'] Ha HF (or_introl Hb)); done.
    - exact (proj1 (alike_renders R F ord ord' Ho Ho' th lg S HS Hno) _ _ _ _ _ Hr h' [d'] Ha HF (or_intror Ht)). }
  exists h1'. split; [|done]. exists lg. split; [by eapply alike_language|done].
Qed.
Lemma texts_alike R F ord ord' langs th h h' t d d' out : order_ok ord -> order_ok ord' -> one_to_one R \/ loop_free th t ->
  alike R h h' -> R d d' -> (exists h1, executes F ord langs th h t d h1 out) <-> (exists h1, executes F ord' langs th h' t d' h1 out).
Proof.
  intros Ho Ho' Hb Ha HR. split; intros [h1 H].
  - destruct (executes_alike R F ord ord' langs th h h' t d d' h1 out) as (h1' & ? & _); eauto.
  - destruct (executes_alike (flip R) F ord' ord langs th h' h t d' d h1 out) as (h1' & ? & _); eauto using alike_flip.
    destruct Hb; [left; by apply one_to_one_flip|by right].
Qed.

(** ** Ways *)
Lemma way_cons h l mv p x : way h l (mv :: p) x <-> exists d, way h l [mv] d /\ way h d p x.
Proof.
  split.
  - inversion 1; subst; eexists; (split; [|done]); econstructor; try done; constructor.
  - intros (d & H & H2). inversion H; subst; match goal with H : way h _ [] d |- _ => inversion H; subst end; by econstructor.
Qed.
Lemma way_app h l p q x : way h l (p ++ q) x <-> exists d, way h l p d /\ way h d q x.
Proof.
  revert l. induction p as [|mv p IH]; intros l; simpl.
  - split; [intros; exists l; split; [constructor|done]|]. intros (d & H & ?). by inversion H; subst.
  - rewrite way_cons. split.
    + intros (d & H1 & (e & H2 & H3)%IH). exists e. split; [|done]. apply way_cons. eauto.
    + intros (d & (e & H1 & H2)%way_cons & H3). exists e. split; [done|]. apply IH. eauto.
Qed.
Lemma collection_same h c xs ys : collection_at h c xs -> collection_at h c ys -> xs = ys.
Proof. intros [H|H] [H'|H']; congruence. Qed.
Lemma way_one_functional h l mv d e : way h l [mv] d -> way h l [mv] e -> d = e.
Proof.
  intros H1 H2. inversion H1; subst; inversion H2; subst;
    repeat match goal with H : way h _ [] _ |- _ => inversion H; subst; clear H end; try congruence.
  match goal with H : collection_at h l _, H' : collection_at h l _ |- _ => rewrite (collection_same _ _ _ _ H H') in * end. congruence.
Qed.
Lemma way_functional h l p d e : way h l p d -> way h l p e -> d = e.
Proof.
  revert l. induction p as [|mv p IH]; intros l; [by inversion 1; subst; inversion 1; subst|].
  intros (a & H1 & H2)%way_cons (b & H3 & H4)%way_cons. rewrite (way_one_functional _ _ _ _ _ H3 H1) in H4. by eapply IH.
Qed.
Lemma way_one_child h l mv d : way h l [mv] d -> child h l d.
Proof.
  inversion 1; subst; match goal with H : way h _ [] d |- _ => inversion H; subst end.
  - by eapply child_ds.
  - by eapply child_ts.
  - eapply child_coll; [done|]. by eapply elem_of_list_lookup_2.
Qed.
Lemma way_reach h l p x : way h l p x -> reach h l x.
Proof.
  revert l. induction p as [|mv p IH]; intros l; [inversion 1; subst; apply rtc_refl|].
  intros (d & H1%way_one_child & H2)%way_cons. eapply rtc_l; [done|by apply IH].
Qed.
Lemma way_one_frame h h' l mv d : h' !! l = h !! l -> way h l [mv] d -> way h' l [mv] d.
Proof.
  intros E H. inversion H; subst; match goal with H : way h _ [] d |- _ => inversion H; subst end.
  - eapply way_key; [by rewrite E|done|constructor].
  - eapply way_unwrap; [by rewrite E|constructor].
  - eapply way_index; [|done|constructor]. unfold collection_at in *. by rewrite E.
Qed.
Lemma way_frame h h' l : (forall x, reach h l x -> h' !! x = h !! x) -> forall p x, way h l p x <-> way h' l p x.
Proof.
  intros E p. revert l E. induction p as [|mv p IH]; intros l E x.
  { split; inversion 1; subst; constructor. }
  assert (El : h' !! l = h !! l) by (apply E, rtc_refl). rewrite !way_cons. split; intros (d & H1 & H2).
  - exists d. split; [by eapply way_one_frame|]. apply (IH d); [|done]. intros y Hy. apply E. eapply rtc_l; [by eapply way_one_child|done].
  - assert (H1' : way h l [mv] d) by (by eapply way_one_frame). exists d. split; [done|]. apply (IH d); [|done].
    intros y Hy. apply E. eapply rtc_l; [by eapply way_one_child|done].
Qed.
Lemma unshared_frame h h' l : (forall x, reach h l x -> h' !! x = h !! x) -> unshared h l -> unshared h' l.
Proof. intros E H p q x Hp%(way_frame h h' l E) Hq%(way_frame h h' l E). by eapply H. Qed.

(** ** What Clone builds is unshared *)
(** The objects reached from [d] are new and no two ways lead to one of them. *)
Definition tree (hc hc' : heap) (d : loc) : Prop := unshared hc' d /\ forall x, reach hc' d x -> hc !! x = None /\ is_Some (hc' !! x).
Definition apart (h : heap) (d e : loc) : Prop := forall x, reach h d x -> reach h e x -> False.
Lemma tree_frame h hc hc' d : (forall x, reach hc d x -> hc' !! x = hc !! x) -> tree h hc d -> tree h hc' d.
Proof.
  intros E [Hu Hf]. split; [by eapply unshared_frame|]. intros x Hx. apply (reach_frame hc hc' d E) in Hx. rewrite (E x Hx). by apply Hf.
Qed.
Lemma tree_grow h hc hc' d : hc ⊆ hc' -> tree h hc d -> tree h hc' d.
Proof. intros Hs H. eapply tree_frame; [|done]. apply closed_grow; [done|]. intros x Hx. by apply H. Qed.
Lemma tree_weaken h h2 hc d : h2 ⊆ h -> tree h hc d -> tree h2 hc d.
Proof.
  intros Hs [Hu Hf]. split; [done|]. intros x Hx. destruct (Hf x Hx) as [Hn Hi]. split; [|done].
  destruct (h2 !! x) as [o|] eqn:E; [|done]. by rewrite (lookup_weaken _ _ _ _ E Hs) in Hn.
Qed.
(** What was built earlier stays apart from what is built later. *)
Lemma tree_apart h hd hc' d e : hd ⊆ hc' -> tree h hd d -> tree hd hc' e -> apart hc' d e /\ apart hc' e d.
Proof.
  intros Hs Hd He. assert (forall x, reach hc' d x -> reach hc' e x -> False).
  { intros x Hx Hy. apply (proj2 He) in Hy as [Hy _]. assert (E : forall y, reach hd d y -> hc' !! y = hd !! y).
    { apply closed_grow; [done|]. intros y Hr. by apply Hd. }
    apply (reach_frame hd hc' d E) in Hx. destruct (proj2 Hd x Hx) as [_ [o Ho]]. congruence. }
  split; intros x; naive_solver.
Qed.
Lemma node_tree h h1 hX c : h ⊆ h1 -> h !! c = None -> is_Some (h1 !! c) -> is_Some (hX !! c) ->
  (forall mv d, way hX c [mv] d -> tree h1 hX d) ->
  (forall mv nv d e, mv <> nv -> way hX c [mv] d -> way hX c [nv] e -> apart hX d e) ->
  (forall d, child hX c d -> exists mv, way hX c [mv] d) -> tree h hX c.
Proof.
  intros Hs Hc [o1 H1] HX Ht Ha Hch. split.
  - intros p q x Hp Hq. destruct p as [|mv p], q as [|nv q]; [done| | |].
    + apply way_cons in Hq as (d & Hd & Hq). inversion Hp; subst. apply way_reach in Hq. destruct (proj2 (Ht _ _ Hd) _ Hq). congruence.
    + apply way_cons in Hp as (d & Hd & Hp). inversion Hq; subst. apply way_reach in Hp. destruct (proj2 (Ht _ _ Hd) _ Hp). congruence.
    + apply way_cons in Hp as (d & Hd & Hp). apply way_cons in Hq as (e & He & Hq).
      assert (Dm : forall a b : move, {a = b} + {a <> b}) by (intros; repeat decide equality).
      destruct (Dm mv nv) as [->|Hne].
      * rewrite (way_one_functional _ _ _ _ _ He Hd) in Hq. f_equal. exact (proj1 (Ht _ _ Hd) _ _ _ Hp Hq).
      * exfalso. eapply (Ha _ _ _ _ Hne Hd He); by eapply way_reach.
  - intros x Hx. inversion Hx as [|? y ? Hy Hr]; subst; [done|]. destruct (Hch _ Hy) as [mv Hm].
    destruct (proj2 (Ht _ _ Hm) _ Hr) as [Hn Hi]. split; [|done].
    destruct (h !! x) as [o|] eqn:E; [|done]. by rewrite (lookup_weaken _ _ _ _ E Hs) in Hn.
Qed.
Lemma child_way h l d : child h l d -> exists mv, way h l [mv] d.
Proof.
  intros [? m k ? H1 H2|? ? H1|? xs ? H1 H2].
  - exists (Key k). eapply way_key; [done..|constructor].
  - exists Unwrap. eapply way_unwrap; [done|constructor].
  - apply elem_of_list_lookup in H2 as [i Hi]. exists (Index i). eapply way_index; [done..|constructor].
Qed.

Section Clone.
  Context (ord : heap -> gmap bytes value -> list (bytes * value)) (Hord : order_ok ord).
  Definition builds (f : heap -> loc -> outcome (heap * loc)) : Prop :=
    forall h l h' l', f h l = Ok (h', l') -> h ⊆ h' /\ tree h h' l'.
  Lemma clone_entries_tree f es : builds f -> NoDup es.*1 -> forall hc m hc' m', clone_entries f es hc m = Ok (hc', m') ->
    hc ⊆ hc' /\ (forall k, k ∉ es.*1 -> m' !! k = m !! k) /\
    (forall k d, k ∈ es.*1 -> m' !! k = Some (VRef d) -> tree hc hc' d) /\
    (forall k k2 d e, k <> k2 -> k ∈ es.*1 -> k2 ∈ es.*1 -> m' !! k = Some (VRef d) -> m' !! k2 = Some (VRef e) -> apart hc' d e).
  Proof.
    intros Hf. induction es as [|[k v] es IH]; intros Hnd hc m hc' m'; simpl.
    { intros [= <- <-]. split_and!; try done; intros; exfalso; by eapply not_elem_of_nil. }
    apply NoDup_cons in Hnd as [Hk Hnd].
    assert (Hfin : forall hd v2, hc ⊆ hd -> (forall d, v2 = VRef d -> tree hc hd d) -> clone_entries f es hd (<[k:=v2]> m) = Ok (hc', m') ->
      hc ⊆ hc' /\ (forall k', k' ∉ k :: es.*1 -> m' !! k' = m !! k') /\
      (forall k' d, k' ∈ k :: es.*1 -> m' !! k' = Some (VRef d) -> tree hc hc' d) /\
      (forall k1 k2 d e, k1 <> k2 -> k1 ∈ k :: es.*1 -> k2 ∈ k :: es.*1 -> m' !! k1 = Some (VRef d) -> m' !! k2 = Some (VRef e) -> apart hc' d e)).
    { intros hd v2 Hs Hv He. destruct (IH Hnd _ _ _ _ He) as (H1 & H2 & H3 & H4).
      assert (Ek : m' !! k = Some v2) by (rewrite H2 by done; by rewrite lookup_insert).
      split_and!.
      - by etrans.
      - intros k' [? ?]%not_elem_of_cons. rewrite H2 by done. by rewrite lookup_insert_ne.
      - intros k' d [->|Hin]%elem_of_cons Hd.
        + rewrite Ek in Hd. injection Hd as ->. eapply tree_grow; [exact H1|]. by apply Hv.
        + eapply tree_weaken; [exact Hs|]. by eapply H3.
      - intros k1 k2 d e Hne [->|Hi1]%elem_of_cons [->|Hi2]%elem_of_cons Hd He2; [done| | |by eapply H4].
        + rewrite Ek in Hd. injection Hd as ->. by apply (tree_apart hc hd hc' d e H1 (Hv _ eq_refl) (H3 _ _ Hi2 He2)).
        + rewrite Ek in He2. injection He2 as ->. by apply (tree_apart hc hd hc' e d H1 (Hv _ eq_refl) (H3 _ _ Hi1 Hd)). }
    destruct v as [| | | | | | | | | | | |r|]; try (intros He; eapply Hfin; [reflexivity| |exact He]; done).
    destruct (f hc r) as [[hd r']| |] eqn:E; try done. cbn [obind]. destruct (Hf _ _ _ _ E) as [Hg Ht].
    apply Hfin; [done|]. by intros d [= <-].
  Qed.
  Lemma clone_elements_tree f xs : builds f -> forall hc ys hc' ys', clone_elements f xs hc ys = Ok (hc', ys') ->
    hc ⊆ hc' /\ exists zs, ys' = ys ++ zs /\ (forall i d, zs !! i = Some (Some d) -> tree hc hc' d) /\
    (forall i j d e, i <> j -> zs !! i = Some (Some d) -> zs !! j = Some (Some e) -> apart hc' d e).
  Proof.
    intros Hf. induction xs as [|[r|] xs IH]; intros hc ys hc' ys'; simpl; [| |done].
    { intros [= <- <-]. split; [done|]. exists []. split_and!; [by rewrite app_nil_r|intros; by rewrite lookup_nil in *..]. }
    destruct (f hc r) as [[hd r']| |] eqn:E; try done. cbn [obind]. intros He. destruct (Hf _ _ _ _ E) as [Hg Ht].
    destruct (IH _ _ _ _ He) as (H1 & zs & -> & H2 & H3). split; [by etrans|]. exists (Some r' :: zs). split_and!.
    - by rewrite <- app_assoc.
    - intros [|i] d; simpl; [intros [= <-]; by eapply tree_grow|]. intros Hd. eapply tree_weaken; [exact Hg|]. by eapply H2.
    - intros [|i] [|j] d e Hne Hd He2; simpl in *; [done| | |].
      + injection Hd as <-. apply (tree_apart hc hd hc' r' e H1 Ht (H2 _ _ He2)).
      + injection He2 as <-. apply (tree_apart hc hd hc' r' d H1 Ht (H2 _ _ Hd)).
      + eapply (H3 i j); [congruence|done..].
  Qed.
  (** The new object stored over its placeholder. *)
  Lemma store_tree h1 h2 c o d : is_Some (h1 !! c) -> tree h1 h2 d -> tree h1 (<[c := o]> h2) d.
  Proof.
    intros [x Hc] H. eapply tree_frame; [|exact H]. intros y Hy. destruct (proj2 H y Hy) as [Hn _]. rewrite lookup_insert_ne; [done|]. intros ->. congruence.
  Qed.
  Lemma store_apart h1 h2 c o d e : is_Some (h1 !! c) -> tree h1 h2 d -> tree h1 h2 e -> apart h2 d e -> apart (<[c := o]> h2) d e.
  Proof.
    intros [z Hc] Hd He Ha x Hx Hy.
    assert (Hfr : forall d, tree h1 h2 d -> forall y, reach h2 d y -> <[c := o]> h2 !! y = h2 !! y).
    { intros d' Ht y Hy'. destruct (proj2 Ht y Hy') as [Hn _]. rewrite lookup_insert_ne; [done|]. intros ->. congruence. }
    apply (reach_frame h2 _ d (Hfr d Hd)) in Hx. apply (reach_frame h2 _ e (Hfr e He)) in Hy. by apply (Ha x).
  Qed.
  Lemma one_key h c m mv d : h !! c = Some (ODs m) -> way h c [mv] d -> exists k, mv = Key k /\ m !! k = Some (VRef d).
  Proof.
    intros E H. inversion H as [|? m0 k ? ? ? E1 E2 Hn|? ? ? ? E1 Hn|? xs i ? ? ? [E1|E1] E2 Hn]; subst; inversion Hn; subst; try congruence.
    exists k. split; [done|]. congruence.
  Qed.
  Lemma one_index h c xs mv d : collection_at h c xs -> way h c [mv] d -> exists i, mv = Index i /\ xs !! i = Some (Some d).
  Proof.
    intros E H. inversion H as [|? m0 k ? ? ? E1 E2 Hn|? ? ? ? E1 Hn|? ys i ? ? ? E1 E2 Hn]; subst; inversion Hn; subst.
    - destruct E; congruence.
    - destruct E; congruence.
    - rewrite (collection_same _ _ _ _ E E1). eauto.
  Qed.
  Lemma clone_tree n : builds (clone ord n).
  Proof.
    induction n as [|n IH]; intros h l h' l' Hcl; [done|]. split; [by eapply clone_grows|].
    cbn [clone] in Hcl. unfold alloc in Hcl. set (c := fresh (dom h)) in *. pose proof (fresh_none h) as Hc. fold c in Hc.
    assert (Hin : forall o : obj, is_Some ((<[c := o]> h : heap) !! c)) by (intros; rewrite lookup_insert; by eexists).
    destruct (h !! l) as [[m|[d|]|xs|xs]|] eqn:El; try done.
    - destruct (clone_entries _ _ _ _) as [[h2 m']| |] eqn:E; try done. cbn [obind] in Hcl. injection Hcl as <- <-.
      destruct (clone_entries_tree _ _ IH (ord_nodup ord Hord h m) _ _ _ _ E) as (H1 & H2 & H3 & H4).
      assert (Hm : forall k d, m' !! k = Some (VRef d) -> k ∈ (ord h m).*1).
      { intros k d Hk. destruct (decide (k ∈ (ord h m).*1)) as [|Hno]; [done|]. rewrite (H2 k Hno), lookup_empty in Hk. done. }
      assert (Ec : (<[c := ODs m']> h2 : heap) !! c = Some (ODs m')) by apply lookup_insert.
      apply (node_tree h (<[c := ODs ∅]> h)); [apply sub_alloc|done|apply Hin|by eexists| | |by apply child_way].
      + intros mv d Hd. destruct (one_key _ _ _ _ _ Ec Hd) as (k & -> & Hk). apply store_tree; [apply Hin|]. eapply H3; [by eapply Hm|done].
      + intros mv nv d e Hne Hd He. destruct (one_key _ _ _ _ _ Ec Hd) as (k & -> & Hk). destruct (one_key _ _ _ _ _ Ec He) as (k2 & -> & Hk2).
        apply (store_apart (<[c := ODs ∅]> h)); [apply Hin|exact (H3 _ _ (Hm _ _ Hk) Hk)|exact (H3 _ _ (Hm _ _ Hk2) Hk2)|].
        apply (H4 k k2 d e); [congruence|by eapply Hm|by eapply Hm|done|done].
    - destruct (clone ord n _ d) as [[h2 d']| |] eqn:E; try done. cbn [obind] in Hcl. injection Hcl as <- <-.
      destruct (IH _ _ _ _ E) as [H1 H2].
      assert (Ec : (<[c := OTs (Some d')]> h2 : heap) !! c = Some (OTs (Some d'))) by apply lookup_insert.
      assert (Hone : forall mv e, way (<[c := OTs (Some d')]> h2) c [mv] e -> mv = Unwrap /\ e = d').
      { intros mv e H. inversion H as [|? m0 k ? ? ? E1 E2 Hn|? ? ? ? E1 Hn|? xs i ? ? ? [E1|E1] E2 Hn]; subst; inversion Hn; subst; try congruence.
        split; [done|]. congruence. }
      apply (node_tree h (<[c := OTs None]> h)); [apply sub_alloc|done|apply Hin|by eexists| | |by apply child_way].
      + intros mv e [-> ->]%Hone. apply store_tree; [apply Hin|done].
      + intros mv nv a b Hne [-> ->]%Hone [-> ->]%Hone. done.
    - destruct (clone_elements _ _ _ _) as [[h2 ys]| |] eqn:E; try done. cbn [obind] in Hcl. injection Hcl as <- <-.
      destruct (clone_elements_tree _ _ IH _ _ _ _ E) as (H1 & zs & Hz & H2 & H3). simpl in Hz. subst ys.
      assert (Ec : collection_at (<[c := OColl zs]> h2) c zs) by (left; apply lookup_insert).
      apply (node_tree h (<[c := OColl []]> h)); [apply sub_alloc|done|apply Hin|rewrite lookup_insert; by eexists| | |by apply child_way].
      + intros mv d Hd. destruct (one_index _ _ _ _ _ Ec Hd) as (i & -> & Hi). apply store_tree; [apply Hin|by eapply H2].
      + intros mv nv d e Hne Hd He. destruct (one_index _ _ _ _ _ Ec Hd) as (i & -> & Hi). destruct (one_index _ _ _ _ _ Ec He) as (j & -> & Hj).
        apply (store_apart (<[c := OColl []]> h)); [apply Hin|by eapply H2|by eapply H2|]. eapply (H3 i j); [congruence|done..].
    - destruct (clone_elements _ _ _ _) as [[h2 ys]| |] eqn:E; try done. cbn [obind] in Hcl. injection Hcl as <- <-.
      destruct (clone_elements_tree _ _ IH _ _ _ _ E) as (H1 & zs & Hz & H2 & H3). simpl in Hz. subst ys.
      assert (Ec : collection_at (<[c := OCollTS zs]> h2) c zs) by (right; apply lookup_insert).
      apply (node_tree h (<[c := OCollTS []]> h)); [apply sub_alloc|done|apply Hin|rewrite lookup_insert; by eexists| | |by apply child_way].
      + intros mv d Hd. destruct (one_index _ _ _ _ _ Ec Hd) as (i & -> & Hi). apply store_tree; [apply Hin|by eapply H2].
      + intros mv nv d e Hne Hd He. destruct (one_index _ _ _ _ _ Ec Hd) as (i & -> & Hi). destruct (one_index _ _ _ _ _ Ec He) as (j & -> & Hj).
        apply (store_apart (<[c := OCollTS []]> h)); [apply Hin|by eapply H2|by eapply H2|]. eapply (H3 i j); [congruence|done..].
  Qed.
End Clone.
Lemma clone_unshared ord n h l h' l' : order_ok ord -> clone ord n h l = Ok (h', l') -> unshared h' l'.
Proof. intros Ho H. by apply (clone_tree ord Ho n h l h' l'). Qed.

(** ** Copies *)
Lemma copy_keys h h' l l' m m' : copy h h' l l' -> h !! l = Some (ODs m) -> h' !! l' = Some (ODs m') ->
  forall k, option_Forall2 (copy_value h h') (m !! k) (m' !! k).
Proof.
  intros Hc E E'. inversion Hc as [? ? m0 m0' E1 E1' Hn Hv|? ? d d' E1 E1' Hd|? ? ds ds' E1 E1' Hlen Hd|? ? ds ds' E1 E1' Hlen Hd]; subst; try congruence.
  assert (m0 = m) as -> by congruence. assert (m0' = m') as -> by congruence. intros k.
  destruct (m !! k) as [v|] eqn:Ek, (m' !! k) as [v'|] eqn:Ek'; [constructor; by eapply Hv| | |constructor].
  - apply Hn in Ek'. congruence.
  - apply Hn in Ek. congruence.
Qed.
Lemma copy_same (R : loc -> loc -> Prop) h h' l l' : copy h h' l l' -> (forall d d' mv, way h l [mv] d -> way h' l' [mv] d' -> copy h h' d d' -> R d d') ->
  same_obj R (h !! l) (h' !! l').
Proof.
  intros Hc HR. pose proof Hc as Hc0.
  inversion Hc as [? ? m m' E1 E1' Hn Hv|? ? d d' E1 E1' Hd|? ? ds ds' E1 E1' Hlen Hd|? ? ds ds' E1 E1' Hlen Hd]; subst; rewrite E1, E1'; constructor.
  - intros k. pose proof (copy_keys _ _ _ _ _ _ Hc0 E1 E1' k) as Hk. destruct (m !! k) as [v|] eqn:Ek, (m' !! k) as [v'|] eqn:Ek'; inversion Hk as [? ? Hvv|]; subst; constructor.
    inversion Hvv as [? Hne|d d' Hd]; subst; [by left|]. right. exists d, d'. split_and!; [done..|].
    apply (HR _ _ (Key k)); [eapply way_key; [done..|constructor]|eapply way_key; [done..|constructor]|done].
  - constructor. apply (HR _ _ Unwrap); [eapply way_unwrap; [done|constructor]..|done].
  - apply Forall2_same_length_lookup. split; [by rewrite !map_length|]. intros i a b Ha Hb.
    rewrite list_lookup_fmap in Ha, Hb. destruct (ds !! i) as [d|] eqn:Ei, (ds' !! i) as [d'|] eqn:Ei'; simplify_eq/=. constructor.
    apply (HR _ _ (Index i)); [eapply way_index; [by left|by rewrite list_lookup_fmap, ?Ei, ?Ei'|constructor]..|by eapply Hd].
  - apply Forall2_same_length_lookup. split; [by rewrite !map_length|]. intros i a b Ha Hb.
    rewrite list_lookup_fmap in Ha, Hb. destruct (ds !! i) as [d|] eqn:Ei, (ds' !! i) as [d'|] eqn:Ei'; simplify_eq/=. constructor.
    apply (HR _ _ (Index i)); [eapply way_index; [by right|by rewrite list_lookup_fmap, ?Ei, ?Ei'|constructor]..|by eapply Hd].
Qed.
Lemma alike_copy h h' : alike (copy h h') h h'.
Proof. intros l l' H. by eapply copy_same. Qed.
Lemma copy_one h h' l l' mv d d' : copy h h' l l' -> way h l [mv] d -> way h' l' [mv] d' -> copy h h' d d'.
Proof.
  intros Hc Hd Hd'. inversion Hc as [? ? m m' E1 E1' Hn Hv|? ? e e' E1 E1' He|? ? ds ds' E1 E1' Hlen He|? ? ds ds' E1 E1' Hlen He]; subst.
  - destruct (one_key _ _ _ _ _ E1 Hd) as (k & -> & Hk). destruct (one_key _ _ _ _ _ E1' Hd') as (k' & [= <-] & Hk').
    pose proof (Hv _ _ _ Hk Hk') as H. inversion H as [? Hne|]; subst; [|done]. by destruct (Hne d').
  - inversion Hd as [|? m0 k ? ? ? F1 F2 Hn|? ? ? ? F1 Hn|? xs i ? ? ? [F1|F1] F2 Hn]; subst; inversion Hn; subst; try congruence.
    inversion Hd' as [| |? ? ? ? F1' Hn'|]; subst; inversion Hn'; subst. congruence.
  - destruct (one_index h l (map Some ds) mv d (or_introl E1) Hd) as (i & -> & Hi).
    destruct (one_index h' l' (map Some ds') (Index i) d' (or_introl E1') Hd') as (j & [= <-] & Hj). rewrite list_lookup_fmap in Hi, Hj.
    destruct (ds !! i) as [?|] eqn:Ei, (ds' !! i) as [?|] eqn:Ei'; simplify_eq/=. by eapply He.
  - destruct (one_index h l (map Some ds) mv d (or_intror E1) Hd) as (i & -> & Hi).
    destruct (one_index h' l' (map Some ds') (Index i) d' (or_intror E1') Hd') as (j & [= <-] & Hj). rewrite list_lookup_fmap in Hi, Hj.
    destruct (ds !! i) as [?|] eqn:Ei, (ds' !! i) as [?|] eqn:Ei'; simplify_eq/=. by eapply He.
Qed.
Lemma copy_way h h' p : forall l l' x x', copy h h' l l' -> way h l p x -> way h' l' p x' -> copy h h' x x'.
Proof.
  induction p as [|mv p IH]; intros l l' x x' Hc; [by inversion 1; subst; inversion 1; subst|].
  intros (d & H1 & H2)%way_cons (d' & H3 & H4)%way_cons. eapply IH; [|done..]. by eapply copy_one.
Qed.
(** The addresses reached in the same way. *)
Definition paired (h h' : heap) (l l' x x' : loc) : Prop := exists p, way h l p x /\ way h' l' p x'.
Lemma paired_alike h h' l l' : copy h h' l l' -> alike (paired h h' l l') h h'.
Proof.
  intros Hc x x' (p & H1 & H2). eapply copy_same; [by eapply copy_way|]. intros d d' mv Hd Hd' _. exists (p ++ [mv]). split; apply way_app; [by exists x|by exists x'].
Qed.
Lemma paired_one_to_one h h' l l' : unshared h l -> unshared h' l' -> one_to_one (paired h h' l l').
Proof.
  intros Hu Hu' a b a' b' (p & H1 & H2) (q & H3 & H4). split; intros <-.
  - rewrite (Hu _ _ _ H1 H3) in H2. by eapply way_functional.
  - rewrite (Hu' _ _ _ H2 H4) in H1. by eapply way_functional.
Qed.
Lemma copies_same_text F ord ord' langs th h h' t l l' out : order_ok ord -> order_ok ord' -> copy h h' l l' ->
  loop_free th t \/ (unshared h l /\ unshared h' l') ->
  (exists h1, executes F ord langs th h t l h1 out) <-> (exists h1, executes F ord' langs th h' t l' h1 out).
Proof.
  intros Ho Ho' Hc [Hl|[Hu Hu']].
  - apply (texts_alike (copy h h')); [done..|by right|apply alike_copy|done].
  - apply (texts_alike (paired h h' l l')); [done..|left; by apply paired_one_to_one|by apply paired_alike|]. exists []. split; constructor.
Qed.
Lemma clone_same_text F ord ord' ordc langs th n h l h' l' t out : order_ok ord -> order_ok ord' -> order_ok ordc ->
  complete h l -> clone ordc n h l = Ok (h', l') -> loop_free th t \/ unshared h l ->
  ((exists h1, executes F ord langs th h t l h1 out) <-> (exists h1, executes F ord' langs th h' t l' h1 out)) /\
  ((exists h1, executes F ord langs th h' t l h1 out) <-> (exists h1, executes F ord' langs th h' t l' h1 out)).
Proof.
  intros Ho Ho' Hoc Hc Hcl Hb. destruct (clone_made ordc Hoc n _ _ _ _ Hcl Hc) as [Hs [Hcp Hf]].
  pose proof (clone_unshared _ _ _ _ _ _ Hoc Hcl) as Hu.
  pose proof (closed_grow _ _ _ Hs (complete_closed _ _ Hc)) as E.
  assert (Hcp2 : copy h' h' l l') by (apply (proj1 (copy_frame h h') _ _ Hcp); [done|done]).
  split; apply copies_same_text; try done.
  - destruct Hb as [Hb|Hb]; [by left|by right].
  - destruct Hb as [Hb|Hb]; [by left|right]. split; [by eapply unshared_frame|done].
Qed.
