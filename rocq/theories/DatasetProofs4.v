(** * Clone (C27-C29). *)
From Verif Require Import GoBase GoStrings GoStringsProofs DatasetModel DatasetSpec DatasetProofs DatasetProofs2 DatasetProofs3.

Scheme copy_mind := Minimality for copy Sort Prop with copy_value_mind := Minimality for copy_value Sort Prop.
Combined Scheme copy_mutind from copy_mind, copy_value_mind.

(** ** Reachability *)
Lemma reach_child h x y z : child h x y -> reach h y z -> reach h x z.
Proof. apply rtc_l. Qed.
Lemma child_frame h h' x y : h' !! x = h !! x -> child h x y <-> child h' x y.
Proof.
  intros E. split; inversion 1 as [? m k ? H1 H2|? ? H1|? xs ? H1 H2]; subst.
  - eapply child_ds; [by rewrite E|done].
  - eapply child_ts. by rewrite E.
  - eapply child_coll; [|done]. unfold collection_at. by rewrite E.
  - eapply child_ds; [by rewrite <-E|done].
  - eapply child_ts. by rewrite <-E.
  - eapply child_coll; [|done]. unfold collection_at. by rewrite <-E.
Qed.
Lemma reach_frame h h' l : (forall x, reach h l x -> h' !! x = h !! x) -> forall x, reach h l x <-> reach h' l x.
Proof.
  intros E. assert (Hfwd : forall x, reach h l x -> reach h' l x).
  { intros x Hx. revert x Hx. apply (rtc_ind_r (fun x => reach h' l x) l); [apply rtc_refl|]. intros y z Hxy Hyz IH.
    eapply rtc_r; [exact IH|]. by apply (child_frame h h'); [apply E|]. }
  intros x. split; [apply Hfwd|]. revert x. apply (rtc_ind_r (fun x => reach h l x) l); [apply rtc_refl|]. intros y z Hxy Hyz IH.
  eapply rtc_r; [exact IH|]. by apply (child_frame h h'); [apply E|].
Qed.
Lemma closed_grow h h' l : h ⊆ h' -> (forall x, reach h l x -> is_Some (h !! x)) -> forall x, reach h l x -> h' !! x = h !! x.
Proof. intros Hs Hc x Hx. destruct (Hc x Hx) as [o Ho]. rewrite Ho. by eapply lookup_weaken. Qed.
Lemma complete_child h l d : complete h l -> child h l d -> complete h d.
Proof. intros Hc Hd x Hx. apply Hc. by eapply reach_child. Qed.
Lemma complete_closed h l : complete h l -> forall x, reach h l x -> is_Some (h !! x).
Proof. intros Hc x Hx. destruct (Hc x Hx) as [[o Ho] _]. by exists o. Qed.
Lemma complete_grow h h' l : h ⊆ h' -> complete h l -> complete h' l.
Proof.
  intros Hs Hc x Hx. pose proof (closed_grow _ _ _ Hs (complete_closed _ _ Hc)) as E.
  apply (reach_frame h h' l E) in Hx. unfold collection_at. rewrite (E x Hx). by apply Hc.
Qed.

(** ** Copies only depend on what is reachable *)
Lemma copy_frame h h' :
  (forall l l', copy h h' l l' -> forall h1 h1', (forall x, reach h l x -> h1 !! x = h !! x) ->
     (forall x, reach h' l' x -> h1' !! x = h' !! x) -> copy h1 h1' l l') /\
  (forall v v', copy_value h h' v v' -> forall h1 h1', (forall d x, v = VRef d -> reach h d x -> h1 !! x = h !! x) ->
     (forall d x, v' = VRef d -> reach h' d x -> h1' !! x = h' !! x) -> copy_value h1 h1' v v').
Proof.
  apply copy_mutind.
  - intros l l' m m' Hl Hl' Hn _ IH h1 h1' E E'. eapply copy_ds; [rewrite E; [done|apply rtc_refl]|rewrite E'; [done|apply rtc_refl]|done|].
    intros k v v' Hv Hv'. apply (IH k v v' Hv Hv').
    + intros d x -> Hx. apply E. eapply reach_child; [by eapply child_ds|done].
    + intros d x -> Hx. apply E'. eapply reach_child; [by eapply child_ds|done].
  - intros l l' d d' Hl Hl' _ IH h1 h1' E E'. eapply copy_ts; [rewrite E; [done|apply rtc_refl]|rewrite E'; [done|apply rtc_refl]|]. apply IH.
    + intros x Hx. apply E. eapply reach_child; [by eapply child_ts|done].
    + intros x Hx. apply E'. eapply reach_child; [by eapply child_ts|done].
  - intros l l' ds ds' Hl Hl' Hlen _ IH h1 h1' E E'. eapply copy_coll; [rewrite E; [done|apply rtc_refl]|rewrite E'; [done|apply rtc_refl]|done|].
    intros i d d' Hd Hd'. apply (IH i d d' Hd Hd').
    + intros x Hx. apply E. eapply reach_child; [|done]. eapply child_coll; [by left|]. apply elem_of_list_fmap_1. by eapply elem_of_list_lookup_2.
    + intros x Hx. apply E'. eapply reach_child; [|done]. eapply child_coll; [by left|]. apply elem_of_list_fmap_1. by eapply elem_of_list_lookup_2.
  - intros l l' ds ds' Hl Hl' Hlen _ IH h1 h1' E E'. eapply copy_collts; [rewrite E; [done|apply rtc_refl]|rewrite E'; [done|apply rtc_refl]|done|].
    intros i d d' Hd Hd'. apply (IH i d d' Hd Hd').
    + intros x Hx. apply E. eapply reach_child; [|done]. eapply child_coll; [by right|]. apply elem_of_list_fmap_1. by eapply elem_of_list_lookup_2.
    + intros x Hx. apply E'. eapply reach_child; [|done]. eapply child_coll; [by right|]. apply elem_of_list_fmap_1. by eapply elem_of_list_lookup_2.
  - intros v Hv h1 h1' _ _. by constructor.
  - intros d d' _ IH h1 h1' E E'. constructor. apply IH; [intros x; by apply E|intros x; by apply E'].
Qed.
Lemma copy_sym h h' : (forall l l', copy h h' l l' -> copy h' h l' l) /\ (forall v v', copy_value h h' v v' -> copy_value h' h v' v).
Proof.
  apply copy_mutind.
  - intros l l' m m' Hl Hl' Hn _ IH. eapply copy_ds; [done..| |]; [intros k; by rewrite Hn|]. intros k v v' Hv Hv'. by eapply IH.
  - intros. by eapply copy_ts.
  - intros l l' ds ds' Hl Hl' Hlen _ IH. eapply copy_coll; [done..|]. intros i d d' Hd Hd'. by eapply IH.
  - intros l l' ds ds' Hl Hl' Hlen _ IH. eapply copy_collts; [done..|]. intros i d d' Hd Hd'. by eapply IH.
  - intros. by constructor.
  - intros. by constructor.
Qed.

(** ** What Clone builds *)
(** [d'] in [hc] is a copy of [d] in [h], made of objects that are not in [h1]. *)
Definition made (h1 h hc : heap) (d d' : loc) : Prop :=
  copy h hc d d' /\ forall x, reach hc d' x -> h1 !! x = None /\ is_Some (hc !! x).
Lemma made_weaken h1 h2 h hc d d' : h2 ⊆ h1 -> made h1 h hc d d' -> made h2 h hc d d'.
Proof.
  intros Hs [Hc Hf]. split; [done|]. intros x Hx. destruct (Hf x Hx) as [Hn Hi]. split; [|done].
  destruct (h2 !! x) as [o|] eqn:E; [|done]. rewrite (lookup_weaken _ _ _ _ E Hs) in Hn. done.
Qed.
Lemma made_grow h1 h hc hc' d d' : made h1 h hc d d' -> (forall x, reach hc d' x -> hc' !! x = hc !! x) -> made h1 h hc' d d'.
Proof.
  intros [Hc Hf] E. split; [by apply (proj1 (copy_frame h hc) _ _ Hc)|]. intros x Hx.
  apply (reach_frame hc hc' d' E) in Hx. destruct (Hf x Hx) as [? ?]. by rewrite (E x Hx).
Qed.
Lemma made_grow' h1 h hc hc' d d' : made h1 h hc d d' -> hc ⊆ hc' -> made h1 h hc' d d'.
Proof. intros Hm Hs. apply (made_grow _ _ hc); [done|]. apply closed_grow; [done|]. intros x Hx. by apply (proj2 Hm). Qed.
(** The source may be read in a smaller heap. *)
Lemma made_source h1 h h0 hc d d' : h0 ⊆ h -> complete h0 d -> made h1 h hc d d' -> made h1 h0 hc d d'.
Proof.
  intros Hs Hcp [Hc Hf]. split; [|done]. pose proof (closed_grow _ _ _ Hs (complete_closed _ _ Hcp)) as E.
  apply (proj1 (copy_frame h hc) _ _ Hc); [|done]. intros x Hx. symmetry. apply E. by apply (reach_frame h0 h d E).
Qed.
Lemma made_store h1 h hc c o d d' : made h1 h hc d d' -> is_Some (h1 !! c) -> made h1 h (<[c := o]> hc) d d'.
Proof.
  intros Hm [x Hc]. apply (made_grow _ _ hc); [done|]. intros y Hy. destruct (proj2 Hm y Hy) as [Hn _].
  rewrite lookup_insert_ne; [done|]. intros ->. congruence.
Qed.

Section Clone.
  Context (ord : heap -> gmap bytes value -> list (bytes * value)) (Hord : order_ok ord).

  Lemma fresh_none (h : heap) : h !! (fresh (dom h) : loc) = None.
  Proof. apply not_elem_of_dom. apply is_fresh. Qed.
  Lemma grow_alloc (h h2 : heap) o o2 : let c : loc := fresh (dom h) in <[c := o]> h ⊆ h2 -> h ⊆ <[c := o2]> h2.
  Proof.
    intros c Hs. apply map_subseteq_spec. intros x ox Hx. assert (x <> c) by (intros ->; subst c; by rewrite fresh_none in Hx).
    rewrite lookup_insert_ne by done. eapply lookup_weaken; [|done]. by rewrite lookup_insert_ne.
  Qed.
  Lemma sub_alloc (h : heap) o : h ⊆ <[fresh (dom h) := o]> h.
  Proof. apply insert_subseteq. apply fresh_none. Qed.

  Lemma clone_entries_grows f es h m h' m' : (forall h l h' l', f h l = Ok (h', l') -> h ⊆ h') ->
    clone_entries f es h m = Ok (h', m') -> h ⊆ h'.
  Proof.
    intros Hf. revert h m. induction es as [|[k v] es IH]; intros h m; simpl; [by intros [= <- _]|].
    destruct v; try (apply IH). destruct (f h l) as [[h1 l1]| |] eqn:E; try done. cbn [obind]. intros H.
    etrans; [by eapply Hf|by eapply IH].
  Qed.
  Lemma clone_elements_grows f xs h ys h' ys' : (forall h l h' l', f h l = Ok (h', l') -> h ⊆ h') ->
    clone_elements f xs h ys = Ok (h', ys') -> h ⊆ h'.
  Proof.
    intros Hf. revert h ys. induction xs as [|[r|] xs IH]; intros h ys; simpl; [by intros [= <- _]| |done].
    destruct (f h r) as [[h1 l1]| |] eqn:E; try done. cbn [obind]. intros H. etrans; [by eapply Hf|by eapply IH].
  Qed.
  Lemma clone_grows n h l h' l' : clone ord n h l = Ok (h', l') -> h ⊆ h'.
  Proof.
    revert h l h' l'. induction n as [|n IH]; intros h l h' l'; [done|]. cbn [clone]. unfold alloc.
    destruct (h !! l) as [[m|[d|]|xs|xs]|]; try done.
    - destruct (clone_entries _ _ _ _) as [[h2 m2]| |] eqn:E; try done. cbn [obind]. intros [= <- _].
      eapply grow_alloc. by eapply clone_entries_grows.
    - destruct (clone ord n _ d) as [[h2 d2]| |] eqn:E; try done. cbn [obind]. intros [= <- _].
      eapply grow_alloc. by eapply IH.
    - destruct (clone_elements _ _ _ _) as [[h2 ys]| |] eqn:E; try done. cbn [obind]. intros [= <- _].
      eapply grow_alloc. by eapply clone_elements_grows.
    - destruct (clone_elements _ _ _ _) as [[h2 ys]| |] eqn:E; try done. cbn [obind]. intros [= <- _].
      eapply grow_alloc. by eapply clone_elements_grows.
  Qed.

  (** Values that have been cloned. *)
  Definition made_value (h1 h hc : heap) (v v' : value) : Prop :=
    match v with VRef d => exists d', v' = VRef d' /\ made h1 h hc d d' | _ => v' = v end.
  Lemma made_value_grow h1 h hc hc' v v' : made_value h1 h hc v v' -> hc ⊆ hc' -> made_value h1 h hc' v v'.
  Proof. destruct v; simpl; try done. intros (d' & -> & Hm) Hs. exists d'. split; [done|]. by eapply made_grow'. Qed.
  Lemma made_value_copy h1 h hc v v' : made_value h1 h hc v v' -> copy_value h hc v v'.
  Proof. destruct v; simpl; try (intros ->; by constructor). intros (d' & -> & [Hc _]). by constructor. Qed.

  Definition clones_well (f : heap -> loc -> outcome (heap * loc)) : Prop :=
    forall h l h' l', f h l = Ok (h', l') -> complete h l -> h ⊆ h' /\ made h h h' l l'.
  Lemma clone_entries_made f h h1 es : clones_well f -> h ⊆ h1 ->
    (forall k d, (k, VRef d) ∈ es -> complete h d) -> NoDup es.*1 ->
    forall hc m hc' m', h1 ⊆ hc -> clone_entries f es hc m = Ok (hc', m') ->
    hc ⊆ hc' /\ (forall k, k ∉ es.*1 -> m' !! k = m !! k) /\
    (forall k v, (k, v) ∈ es -> exists v', m' !! k = Some v' /\ made_value h1 h hc' v v').
  Proof.
    intros Hf Hs. induction es as [|[k v] es IH]; intros Hcp Hnd hc m hc' m' Hs1; simpl.
    { intros [= <- <-]. split_and!; [done|done|]. intros k v H. by apply elem_of_nil in H. }
    apply NoDup_cons in Hnd as [Hk Hnd].
    assert (Hcp' : forall k d, (k, VRef d) ∈ es -> complete h d) by (intros; eapply Hcp; by right).
    assert (Hfin : forall hd v2, hc ⊆ hd -> made_value h1 h hd v v2 -> clone_entries f es hd (<[k:=v2]> m) = Ok (hc', m') ->
      hc ⊆ hc' /\ (forall k', k' ∉ k :: es.*1 -> m' !! k' = m !! k') /\
      (forall k' v', (k', v') ∈ (k, v) :: es -> exists v2', m' !! k' = Some v2' /\ made_value h1 h hc' v' v2')).
    { intros hd v2 Hsd Hv2 He. destruct (IH Hcp' Hnd hd _ hc' m' ltac:(by etrans) He) as (H1 & H2 & H3). split_and!.
      - by etrans.
      - intros k' [? ?]%not_elem_of_cons. rewrite H2 by done. by rewrite lookup_insert_ne.
      - intros k' v' [[= -> ->]|Hin]%elem_of_cons; [|by apply H3]. exists v2. split; [|by eapply made_value_grow].
        rewrite H2 by done. by rewrite lookup_insert. }
    destruct v as [| | | | | | | | | | | |r|]; try (intros He; eapply Hfin; [reflexivity|reflexivity|exact He]).
    destruct (f hc r) as [[hd r']| |] eqn:E; try done. cbn [obind].
    assert (Hr : complete h r) by (eapply Hcp; by left).
    destruct (Hf _ _ _ _ E) as [Hgd Hmd]; [eapply complete_grow; [|exact Hr]; by etrans|].
    apply Hfin; [done|]. exists r'. split; [done|]. eapply made_source; [by etrans|done|]. by eapply made_weaken.
  Qed.
  Lemma clone_elements_made f h h1 xs : clones_well f -> h ⊆ h1 ->
    (forall d, Some d ∈ xs -> complete h d) ->
    forall hc ys hc' ys', h1 ⊆ hc -> clone_elements f xs hc ys = Ok (hc', ys') ->
    hc ⊆ hc' /\ exists ds ds', xs = map Some ds /\ ys' = ys ++ map Some ds' /\ Forall2 (made h1 h hc') ds ds'.
  Proof.
    intros Hf Hs. induction xs as [|[r|] xs IH]; intros Hcp hc ys hc' ys' Hs1; simpl; [| |done].
    { intros [= <- <-]. split; [done|]. exists [], []. split_and!; [done|by rewrite app_nil_r|constructor]. }
    destruct (f hc r) as [[hd r']| |] eqn:E; try done. cbn [obind]. intros He.
    assert (Hr : complete h r) by (apply Hcp; by left).
    destruct (Hf _ _ _ _ E) as [Hgd Hmd]; [eapply complete_grow; [|exact Hr]; by etrans|].
    destruct (IH ltac:(intros; apply Hcp; by right) hd _ hc' ys' ltac:(by etrans) He) as (H1 & ds & ds' & -> & -> & H2).
    split; [by etrans|]. exists (r :: ds), (r' :: ds'). split_and!; [done|by rewrite <-app_assoc|]. constructor; [|done].
    eapply made_grow'; [|exact H1]. eapply made_source; [by etrans|done|]. by eapply made_weaken.
  Qed.

  Lemma ord_nodup h m : NoDup (ord h m).*1.
  Proof. rewrite (Hord h m). apply NoDup_fst_map_to_list. Qed.
  Lemma ord_in h m k v : (k, v) ∈ ord h m <-> m !! k = Some v.
  Proof. rewrite (Hord h m). apply elem_of_map_to_list. Qed.
  Lemma ord_keys h m k : k ∉ (ord h m).*1 <-> m !! k = None.
  Proof.
    rewrite (Hord h m). destruct (m !! k) as [v|] eqn:E; split; try done.
    - intros H. destruct H. apply elem_of_list_fmap. exists (k, v). split; [done|]. by apply elem_of_map_to_list.
    - intros _ ([k' v'] & Hk & H)%elem_of_list_fmap. simpl in Hk. subst k'. apply elem_of_map_to_list in H. congruence.
  Qed.

  Lemma map_Some_inj (a b : list loc) : map Some a = map Some b -> a = b.
  Proof. revert b. induction a as [|x a IH]; intros [|y b]; simpl; try done. intros [= -> H]. f_equal. by apply IH. Qed.
  Lemma map_Some_elem (ds : list loc) d : Some d ∈ map Some ds <-> d ∈ ds.
  Proof. rewrite elem_of_list_fmap. split; [by intros (? & [= ->] & ?)|]. intros. by exists d. Qed.

  (** The new object together with the copies it refers to. *)
  Lemma made_self (h hc : heap) c o l : h !! c = None -> hc !! c = Some o -> copy h hc l c ->
    (forall d', child hc c d' -> exists h1 d, h ⊆ h1 /\ made h1 h hc d d') -> made h h hc l c.
  Proof.
    intros Hn Hc Hcp Hch. split; [done|]. intros x Hx. inversion Hx as [|? y ? H1 H2]; subst.
    - split; [done|]. by exists o.
    - destruct (Hch _ H1) as (h1 & d & Hs & Hm). apply (made_weaken _ h) in Hm; [|done]. by apply (proj2 Hm).
  Qed.

  Lemma clone_made n : clones_well (clone ord n).
  Proof.
    induction n as [|n IH]; intros h l h' l' Hcl Hcp; [done|]. split; [by eapply clone_grows|].
    cbn [clone] in Hcl. unfold alloc in Hcl. set (c := fresh (dom h)) in *. pose proof (fresh_none h) as Hc. fold c in Hc.
    assert (Hchild : forall d, child h l d -> complete h d) by (intros; by eapply complete_child).
    destruct (h !! l) as [[m|[d|]|xs|xs]|] eqn:El; try done.
    - destruct (clone_entries _ _ _ _) as [[h2 m']| |] eqn:E; try done. cbn [obind] in Hcl. injection Hcl as <- <-.
      destruct (clone_entries_made _ h (<[c := ODs ∅]> h) (ord h m) IH) with (hc := <[c := ODs ∅]> h) (m := (∅ : gmap bytes value)) (hc' := h2) (m' := m')
        as (H1 & H2 & H3); [apply sub_alloc| |apply ord_nodup|done|done|].
      { intros k d Hin%ord_in. apply Hchild. by eapply child_ds. }
      assert (Hst : forall d d', made (<[c := ODs ∅]> h) h h2 d d' -> made (<[c := ODs ∅]> h) h (<[c := ODs m']> h2) d d').
      { intros d d' Hm. apply made_store; [done|]. rewrite lookup_insert. by eexists. }
      assert (Hv : forall k v v', m !! k = Some v -> m' !! k = Some v' -> made_value (<[c := ODs ∅]> h) h (<[c := ODs m']> h2) v v').
      { intros k v v' Hk Hk'. apply (ord_in h) in Hk. destruct (H3 _ _ Hk) as (v2 & Hv2 & Hm). rewrite Hk' in Hv2. injection Hv2 as <-.
        destruct v; try done. destruct Hm as (d' & -> & Hm). exists d'. split; [done|]. by apply Hst. }
      assert (Hnone : forall k, m' !! k = None <-> m !! k = None).
      { intros k. split; intros Hk.
        - destruct (m !! k) as [v|] eqn:Ek; [|done]. apply (ord_in h) in Ek. destruct (H3 _ _ Ek) as (v' & ? & _). congruence.
        - rewrite H2; [apply lookup_empty|]. by apply ord_keys. }
      eapply made_self; [done|by rewrite lookup_insert| |].
      + eapply copy_ds; [done|by rewrite lookup_insert|done|]. intros k v v' Hk Hk'. eapply made_value_copy. by eapply Hv.
      + intros d' Hd'. inversion Hd' as [? m0 k ? E1 E2|? ? E1|? xs ? [E1|E1] _]; subst; rewrite lookup_insert in E1; [|done..].
        injection E1 as <-. destruct (m !! k) as [v|] eqn:Ek; [|apply Hnone in Ek; congruence].
        pose proof (Hv _ _ _ Ek E2) as Hm. destruct v; try done. destruct Hm as (d2 & [= <-] & Hm).
        exists (<[c := ODs ∅]> h), l0. split; [apply sub_alloc|done].
    - destruct (clone ord n _ d) as [[h2 d']| |] eqn:E; try done. cbn [obind] in Hcl. injection Hcl as <- <-.
      assert (Hd : complete h d) by (apply Hchild; by eapply child_ts).
      destruct (IH _ _ _ _ E) as [H1 H2]; [by eapply complete_grow; [apply sub_alloc|]|].
      assert (Hm : made (<[c := OTs None]> h) h (<[c := OTs (Some d')]> h2) d d').
      { apply made_store; [|rewrite lookup_insert; by eexists]. eapply made_source; [apply sub_alloc|done|done]. }
      eapply made_self; [done|by rewrite lookup_insert| |].
      + eapply copy_ts; [done|by rewrite lookup_insert|apply Hm].
      + intros d2 Hd2. inversion Hd2 as [? m0 k ? E1 E2|? ? E1|? xs ? [E1|E1] _]; subst; rewrite lookup_insert in E1; try done.
        injection E1 as <-. exists (<[c := OTs None]> h), d. split; [apply sub_alloc|done].
    - destruct (clone_elements _ _ _ _) as [[h2 ys]| |] eqn:E; try done. cbn [obind] in Hcl. injection Hcl as <- <-.
      destruct (clone_elements_made _ h (<[c := OColl []]> h) xs IH) with (hc := <[c := OColl []]> h) (ys := ([] : list (option loc))) (hc' := h2) (ys' := ys)
        as (H1 & ds & ds' & Hxs & Hys & H2); [apply sub_alloc| |done|done|].
      { intros d Hin. apply Hchild. eapply child_coll; [by left|done]. }
      simpl in Hys. subst xs ys.
      assert (Hst : Forall2 (made (<[c := OColl []]> h) h (<[c := OColl (map Some ds')]> h2)) ds ds').
      { eapply Forall2_impl; [exact H2|]. intros d d' Hm. apply made_store; [done|]. rewrite lookup_insert. by eexists. }
      eapply made_self; [done|by rewrite lookup_insert| |].
      + eapply copy_coll; [done|by rewrite lookup_insert|by eapply Forall2_length|].
        intros i d d' Hd Hd'. by eapply (Forall2_lookup_lr _ _ _ _ _ _ Hst Hd Hd').
      + intros d' Hd'. inversion Hd' as [? m0 k ? E1 E2|? ? E1|? xs ? [E1|E1] Hin]; subst; rewrite lookup_insert in E1; try done.
        injection E1 as <-. apply map_Some_elem, elem_of_list_lookup in Hin as [i Hi].
        destruct (Forall2_lookup_r _ _ _ _ _ Hst Hi) as (d & _ & Hm). exists (<[c := OColl []]> h), d. split; [apply sub_alloc|done].
    - destruct (clone_elements _ _ _ _) as [[h2 ys]| |] eqn:E; try done. cbn [obind] in Hcl. injection Hcl as <- <-.
      destruct (clone_elements_made _ h (<[c := OCollTS []]> h) xs IH) with (hc := <[c := OCollTS []]> h) (ys := ([] : list (option loc))) (hc' := h2) (ys' := ys)
        as (H1 & ds & ds' & Hxs & Hys & H2); [apply sub_alloc| |done|done|].
      { intros d Hin. apply Hchild. eapply child_coll; [by right|done]. }
      simpl in Hys. subst xs ys.
      assert (Hst : Forall2 (made (<[c := OCollTS []]> h) h (<[c := OCollTS (map Some ds')]> h2)) ds ds').
      { eapply Forall2_impl; [exact H2|]. intros d d' Hm. apply made_store; [done|]. rewrite lookup_insert. by eexists. }
      eapply made_self; [done|by rewrite lookup_insert| |].
      + eapply copy_collts; [done|by rewrite lookup_insert|by eapply Forall2_length|].
        intros i d d' Hd Hd'. by eapply (Forall2_lookup_lr _ _ _ _ _ _ Hst Hd Hd').
      + intros d' Hd'. inversion Hd' as [? m0 k ? E1 E2|? ? E1|? xs ? [E1|E1] Hin]; subst; rewrite lookup_insert in E1; try done.
        injection E1 as <-. apply map_Some_elem, elem_of_list_lookup in Hin as [i Hi].
        destruct (Forall2_lookup_r _ _ _ _ _ Hst Hi) as (d & _ & Hm). exists (<[c := OCollTS []]> h), d. split; [apply sub_alloc|done].
  Qed.

  (** ** Termination *)
  Lemma clone_entries_ok f h es : (forall hc l h' l', f hc l = Ok (h', l') -> hc ⊆ h') ->
    (forall k d, (k, VRef d) ∈ es -> forall hc, h ⊆ hc -> exists r, f hc d = Ok r) ->
    forall hc m, h ⊆ hc -> exists r, clone_entries f es hc m = Ok r.
  Proof.
    intros Hg. induction es as [|[k v] es IH]; intros Hf hc m Hs; simpl; [by eexists|].
    assert (Hf' : forall k d, (k, VRef d) ∈ es -> forall hc, h ⊆ hc -> exists r, f hc d = Ok r) by (intros; eapply Hf; [by right|done]).
    destruct v as [| | | | | | | | | | | |r|]; try (by apply IH).
    destruct (Hf k r ltac:(by left) hc Hs) as [[h' r'] E]. rewrite E. cbn [obind]. apply IH; [done|]. etrans; [done|by eapply Hg].
  Qed.
  Lemma clone_elements_ok f h xs : (forall hc l h' l', f hc l = Ok (h', l') -> hc ⊆ h') -> None ∉ xs ->
    (forall d, Some d ∈ xs -> forall hc, h ⊆ hc -> exists r, f hc d = Ok r) ->
    forall hc ys, h ⊆ hc -> exists r, clone_elements f xs hc ys = Ok r.
  Proof.
    intros Hg. induction xs as [|[r|] xs IH]; intros Hn Hf hc ys Hs; simpl; [by eexists| |destruct Hn; by left].
    destruct (Hf r ltac:(by left) hc Hs) as [[h' r'] E]. rewrite E. cbn [obind].
    apply not_elem_of_cons in Hn as [_ Hn]. apply IH; [done|intros; eapply Hf; [by right|done]|]. etrans; [done|by eapply Hg].
  Qed.
  Lemma finite_bound {A} (P : A -> nat -> Prop) (l : list A) : (forall a, a ∈ l -> exists N, forall n, N <= n -> P a n) ->
    exists N, forall n, N <= n -> forall a, a ∈ l -> P a n.
  Proof.
    induction l as [|a l IH]; intros H; [exists 0; intros n _ a Ha; by apply elem_of_nil in Ha|].
    destruct (H a) as [N1 H1]; [by left|]. destruct IH as [N2 H2]; [intros; apply H; by right|].
    exists (N1 + N2). intros n Hn b [->|Hb]%elem_of_cons; [apply H1; lia|apply H2; [lia|done]].
  Qed.
  Lemma clone_total h l : acyclic h l -> complete h l ->
    exists N, forall n, N <= n -> forall hc, h ⊆ hc -> exists r, clone ord n hc l = Ok r.
  Proof.
    induction 1 as [l _ IH]. intros Hcp.
    assert (Hall : forall d, child h l d -> exists N, forall n, N <= n -> forall hc, h ⊆ hc -> exists r, clone ord n hc d = Ok r).
    { intros d Hd. apply IH; [done|]. by eapply complete_child. }
    destruct (Hcp l ltac:(apply rtc_refl)) as ([o Ho] & Hnt & Hnn).
    assert (Hstep : exists N, forall n, N <= n -> forall d, child h l d -> forall hc, h ⊆ hc -> exists r, clone ord n hc d = Ok r).
    { destruct o as [m|[d|]|xs|xs].
      - destruct (finite_bound (fun e n => forall d, e.2 = VRef d -> forall hc, h ⊆ hc -> exists r, clone ord n hc d = Ok r) (map_to_list m)) as [N HN].
        { intros [k v] Hkv. apply elem_of_map_to_list in Hkv. simpl.
          destruct v as [| | | | | | | | | | | |r|]; try (by exists 0).
          destruct (Hall r) as [N HN]; [by eapply child_ds|]. exists N. intros n Hn d [= <-]. by apply HN. }
        exists N. intros n Hn d Hd. inversion Hd as [? m0 k ? E1 E2|? ? E1|? xs ? [E1|E1] _]; subst; simplify_eq.
        apply (HN n Hn (k, VRef d)); [by apply elem_of_map_to_list|done].
      - destruct (Hall d) as [N HN]; [by eapply child_ts|]. exists N. intros n Hn d' Hd.
        inversion Hd as [? m0 k ? E1 E2|? ? E1|? xs ? [E1|E1] _]; subst; simplify_eq. by apply HN.
      - done.
      - destruct (finite_bound (fun e n => forall d, e = Some d -> forall hc, h ⊆ hc -> exists r, clone ord n hc d = Ok r) xs) as [N HN].
        { intros [d|] Hin; [|by exists 0]. destruct (Hall d) as [N HN]; [eapply child_coll; [by left|done]|].
          exists N. intros n Hn d' [= <-]. by apply HN. }
        exists N. intros n Hn d Hd. inversion Hd as [? m0 k ? E1 E2|? ? E1|? ys ? [E1|E1] Hin]; subst; simplify_eq. by apply (HN n Hn (Some d)).
      - destruct (finite_bound (fun e n => forall d, e = Some d -> forall hc, h ⊆ hc -> exists r, clone ord n hc d = Ok r) xs) as [N HN].
        { intros [d|] Hin; [|by exists 0]. destruct (Hall d) as [N HN]; [eapply child_coll; [by right|done]|].
          exists N. intros n Hn d' [= <-]. by apply HN. }
        exists N. intros n Hn d Hd. inversion Hd as [? m0 k ? E1 E2|? ? E1|? ys ? [E1|E1] Hin]; subst; simplify_eq. by apply (HN n Hn (Some d)). }
    destruct Hstep as [N HN]. exists (S N). intros [|n] Hn hc Hs; [lia|]. cbn [clone]. unfold alloc.
    rewrite (lookup_weaken _ _ _ _ Ho Hs). pose proof (fun hc l h' l' => clone_grows n hc l h' l') as Hg.
    destruct o as [m|[d|]|xs|xs].
    - destruct (clone_entries_ok (clone ord n) h (ord hc m) Hg) with (hc := <[fresh (dom hc) := ODs ∅]> hc) (m := (∅ : gmap bytes value)) as [[h2 m2] E].
      + intros k d Hin%ord_in. apply HN; [lia|]. by eapply child_ds.
      + etrans; [done|apply sub_alloc].
      + rewrite E. by eexists.
    - destruct (HN n ltac:(lia) d ltac:(by eapply child_ts) (<[fresh (dom hc) := OTs None]> hc)) as [[h2 d2] E];
        [etrans; [done|apply sub_alloc]|]. rewrite E. by eexists.
    - done.
    - destruct (clone_elements_ok (clone ord n) h xs Hg) with (hc := <[fresh (dom hc) := OColl []]> hc) (ys := ([] : list (option loc))) as [[h2 m2] E].
      + apply Hnn. by left.
      + intros d Hin. apply HN; [lia|]. eapply child_coll; [by left|done].
      + etrans; [done|apply sub_alloc].
      + rewrite E. by eexists.
    - destruct (clone_elements_ok (clone ord n) h xs Hg) with (hc := <[fresh (dom hc) := OCollTS []]> hc) (ys := ([] : list (option loc))) as [[h2 m2] E].
      + apply Hnn. by right.
      + intros d Hin. apply HN; [lia|]. eapply child_coll; [by right|done].
      + etrans; [done|apply sub_alloc].
      + rewrite E. by eexists.
  Qed.

  (** ** Non termination *)
  Lemma clone_entries_inv f es hc m r : (forall hc l h' l', f hc l = Ok (h', l') -> hc ⊆ h') ->
    clone_entries f es hc m = Ok r -> forall k d, (k, VRef d) ∈ es -> exists hd r', hc ⊆ hd /\ f hd d = Ok r'.
  Proof.
    intros Hg. revert hc m. induction es as [|[k v] es IH]; intros hc m; simpl; [intros _ k d H; by apply elem_of_nil in H|].
    assert (Hskip : forall m2, (forall d, v <> VRef d) -> clone_entries f es hc m2 = Ok r -> forall k' d, (k', VRef d) ∈ (k, v) :: es -> exists hd r', hc ⊆ hd /\ f hd d = Ok r').
    { intros m2 Hv He k' d [[= -> <-]|Hin]%elem_of_cons; [by destruct (Hv d)|]. by eapply IH. }
    destruct v as [| | | | | | | | | | | |l|]; try (by eapply Hskip).
    destruct (f hc l) as [[h' l']| |] eqn:E; try done. cbn [obind]. intros He k' d [[= -> ->]|Hin]%elem_of_cons.
    - by exists hc, (h', l').
    - destruct (IH _ _ He k' d Hin) as (hd & r' & Hs & Hd). exists hd, r'. split; [|done]. etrans; [by eapply Hg|done].
  Qed.
  Lemma clone_elements_inv f xs hc ys r : (forall hc l h' l', f hc l = Ok (h', l') -> hc ⊆ h') ->
    clone_elements f xs hc ys = Ok r -> forall d, Some d ∈ xs -> exists hd r', hc ⊆ hd /\ f hd d = Ok r'.
  Proof.
    intros Hg. revert hc ys. induction xs as [|[x|] xs IH]; intros hc ys; simpl; [intros _ d H; by apply elem_of_nil in H| |done].
    destruct (f hc x) as [[h' l']| |] eqn:E; try done. cbn [obind]. intros He d [[= ->]|Hin]%elem_of_cons.
    - by exists hc, (h', l').
    - destruct (IH _ _ He d Hin) as (hd & r' & Hs & Hd). exists hd, r'. split; [|done]. etrans; [by eapply Hg|done].
  Qed.
  Lemma clone_acyclic n h l hc r : complete h l -> h ⊆ hc -> clone ord n hc l = Ok r -> acyclic h l.
  Proof.
    revert l hc r. induction n as [|n IH]; intros l hc r Hcp Hs; [done|]. cbn [clone]. unfold alloc.
    destruct (Hcp l ltac:(apply rtc_refl)) as ([o Ho] & Hnt & Hnn). rewrite (lookup_weaken _ _ _ _ Ho Hs).
    pose proof (fun hc l h' l' => clone_grows n hc l h' l') as Hg.
    intros Hcl. constructor. intros d Hd.
    assert (Hcd : complete h d) by (by eapply complete_child).
    assert (Hex : exists hd r', hc ⊆ hd /\ clone ord n hd d = Ok r').
    { destruct o as [m|[w|]|xs|xs]; try done.
      - destruct (clone_entries _ _ _ _) as [[h2 m2]| |] eqn:E; try done.
        inversion Hd as [? m0 k ? E1 E2|? ? E1|? ys ? [E1|E1] _]; subst; simplify_eq. apply (ord_in hc) in E2.
        destruct (clone_entries_inv _ _ _ _ _ Hg E _ _ E2) as (hd & r' & ? & ?). exists hd, r'. split; [|done].
        etrans; [apply sub_alloc|done].
      - destruct (clone ord n _ w) as [[h2 d2]| |] eqn:E; try done.
        inversion Hd as [? m0 k ? E1 E2|? ? E1|? ys ? [E1|E1] _]; subst; simplify_eq. eexists _, _. split; [|done]. apply sub_alloc.
      - destruct (clone_elements _ _ _ _) as [[h2 m2]| |] eqn:E; try done.
        inversion Hd as [? m0 k ? E1 E2|? ? E1|? ys ? [E1|E1] Hin]; subst; simplify_eq.
        destruct (clone_elements_inv _ _ _ _ _ Hg E _ Hin) as (hd & r' & ? & ?). exists hd, r'. split; [|done].
        etrans; [apply sub_alloc|done].
      - destruct (clone_elements _ _ _ _) as [[h2 m2]| |] eqn:E; try done.
        inversion Hd as [? m0 k ? E1 E2|? ? E1|? ys ? [E1|E1] Hin]; subst; simplify_eq.
        destruct (clone_elements_inv _ _ _ _ _ Hg E _ Hin) as (hd & r' & ? & ?). exists hd, r'. split; [|done].
        etrans; [apply sub_alloc|done]. }
    destruct Hex as (hd & r' & Hsd & Hr'). eapply IH; [done| |done]. by etrans.
  Qed.
  Lemma clone_entries_no_panic f h es : (forall hc l h' l', f hc l = Ok (h', l') -> hc ⊆ h') ->
    (forall k d, (k, VRef d) ∈ es -> forall hc, h ⊆ hc -> f hc d <> Panic) ->
    forall hc m, h ⊆ hc -> clone_entries f es hc m <> Panic.
  Proof.
    intros Hg. induction es as [|[k v] es IH]; intros Hf hc m Hs; simpl; [done|].
    assert (Hf' : forall k d, (k, VRef d) ∈ es -> forall hc, h ⊆ hc -> f hc d <> Panic) by (intros; eapply Hf; [by right|done]).
    destruct v as [| | | | | | | | | | | |r|]; try (by apply IH).
    pose proof (Hf k r ltac:(by left) hc Hs) as Hr. destruct (f hc r) as [[h' r']| |] eqn:E; [|done|done]. cbn [obind].
    apply IH; [done|]. etrans; [done|by eapply Hg].
  Qed.
  Lemma clone_elements_no_panic f h xs : (forall hc l h' l', f hc l = Ok (h', l') -> hc ⊆ h') -> None ∉ xs ->
    (forall d, Some d ∈ xs -> forall hc, h ⊆ hc -> f hc d <> Panic) ->
    forall hc ys, h ⊆ hc -> clone_elements f xs hc ys <> Panic.
  Proof.
    intros Hg. induction xs as [|[r|] xs IH]; intros Hn Hf hc ys Hs; simpl; [done| |destruct Hn; by left].
    pose proof (Hf r ltac:(by left) hc Hs) as Hr. destruct (f hc r) as [[h' r']| |] eqn:E; [|done|done]. cbn [obind].
    apply not_elem_of_cons in Hn as [_ Hn]. apply IH; [done|intros; eapply Hf; [by right|done]|]. etrans; [done|by eapply Hg].
  Qed.
  Lemma clone_no_panic n h l hc : complete h l -> h ⊆ hc -> clone ord n hc l <> Panic.
  Proof.
    revert l hc. induction n as [|n IH]; intros l hc Hcp Hs; [done|]. cbn [clone]. unfold alloc.
    destruct (Hcp l ltac:(apply rtc_refl)) as ([o Ho] & Hnt & Hnn). rewrite (lookup_weaken _ _ _ _ Ho Hs).
    pose proof (fun hc l h' l' => clone_grows n hc l h' l') as Hg.
    assert (Hd : forall d, child h l d -> forall hc, h ⊆ hc -> clone ord n hc d <> Panic).
    { intros d Hd hd Hsd. apply IH; [by eapply complete_child|done]. }
    destruct o as [m|[d|]|xs|xs].
    - assert (clone_entries (clone ord n) (ord hc m) (<[fresh (dom hc):=ODs ∅]> hc) ∅ <> Panic) as He.
      { apply (clone_entries_no_panic _ h); [done| |etrans; [done|apply sub_alloc]]. intros k d Hin%ord_in. apply Hd. by eapply child_ds. }
      by destruct (clone_entries _ _ _ _) as [[? ?]| |].
    - assert (clone ord n (<[fresh (dom hc):=OTs None]> hc) d <> Panic) as He.
      { apply Hd; [by eapply child_ts|]. etrans; [done|apply sub_alloc]. }
      by destruct (clone ord n _ d) as [[? ?]| |].
    - done.
    - assert (clone_elements (clone ord n) xs (<[fresh (dom hc):=OColl []]> hc) [] <> Panic) as He.
      { apply (clone_elements_no_panic _ h); [done|apply Hnn; by left| |etrans; [done|apply sub_alloc]].
        intros d Hin. apply Hd. eapply child_coll; [by left|done]. }
      by destruct (clone_elements _ _ _ _) as [[? ?]| |].
    - assert (clone_elements (clone ord n) xs (<[fresh (dom hc):=OCollTS []]> hc) [] <> Panic) as He.
      { apply (clone_elements_no_panic _ h); [done|apply Hnn; by right| |etrans; [done|apply sub_alloc]].
        intros d Hin. apply Hd. eapply child_coll; [by right|done]. }
      by destruct (clone_elements _ _ _ _) as [[? ?]| |].
  Qed.
End Clone.

Lemma cycle_not_acyclic h l x : reach h l x -> tc (child h) x x -> ~ acyclic h l.
Proof.
  intros Hr Hc Ha. assert (Hx : acyclic h x).
  { clear Hc. induction Hr as [|x y z H1 _ IH]; [done|]. apply IH. by apply Ha. }
  clear Ha Hr. assert (Hwf : forall y, acyclic h y -> forall z, tc (child h) y z -> acyclic h z).
  { intros y Hy z Hz. revert Hy. induction Hz as [a b H1|a b d H1 _ IH]; intros [Hy]; [by apply Hy|]. apply IH. by apply Hy. }
  assert (Hirr : forall y, acyclic h y -> ~ tc (child h) y y).
  { induction 1 as [y _ IH]. intros Hy. inversion Hy as [? ? H1|? z ? H1 H2]; subst.
    - by apply (IH y H1), tc_once.
    - apply (IH z H1). eapply tc_transitive; [exact H2|]. by apply tc_once. }
  by apply (Hirr x).
Qed.

(** ** Theorem forms *)
Lemma clone_copies ord h l : order_ok ord -> acyclic h l -> complete h l ->
  exists n h' l', (forall n', n <= n' -> exists h'' l'', clone ord n' h l = Ok (h'', l'')) /\ clone ord n h l = Ok (h', l').
Proof.
  intros Ho Ha Hc. destruct (clone_total ord Ho h l Ha Hc) as [N HN]. destruct (HN N (Nat.le_refl _) h) as [[h' l'] E]; [done|].
  exists N, h', l'. split; [|done]. intros n' Hn'. destruct (HN n' Hn' h) as [[h'' l''] E'']; [done|]. eauto.
Qed.
Lemma clone_diverges ord h l x : order_ok ord -> complete h l -> reach h l x -> tc (child h) x x -> forall n, clone ord n h l = NoFuel.
Proof.
  intros Ho Hc Hr Ht n. destruct (clone ord n h l) as [r| |] eqn:E; [|by destruct (clone_no_panic ord Ho n h l h Hc)|done].
  destruct (cycle_not_acyclic h l x Hr Ht). by eapply clone_acyclic.
Qed.

(** ** Reads of a copy *)
Definition copy_answer (h h' : heap) (r r' : option value) : Prop :=
  match r, r' with None, None => True | Some v, Some v' => copy_value h h' v v' | _, _ => False end.
Lemma copy_dataset h h' d d' : copy h h' d d' -> dataset_at h d -> dataset_at h' d'.
Proof. unfold dataset_at. destruct 1; intros [[? ?]|[? ?]]; simplify_eq; eauto. Qed.
Lemma copy_collection h h' c c' xs : copy h h' c c' -> collection_at h c xs ->
  exists ds ds', xs = map Some ds /\ collection_at h' c' (map Some ds') /\ length ds = length ds' /\
    forall i d d', ds !! i = Some d -> ds' !! i = Some d' -> copy h h' d d'.
Proof. unfold collection_at. destruct 1; intros [?|?]; simplify_eq; eauto 10. Qed.
Lemma copy_plain h h' v v' : copy_value h h' v v' -> plain h v -> plain h' v'.
Proof.
  destruct 1 as [v Hv|d d' Hc]; intros [H1 H2].
  - split; [intros d ->; by destruct (Hv d)|intros c xs ->; by destruct (Hv c)].
  - exfalso. destruct Hc; [eapply H1|eapply H1|eapply H2|eapply H2]; try done; unfold dataset_at, collection_at; eauto.
Qed.
Lemma map_Some_lookup (ds : list loc) i d : map Some ds !! i = Some (Some d) <-> ds !! i = Some d.
Proof. rewrite list_lookup_fmap. destruct (ds !! i); simpl; naive_solver. Qed.
Lemma copy_lookup (ds ds' : list loc) i d : length ds = length ds' -> ds !! i = Some d -> exists d', ds' !! i = Some d'.
Proof. intros Hl H. apply lookup_lt_Some in H. rewrite Hl in H. by apply lookup_lt_is_Some_2. Qed.
Lemma copy_map_answer h h' (m m' : gmap bytes value) k : (forall k, m' !! k = None <-> m !! k = None) ->
  (forall k v v', m !! k = Some v -> m' !! k = Some v' -> copy_value h h' v v') -> copy_answer h h' (m !! k) (m' !! k).
Proof.
  intros Hn Hv. pose proof (Hn k) as Hk. destruct (m !! k) as [v|] eqn:E, (m' !! k) as [v'|] eqn:E'; simpl; try done.
  - by eapply Hv.
  - by destruct Hk as [Hk _]; specialize (Hk eq_refl).
  - by destruct Hk as [_ Hk]; specialize (Hk eq_refl).
Qed.
Lemma copy_ds_inv h h' l l' m : copy h h' l l' -> h !! l = Some (ODs m) -> exists m', h' !! l' = Some (ODs m') /\
  (forall k, m' !! k = None <-> m !! k = None) /\ (forall k v v', m !! k = Some v -> m' !! k = Some v' -> copy_value h h' v v').
Proof. destruct 1; intros ?; simplify_eq. eauto. Qed.
Lemma copy_at_path h h' l p r : at_path h l p r -> forall l', copy h h' l l' -> exists r', at_path h' l' p r' /\ copy_answer h h' r r'.
Proof.
  assert (Hget : forall (m m' : gmap bytes value) k v, (forall k, m' !! k = None <-> m !! k = None) ->
    (forall k v v', m !! k = Some v -> m' !! k = Some v' -> copy_value h h' v v') ->
    m !! k = Some v -> exists v', m' !! k = Some v' /\ copy_value h h' v v').
  { intros m m' k v Hn Hv Hk. destruct (m' !! k) as [v'|] eqn:E; [|apply Hn in E; congruence]. eauto. }
  assert (Href : forall d v', copy_value h h' (VRef d) v' -> exists d', v' = VRef d' /\ copy h h' d d').
  { intros d v' H. inversion H as [? Hne|? ? ?]; subst; [by destruct (Hne d)|eauto]. }
  induction 1 as [l d p r Hl _ IH|l m k Hl|l m k p Hl Hk Hp|l m k d p r Hl Hk Hd Hp _ IH|l m k c xs s p Hl Hk Hc Hi
    |l m k c xs s i d Hl Hk Hc Hs Hx|l m k c xs s i d p r Hl Hk Hc Hs Hx Hp _ IH|l m k p v Hl Hk Hv Hp]; intros l' Hcp.
  - inversion Hcp; simplify_eq. edestruct IH as (r' & ? & ?); [done|]. exists r'. split; [by eapply ap_wrap|done].
  - destruct (copy_ds_inv _ _ _ _ _ Hcp Hl) as (m' & Hl' & Hn & Hv). exists (m' !! k). split; [by apply ap_last|by apply copy_map_answer].
  - destruct (copy_ds_inv _ _ _ _ _ Hcp Hl) as (m' & Hl' & Hn & Hv). exists None. split; [|done]. eapply ap_missing; [done|by apply Hn|done].
  - destruct (copy_ds_inv _ _ _ _ _ Hcp Hl) as (m' & Hl' & Hn & Hv). destruct (Hget _ _ _ _ Hn Hv Hk) as (v' & Hk' & (d' & -> & Hcd)%Href).
    destruct (IH d' Hcd) as (r' & ? & ?). exists r'. split; [|done]. eapply ap_dataset; [done..|by eapply copy_dataset|done|done].
  - destruct (copy_ds_inv _ _ _ _ _ Hcp Hl) as (m' & Hl' & Hn & Hv). destruct (Hget _ _ _ _ Hn Hv Hk) as (v' & Hk' & (c' & -> & Hcc)%Href).
    destruct (copy_collection _ _ _ _ _ Hcc Hc) as (ds & ds' & -> & Hc' & Hlen & Hds). exists None. split; [|done].
    eapply ap_no_index; [done..|]. intros i d' Hden Hx%map_Some_lookup. destruct (copy_lookup ds' ds i d') as [d Hd]; [done..|].
    apply (Hi i d Hden). by apply map_Some_lookup.
  - destruct (copy_ds_inv _ _ _ _ _ Hcp Hl) as (m' & Hl' & Hn & Hv). destruct (Hget _ _ _ _ Hn Hv Hk) as (v' & Hk' & (c' & -> & Hcc)%Href).
    destruct (copy_collection _ _ _ _ _ Hcc Hc) as (ds & ds' & -> & Hc' & Hlen & Hds). apply map_Some_lookup in Hx.
    destruct (copy_lookup ds ds' i d) as [d' Hd']; [done..|]. exists (Some (VRef d')). split; [|constructor; by eapply Hds].
    eapply ap_element; [done..|]. by apply map_Some_lookup.
  - destruct (copy_ds_inv _ _ _ _ _ Hcp Hl) as (m' & Hl' & Hn & Hv). destruct (Hget _ _ _ _ Hn Hv Hk) as (v' & Hk' & (c' & -> & Hcc)%Href).
    destruct (copy_collection _ _ _ _ _ Hcc Hc) as (ds & ds' & -> & Hc' & Hlen & Hds). apply map_Some_lookup in Hx.
    destruct (copy_lookup ds ds' i d) as [d' Hd']; [done..|]. destruct (IH d') as (r' & ? & ?); [by eapply Hds|].
    exists r'. split; [|done]. eapply ap_in_element; [done..| |done|done]. by apply map_Some_lookup.
  - destruct (copy_ds_inv _ _ _ _ _ Hcp Hl) as (m' & Hl' & Hn & Hcv). destruct (Hget _ _ _ _ Hn Hcv Hk) as (v' & Hk' & Hvv).
    eexists. split; [eapply ap_literal; [done..|by eapply copy_plain|done]|]. by apply copy_map_answer.
Qed.
Lemma copy_answer_sym h h' r r' : copy_answer h' h r' r -> copy_answer h h' r r'.
Proof. destruct r, r'; simpl; try done. apply copy_sym. Qed.
Lemma copy_gets h h' l l' key : copy h h' l l' ->
  (forall r, gets h l key r -> exists r', gets h' l' key r' /\ copy_answer h h' r r') /\
  (forall r', gets h' l' key r' -> exists r, gets h l key r /\ copy_answer h h' r r').
Proof.
  intros Hc. split.
  - intros r Hr. rewrite gets_path in Hr. destruct (copy_at_path _ _ _ _ _ Hr _ Hc) as (r' & ? & ?). exists r'. by rewrite gets_path.
  - intros r' Hr. rewrite gets_path in Hr. apply (proj1 (copy_sym h h')) in Hc. destruct (copy_at_path _ _ _ _ _ Hr _ Hc) as (r & ? & ?).
    exists r. rewrite gets_path. split; [done|by apply copy_answer_sym].
Qed.

Lemma clone_deep ord n h l h' l' : order_ok ord -> complete h l -> clone ord n h l = Ok (h', l') ->
  (forall x o, h !! x = Some o -> h' !! x = Some o) /\ (forall x, reach h' l' x -> h !! x = None /\ is_Some (h' !! x)) /\
  copy h h' l l' /\
  (forall key r, gets h l key r -> exists r', gets h' l' key r' /\ copy_answer h h' r r') /\
  (forall key r', gets h' l' key r' -> exists r, gets h l key r /\ copy_answer h h' r r').
Proof.
  intros Ho Hc Hcl. destruct (clone_made ord Ho n _ _ _ _ Hcl Hc) as [Hs [Hcp Hf]]. split_and!.
  - intros x o Hx. by eapply lookup_weaken.
  - done.
  - done.
  - intros key. by apply copy_gets.
  - intros key. by apply copy_gets.
Qed.

(** ** Independence (C28) *)
Inductive mutation :=
| MSet (l : loc) (k : bytes) (v : value) | MDel (l : loc) (k : bytes)
| MPush (c : loc) (d : option loc) | MUnshift (c : loc) (d : option loc) | MPop (c : loc) | MShift (c : loc).
Definition mutated (u : mutation) : loc :=
  match u with MSet l _ _ | MDel l _ => l | MPush c _ | MUnshift c _ | MPop c | MShift c => c end.
Definition run_mutation (n : nat) (h : heap) (u : mutation) : outcome heap :=
  match u with
  | MSet l k v => dset n h l k v
  | MDel l k => ddel n h l k
  | MPush c d => cpush h c d
  | MUnshift c d => cunshift h c d
  | MPop c => r <-! cpop h c; Ok r.1
  | MShift c => r <-! cshift h c; Ok r.1
  end.
Fixpoint run_mutations (n : nat) (h : heap) (us : list mutation) : outcome heap :=
  match us with [] => Ok h | u :: us' => h' <-! run_mutation n h u; run_mutations n h' us' end.

Lemma set_elements_other h c xs x : x <> c -> set_elements h c xs !! x = h !! x.
Proof. intros Hne. unfold set_elements. destruct (h !! c) as [[]|]; try done; by rewrite lookup_insert_ne. Qed.
Lemma set_elements_wrapper h c xs x w : set_elements h c xs !! x = Some (OTs w) <-> h !! x = Some (OTs w).
Proof.
  unfold set_elements. destruct (h !! c) as [[]|] eqn:E; try done.
  - destruct (decide (x = c)) as [->|]; [rewrite lookup_insert, E; naive_solver|by rewrite lookup_insert_ne].
  - destruct (decide (x = c)) as [->|]; [rewrite lookup_insert, E; naive_solver|by rewrite lookup_insert_ne].
Qed.
(** What one mutation can change. *)
Lemma mutation_frame n h u h' (R : loc -> Prop) : run_mutation n h u = Ok h' -> R (mutated u) ->
  (forall x d, R x -> h !! x = Some (OTs (Some d)) -> R d) ->
  (forall x, ~ R x -> h' !! x = h !! x) /\ (forall x w, h' !! x = Some (OTs w) <-> h !! x = Some (OTs w)).
Proof.
  intros Hrun Hu HR.
  assert (Hin : forall l t m, inside h l t m -> R l -> R t) by (induction 1; eauto).
  assert (Hds : forall t m m2, h !! t = Some (ODs m) -> R t ->
    (forall x, ~ R x -> <[t := ODs m2]> h !! x = h !! x) /\ (forall x w, <[t := ODs m2]> h !! x = Some (OTs w) <-> h !! x = Some (OTs w))).
  { intros t m m2 Ht HRt. split.
    - intros x Hx. rewrite lookup_insert_ne; [done|]. by intros ->.
    - intros x w. destruct (decide (x = t)) as [->|]; [rewrite lookup_insert, Ht; naive_solver|by rewrite lookup_insert_ne]. }
  assert (Hel : forall c xs, R c -> (forall x, ~ R x -> set_elements h c xs !! x = h !! x) /\
    (forall x w, set_elements h c xs !! x = Some (OTs w) <-> h !! x = Some (OTs w))).
  { intros c xs Hc. split; [|intros; apply set_elements_wrapper]. intros x Hx. apply set_elements_other. by intros ->. }
  destruct u as [l k v|l k|c d|c d|c|c]; simpl in *.
  - apply dset_inside in Hrun as (t & m & Hi & ->). apply (Hds t m); [by eapply inside_at|by eapply Hin].
  - apply ddel_inside in Hrun as (t & m & Hi & ->). apply (Hds t m); [by eapply inside_at|by eapply Hin].
  - unfold cpush in Hrun. destruct (elements h c); [|done]. injection Hrun as <-. by apply Hel.
  - unfold cunshift in Hrun. destruct (elements h c); [|done]. injection Hrun as <-. by apply Hel.
  - unfold cpop in Hrun. destruct (elements h c) as [xs|]; [|done]. destruct (bool_decide _); [done|].
    destruct (xs !! _); [|done]. injection Hrun as <-. by apply Hel.
  - unfold cshift in Hrun. destruct (elements h c) as [xs|]; [|done]. destruct (xs !! _); [|done]. injection Hrun as <-. by apply Hel.
Qed.
Lemma mutations_frame n h us h' (R : loc -> Prop) : run_mutations n h us = Ok h' -> Forall (fun u => R (mutated u)) us ->
  (forall x d, R x -> h !! x = Some (OTs (Some d)) -> R d) -> forall x, ~ R x -> h' !! x = h !! x.
Proof.
  revert h. induction us as [|u us IH]; intros h Hrun Hu HR x Hx; simpl in Hrun; [congruence|].
  apply Forall_cons in Hu as [Hu Hus]. destruct (run_mutation n h u) as [h1| |] eqn:E; try done. cbn [obind] in Hrun.
  destruct (mutation_frame n h u h1 R E Hu HR) as [Hf Hw]. rewrite <-(Hf x Hx). apply IH; [done|done| |done].
  intros y d Hy Hyd. apply Hw in Hyd. by eapply HR.
Qed.
Lemma gets_frame h h' l key r : (forall x, reach h l x -> h' !! x = h !! x) -> gets h l key r <-> gets h' l key r.
Proof.
  assert (Hone : forall h h' l p r, at_path h l p r -> (forall x, reach h l x -> h' !! x = h !! x) -> at_path h' l p r).
  { clear. intros h h' l p r. 
    assert (Hrefl : forall l, reach h l l) by (intros; apply rtc_refl).
    induction 1 as [l d p r Hl _ IH|l m k Hl|l m k p Hl Hk Hp|l m k d p r Hl Hk Hd Hp _ IH|l m k c xs s p Hl Hk Hc Hi
      |l m k c xs s i d Hl Hk Hc Hs Hx|l m k c xs s i d p r Hl Hk Hc Hs Hx Hp _ IH|l m k p v Hl Hk Hv Hp]; intros E;
      assert (El : h' !! l = h !! l) by (apply E, Hrefl).
    - eapply ap_wrap; [by rewrite El|]. apply IH. intros x Hx. apply E. eapply reach_child; [by eapply child_ts|done].
    - apply ap_last. by rewrite El.
    - eapply ap_missing; [by rewrite El|done..].
    - assert (Hch : child h l d) by (by eapply child_ds). eapply ap_dataset; [by rewrite El|done| |done|].
      + unfold dataset_at. rewrite E; [done|]. eapply reach_child; [done|apply Hrefl].
      + apply IH. intros x Hx. apply E. by eapply reach_child.
    - assert (Hch : child h l c) by (by eapply child_ds). eapply ap_no_index; [by rewrite El|done| |done].
      unfold collection_at. rewrite E; [done|]. eapply reach_child; [done|apply Hrefl].
    - assert (Hch : child h l c) by (by eapply child_ds). eapply ap_element; [by rewrite El|done| |done|done].
      unfold collection_at. rewrite E; [done|]. eapply reach_child; [done|apply Hrefl].
    - assert (Hch : child h l c) by (by eapply child_ds). eapply ap_in_element; [by rewrite El|done| |done|done|done|].
      + unfold collection_at. rewrite E; [done|]. eapply reach_child; [done|apply Hrefl].
      + apply IH. intros x Hx'. apply E. eapply reach_child; [done|]. eapply reach_child; [|done]. eapply child_coll; [done|]. by eapply elem_of_list_lookup_2.
    - eapply ap_literal; [by rewrite El|done| |done]. destruct Hv as [H1 H2].
      split.
      + intros d -> Hd. apply (H1 d eq_refl). unfold dataset_at. rewrite <-E; [done|]. eapply reach_child; [by eapply child_ds|apply Hrefl].
      + intros c xs -> Hc. apply (H2 c xs eq_refl). unfold collection_at. rewrite <-E; [done|]. eapply reach_child; [by eapply child_ds|apply Hrefl]. }
  intros E. rewrite !gets_path. split; intros Hg.
  - by eapply Hone.
  - eapply Hone; [done|]. intros x Hx. symmetry. apply E. by apply (reach_frame h h' l E).
Qed.
Lemma clone_independent ord n h l h' l' us n' h'' : order_ok ord -> complete h l -> clone ord n h l = Ok (h', l') ->
  Forall (fun u => reach h l (mutated u)) us -> run_mutations n' h' us = Ok h'' ->
  forall x, reach h' l' x -> h'' !! x = h' !! x /\ forall key r, gets h'' x key r <-> gets h' x key r.
Proof.
  intros Ho Hc Hcl Hus Hrun. destruct (clone_made ord Ho n _ _ _ _ Hcl Hc) as [Hs [Hcp Hf]].
  assert (Hkeep : forall x, reach h' l' x -> h'' !! x = h' !! x).
  { intros x Hx. apply (mutations_frame n' h' us h'' (fun y => reach h l y)); [done|done| |].
    - intros y d Hy Hyd. destruct (complete_closed _ _ Hc y Hy) as [o Hoy]. pose proof (lookup_weaken _ _ _ _ Hoy Hs) as Hoy'.
      assert (o = OTs (Some d)) as -> by congruence. eapply rtc_r; [exact Hy|]. by eapply child_ts.
    - intros Hr. destruct (Hf x Hx) as [Hn _]. destruct (complete_closed _ _ Hc x Hr) as [o ?]. congruence. }
  intros x Hx. split; [by apply Hkeep|]. intros key r. symmetry. apply gets_frame. intros y Hy. apply Hkeep. by eapply rtc_transitive.
Qed.
Lemma original_independent ord n h l h' l' us n' h'' : order_ok ord -> complete h l -> clone ord n h l = Ok (h', l') ->
  Forall (fun u => reach h' l' (mutated u)) us -> run_mutations n' h' us = Ok h'' ->
  forall x, reach h l x -> h'' !! x = h !! x /\ forall key r, gets h'' x key r <-> gets h x key r.
Proof.
  intros Ho Hc Hcl Hus Hrun. destruct (clone_made ord Ho n _ _ _ _ Hcl Hc) as [Hs [Hcp Hf]].
  assert (Hkeep : forall x, reach h l x -> h'' !! x = h !! x).
  { intros x Hx. destruct (complete_closed _ _ Hc x Hx) as [o Hox]. rewrite Hox, <-(lookup_weaken _ _ _ _ Hox Hs).
    apply (mutations_frame n' h' us h'' (fun y => reach h' l' y)); [done|done| |].
    - intros y d Hy Hyd. eapply rtc_r; [exact Hy|]. by eapply child_ts.
    - intros Hr. destruct (Hf x Hr) as [Hn _]. congruence. }
  intros x Hx. split; [by apply Hkeep|]. intros key r. symmetry. apply gets_frame. intros y Hy. apply Hkeep. by eapply rtc_transitive.
Qed.
