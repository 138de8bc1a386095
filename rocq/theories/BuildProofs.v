(** * Every heap built with the API is well formed. *)
From Verif Require Import GoBase DatasetModel LangModel DatasetSpec DatasetProofs DatasetProofs2 DatasetProofs3 DatasetProofs4 DatasetProofs6 TemplateModel RenderSpec RenderProofs5 RenderProofs RenderProofs7
  BuildSpec.
Local Open Scope Z_scope.

(** Well formed except for wrappers that are still empty (in the middle of Clone). *)
Definition half (h : heap) : Prop :=
  (forall l d, h !! l = Some (OTs (Some d)) -> chain h l) /\
  (forall c xs d, collection_at h c xs -> Some d ∈ xs -> dataset_at h d) /\
  no_dangling h.
Definition fits (h : heap) (c : loc) (o : obj) : Prop :=
  match h !! c, o with
  | None, _ | Some (ODs _), ODs _ | Some (OTs None), OTs _ | Some (OColl _), OColl _ | Some (OCollTS _), OCollTS _ => True
  | _, _ => False
  end.
Definition filled (h : heap) (o : obj) : Prop :=
  match o with
  | ODs m => forall k d, m !! k = Some (VRef d) -> is_Some (h !! d)
  | OTs None => True
  | OTs (Some d) => chain h d
  | OColl xs | OCollTS xs => forall d, Some d ∈ xs -> dataset_at h d
  end.
Definition goes (h h' : heap) : Prop :=
  half h' /\ (forall x, chain h x -> chain h' x) /\ (forall x, dataset_at h x -> dataset_at h' x) /\ (forall x, is_Some (h !! x) -> is_Some (h' !! x)).
Lemma goes_refl h : half h -> goes h h.
Proof. done. Qed.
Lemma goes_trans h1 h2 h3 : goes h1 h2 -> goes h2 h3 -> goes h1 h3.
Proof. intros (A1 & A2 & A3 & A4) (B1 & B2 & B3 & B4). split; [done|]. split_and!; eauto. Qed.

Lemma half_store h c o : half h -> fits h c o -> filled h o -> goes h (<[c := o]> h).
Proof.
  intros (H1 & H2 & H3) Hf Hc.
  assert (C : forall x, chain h x -> chain (<[c := o]> h) x).
  { induction 1 as [l m E|l d E _ IH].
    - destruct (decide (l = c)) as [->|N]; [|by eapply chain_ds; rewrite lookup_insert_ne].
      unfold fits in Hf. rewrite E in Hf. destruct o; try done. eapply chain_ds. by rewrite lookup_insert.
    - destruct (decide (l = c)) as [->|N]; [|by eapply chain_ts; [rewrite lookup_insert_ne|]].
      unfold fits in Hf. by rewrite E in Hf. }
  assert (D : forall x, dataset_at h x -> dataset_at (<[c := o]> h) x).
  { intros x Hx. destruct (decide (x = c)) as [->|N].
    - unfold fits in Hf. destruct Hx as [[m E]|[w E]]; rewrite E in Hf.
      + destruct o; try done. left. eexists. by rewrite lookup_insert.
      + destruct w; [done|]. destruct o; try done. right. eexists. by rewrite lookup_insert.
    - destruct Hx as [[m E]|[w E]]; [left|right]; eexists; by rewrite lookup_insert_ne. }
  assert (S : forall x, is_Some (h !! x) -> is_Some (<[c := o]> h !! x)).
  { intros x Hx. destruct (decide (x = c)) as [->|N]; [rewrite lookup_insert; by eexists|by rewrite lookup_insert_ne]. }
  split; [|by split_and!]. split_and!.
  - intros l d E. destruct (decide (l = c)) as [->|N].
    + rewrite lookup_insert in E. injection E as ->. simpl in Hc. eapply chain_ts; [by rewrite lookup_insert|]. by apply C.
    + rewrite lookup_insert_ne in E by done. apply C. by eapply H1.
  - intros c' xs d Hx Hd. apply D. destruct (decide (c' = c)) as [->|N].
    + unfold collection_at in Hx. rewrite lookup_insert in Hx. destruct Hx as [[= ->]|[= ->]]; simpl in Hc; by apply Hc.
    + unfold collection_at in Hx. rewrite lookup_insert_ne in Hx by done. by eapply H2.
  - intros x y Hxy. apply S. destruct (decide (x = c)) as [->|N].
    + inversion Hxy as [l m k d E Ek|l d E|l xs d E Ei]; subst.
      * rewrite lookup_insert in E. injection E as ->. simpl in Hc. by eapply Hc.
      * rewrite lookup_insert in E. injection E as ->. simpl in Hc. inversion Hc; by eexists.
      * assert (dataset_at h y) as [[m E']|[w E']]; [|by eexists..].
        unfold collection_at in E. rewrite lookup_insert in E. destruct E as [[= ->]|[= ->]]; simpl in Hc; by apply Hc.
    + apply (H3 x y). apply (child_frame h (<[c := o]> h)); [|done]. by rewrite lookup_insert_ne.
Qed.

(** No new empty wrappers, no new collections with nil. *)
Definition no_new_nils (h h' : heap) : Prop :=
  (forall x, h' !! x = Some (OTs None) -> h !! x = Some (OTs None)) /\
  (forall c xs, collection_at h' c xs -> None ∈ xs -> collection_at h c xs).
Lemma no_new_nils_trans h1 h2 h3 : no_new_nils h1 h2 -> no_new_nils h2 h3 -> no_new_nils h1 h3.
Proof. intros [A1 A2] [B1 B2]. split; eauto. Qed.
(** A fresh object, work elsewhere, then its content. *)
Lemma alloc_store h c o h2 o2 : h !! c = None -> o2 <> OTs None -> (forall xs, (o2 = OColl xs \/ o2 = OCollTS xs) -> None ∉ xs) ->
  no_new_nils (<[c := o]> h) h2 -> no_new_nils h (<[c := o2]> h2).
Proof.
  intros Hc Ho Hn [N1 N2]. split.
  - intros x E. destruct (decide (x = c)) as [->|N]; [rewrite lookup_insert in E; congruence|].
    rewrite lookup_insert_ne in E by done. apply N1 in E. by rewrite lookup_insert_ne in E.
  - intros c' xs E Hin. destruct (decide (c' = c)) as [->|N].
    + unfold collection_at in E. rewrite lookup_insert in E. exfalso. eapply Hn; [|exact Hin]. destruct E as [[= ->]|[= ->]]; eauto.
    + assert (collection_at h2 c' xs) as E2 by (unfold collection_at in *; by rewrite lookup_insert_ne in E).
      apply N2 in E2; [|done]. unfold collection_at in *. by rewrite lookup_insert_ne in E2.
Qed.
Lemma fits_fresh h c o : h !! c = None -> fits h c o.
Proof. unfold fits. by intros ->. Qed.

(** ** Clone *)
Definition cloned (h h' : heap) (l l' : loc) : Prop :=
  goes h h' /\ no_new_nils h h' /\ (chain h l -> chain h' l') /\ (dataset_at h l -> dataset_at h' l') /\ is_Some (h' !! l').
Definition clones (f : heap -> loc -> outcome (heap * loc)) : Prop :=
  forall h l h' l', half h -> f h l = Ok (h', l') -> h ⊆ h' /\ cloned h h' l l'.
Lemma clone_entries_goes f es : clones f -> forall h m h' m', half h -> filled h (ODs m) ->
  clone_entries f es h m = Ok (h', m') -> h ⊆ h' /\ goes h h' /\ no_new_nils h h' /\ filled h' (ODs m').
Proof.
  intros Hf. induction es as [|[k v] es IH]; intros h m h' m' Hh Hm; cbn [clone_entries].
  { intros [= <- <-]. done. }
  assert (P : (forall d, v <> VRef d) -> clone_entries f es h (<[k := v]> m) = Ok (h', m') ->
    h ⊆ h' /\ goes h h' /\ no_new_nils h h' /\ filled h' (ODs m')).
  { intros Hv. apply IH; [done|]. intros k' d. destruct (decide (k' = k)) as [->|N]; [|rewrite lookup_insert_ne by done; by apply Hm].
    rewrite lookup_insert. intros [= ->]. by edestruct Hv. }
  destruct v as [| | | | | | | | | | | |r|]; try (by apply P). clear P.
  destruct (f h r) as [[h1 r']| |] eqn:E; try done. cbn [obind]. intros He.
  destruct (Hf _ _ _ _ Hh E) as (S1 & G1 & N1 & _ & _ & I1). pose proof G1 as (Hh1 & _ & _ & M1).
  destruct (IH h1 (<[k := VRef r']> m) h' m' Hh1) as (S2 & G2 & N2 & F2); [|done|].
  - intros k' d. destruct (decide (k' = k)) as [->|N].
    + rewrite lookup_insert. by intros [= ->].
    + rewrite lookup_insert_ne by done. intros Hd. apply M1. by eapply Hm.
  - split; [by etrans|]. split; [by eapply goes_trans|]. split; [by eapply no_new_nils_trans|done].
Qed.
Lemma clone_elements_goes f xs : clones f -> forall h ys h' ys', half h -> (forall d, Some d ∈ xs -> dataset_at h d) ->
  filled h (OColl ys) -> None ∉ ys ->
  clone_elements f xs h ys = Ok (h', ys') -> h ⊆ h' /\ goes h h' /\ no_new_nils h h' /\ filled h' (OColl ys') /\ None ∉ ys'.
Proof.
  intros Hf. induction xs as [|[r|] xs IH]; intros h ys h' ys' Hh Hxs Hys Hn; cbn [clone_elements]; [| |done].
  { intros [= <- <-]. done. }
  destruct (f h r) as [[h1 r']| |] eqn:E; try done. cbn [obind]. intros He.
  destruct (Hf _ _ _ _ Hh E) as (S1 & G1 & N1 & _ & D1 & I1). pose proof G1 as (Hh1 & _ & M1 & _).
  destruct (IH h1 (ys ++ [Some r']) h' ys' Hh1) as (S2 & G2 & N2 & F2 & F3); [| | |done|].
  - intros d Hd. apply M1, Hxs. by right.
  - intros d [Hd|Hd]%elem_of_app; [apply M1; by apply Hys|]. apply elem_of_list_singleton in Hd as [= ->]. apply D1, Hxs. by left.
  - intros [Hd|Hd]%elem_of_app; [done|]. by apply elem_of_list_singleton in Hd.
  - split; [by etrans|]. split; [by eapply goes_trans|]. split; [by eapply no_new_nils_trans|done].
Qed.
Lemma clone_goes ord n : clones (clone ord n).
Proof.
  induction n as [|n IH]; intros h l h' l' Hh; [done|]. intros E. split; [by eapply clone_grows|]. revert E. cbn [clone]. unfold alloc.
  set (c := fresh (dom h) : loc). assert (Hc : h !! c = None) by apply fresh_none.
  destruct (h !! l) as [[m|[d|]|xs|xs]|] eqn:El; try done.
  - pose proof (half_store h c (ODs ∅) Hh (fits_fresh _ _ _ Hc)) as G1. destruct G1 as (Hh1 & G1); [by intros k d; rewrite lookup_empty|].
    destruct (clone_entries _ _ _ _) as [[h2 m2]| |] eqn:E; try done. cbn [obind]. intros [= <- <-].
    destruct (clone_entries_goes _ _ IH _ _ _ _ Hh1 ltac:(by intros k d; rewrite lookup_empty) E) as (S2 & G2 & N2 & F2).
    pose proof G2 as (Hh2 & _).
    assert (h2 !! c = Some (ODs ∅)) as E2 by (eapply lookup_weaken; [|exact S2]; by rewrite lookup_insert).
    assert (G3 : goes h2 (<[c := ODs m2]> h2)) by (apply half_store; [done|by unfold fits; rewrite E2|done]).
    split; [eapply goes_trans; [|exact G3]; eapply goes_trans; [|exact G2]; by split|].
    split; [eapply alloc_store; [done|done|by intros xs [?|?]|exact N2]|].
    split_and!; intros; [|left|]; try (eapply chain_ds; by rewrite lookup_insert); eexists; by rewrite lookup_insert.
  - pose proof (half_store h c (OTs None) Hh (fits_fresh _ _ _ Hc) I) as (Hh1 & G1).
    destruct (clone ord n _ d) as [[h2 d2]| |] eqn:E; try done. cbn [obind]. intros [= <- <-].
    destruct (IH _ _ _ _ Hh1 E) as (S2 & G2 & N2 & C2 & D2 & I2). pose proof G2 as (Hh2 & _).
    assert (h2 !! c = Some (OTs None)) as E2 by (eapply lookup_weaken; [|exact S2]; by rewrite lookup_insert).
    assert (Hd : chain h d).
    { assert (chain h l) as Hl by (by eapply Hh). inversion Hl; simplify_eq. done. }
    assert (Hd2 : chain h2 d2) by (apply C2, G1, Hd).
    assert (G3 : goes h2 (<[c := OTs (Some d2)]> h2)) by (apply half_store; [done|by unfold fits; rewrite E2|done]).
    split; [eapply goes_trans; [|exact G3]; eapply goes_trans; [|exact G2]; by split|].
    split; [eapply alloc_store; [done|done|by intros xs [?|?]|exact N2]|].
    split_and!; intros; [|right|].
    + eapply chain_ts; [by rewrite lookup_insert|]. by apply G3.
    + eexists; by rewrite lookup_insert.
    + eexists; by rewrite lookup_insert.
  - pose proof (half_store h c (OColl []) Hh (fits_fresh _ _ _ Hc)) as G1. destruct G1 as (Hh1 & G1); [by intros d ?%elem_of_nil|].
    destruct (clone_elements _ _ _ _) as [[h2 ys]| |] eqn:E; try done. cbn [obind]. intros [= <- <-].
    destruct (clone_elements_goes _ _ IH _ _ _ _ Hh1 ltac:(intros d Hd; apply G1; eapply Hh; [by left|done])
      ltac:(by intros d ?%elem_of_nil) ltac:(by intros ?%elem_of_nil) E) as (S2 & G2 & N2 & F2 & F3).
    pose proof G2 as (Hh2 & _).
    assert (h2 !! c = Some (OColl [])) as E2 by (eapply lookup_weaken; [|exact S2]; by rewrite lookup_insert).
    assert (G3 : goes h2 (<[c := OColl ys]> h2)) by (apply half_store; [done|by unfold fits; rewrite E2|done]).
    split; [eapply goes_trans; [|exact G3]; eapply goes_trans; [|exact G2]; by split|].
    split; [eapply alloc_store; [done|done|by intros zs [[= <-]|?]|exact N2]|].
    split_and!.
    + intros Hl. inversion Hl; congruence.
    + intros [[m Hl]|[w Hl]]; congruence.
    + eexists; by rewrite lookup_insert.
  - pose proof (half_store h c (OCollTS []) Hh (fits_fresh _ _ _ Hc)) as G1. destruct G1 as (Hh1 & G1); [by intros d ?%elem_of_nil|].
    destruct (clone_elements _ _ _ _) as [[h2 ys]| |] eqn:E; try done. cbn [obind]. intros [= <- <-].
    destruct (clone_elements_goes _ _ IH _ _ _ _ Hh1 ltac:(intros d Hd; apply G1; eapply Hh; [by right|done])
      ltac:(by intros d ?%elem_of_nil) ltac:(by intros ?%elem_of_nil) E) as (S2 & G2 & N2 & F2 & F3).
    pose proof G2 as (Hh2 & _).
    assert (h2 !! c = Some (OCollTS [])) as E2 by (eapply lookup_weaken; [|exact S2]; by rewrite lookup_insert).
    assert (G3 : goes h2 (<[c := OCollTS ys]> h2)) by (apply half_store; [done|by unfold fits; rewrite E2|done]).
    split; [eapply goes_trans; [|exact G3]; eapply goes_trans; [|exact G2]; by split|].
    split; [eapply alloc_store; [done|done|by intros zs [?|[= <-]]|exact N2]|].
    split_and!.
    + intros Hl. inversion Hl; congruence.
    + intros [[m Hl]|[w Hl]]; congruence.
    + eexists; by rewrite lookup_insert.
Qed.

(** ** NewXDataset, NewXDatasetCollection *)
Definition makes (h : heap) (g : gval) : Prop :=
  forall h1 h2 v, half h1 -> (forall x, is_Some (h !! x) -> is_Some (h1 !! x)) -> new_value h1 g = (h2, v) ->
    h1 ⊆ h2 /\ goes h1 h2 /\ no_new_nils h1 h2 /\ held h2 v /\ (forall m, g = GMap m -> exists d, v = VRef d /\ dataset_at h2 d).
Lemma new_entries_goes h es : (forall k g, (k, g) ∈ es -> makes h g) -> forall h1 m h2 m2, half h1 ->
  (forall x, is_Some (h !! x) -> is_Some (h1 !! x)) -> filled h1 (ODs m) -> new_entries new_value es h1 m = (h2, m2) ->
  h1 ⊆ h2 /\ goes h1 h2 /\ no_new_nils h1 h2 /\ filled h2 (ODs m2).
Proof.
  induction es as [|[k g] es IH]; intros He h1 m h2 m2 Hh Hx Hm; cbn [new_entries]; [by intros [= <- <-]|].
  destruct (new_value h1 g) as [h3 v] eqn:E. intros E2.
  destruct (He k g ltac:(by left) _ _ _ Hh Hx E) as (S1 & G1 & N1 & V1 & _). pose proof G1 as (Hh3 & _ & _ & M1).
  destruct (IH ltac:(intros; eapply He; by right) h3 (<[k := v]> m) h2 m2 Hh3 ltac:(auto)) as (S2 & G2 & N2 & F2); [|done|].
  - intros k' d. destruct (decide (k' = k)) as [->|N].
    + rewrite lookup_insert. intros [= ->]. by apply V1.
    + rewrite lookup_insert_ne by done. intros Hd. apply M1. by eapply Hm.
  - split; [by etrans|]. split; [by eapply goes_trans|]. split; [by eapply no_new_nils_trans|done].
Qed.
Lemma new_dataset_goes h m : (forall k g, (k, g) ∈ m -> makes h g) -> forall h1 h2 d, half h1 ->
  (forall x, is_Some (h !! x) -> is_Some (h1 !! x)) -> new_dataset_ new_value h1 m = (h2, d) ->
  h1 ⊆ h2 /\ goes h1 h2 /\ no_new_nils h1 h2 /\ dataset_at h2 d.
Proof.
  intros Hm h1 h2 d Hh Hx. unfold new_dataset_, alloc. set (c := fresh (dom h1) : loc).
  assert (Hc : h1 !! c = None) by apply fresh_none.
  pose proof (half_store h1 c (ODs ∅) Hh (fits_fresh _ _ _ Hc)) as G1. destruct G1 as (Hh1 & G1); [by intros k x; rewrite lookup_empty|].
  destruct (new_entries _ _ _ _) as [h3 m3] eqn:E. intros [= <- <-].
  destruct (new_entries_goes h m Hm _ _ _ _ Hh1 ltac:(intros x Hs; apply G1; auto) ltac:(by intros k x; rewrite lookup_empty) E) as (S2 & G2 & N2 & F2).
  pose proof G2 as (Hh2 & _).
  assert (h3 !! c = Some (ODs ∅)) as E2 by (eapply lookup_weaken; [|exact S2]; by rewrite lookup_insert).
  assert (G3 : goes h3 (<[c := ODs m3]> h3)) by (apply half_store; [done|by unfold fits; rewrite E2|done]).
  split; [by eapply grow_alloc|].
  split; [eapply goes_trans; [|exact G3]; eapply goes_trans; [|exact G2]; by split|].
  split; [eapply alloc_store; [done|done|by intros xs [?|?]|exact N2]|].
  left. eexists. by rewrite lookup_insert.
Qed.
Lemma new_maps_goes h ms : (forall m, m ∈ ms -> makes h (GMap m)) -> forall h1 xs h2 ys, half h1 ->
  (forall x, is_Some (h !! x) -> is_Some (h1 !! x)) -> filled h1 (OColl xs) -> None ∉ xs -> new_maps new_value ms h1 xs = (h2, ys) ->
  h1 ⊆ h2 /\ goes h1 h2 /\ no_new_nils h1 h2 /\ filled h2 (OColl ys) /\ None ∉ ys.
Proof.
  induction ms as [|m ms IH]; intros Hm h1 xs h2 ys Hh Hx Hxs Hn; cbn [new_maps]; [by intros [= <- <-]|].
  destruct (new_dataset_ new_value h1 m) as [h3 d] eqn:E. intros E2.
  destruct (Hm m ltac:(by left) h1 h3 (VRef d) Hh Hx) as (S1 & G1 & N1 & _ & D1); [by cbn [new_value]; rewrite E|].
  destruct (D1 m eq_refl) as (d' & [= <-] & D2). pose proof G1 as (Hh3 & _ & M2 & M1).
  destruct (IH ltac:(intros m' ?; apply Hm; by right) h3 (xs ++ [Some d]) h2 ys Hh3 ltac:(auto)) as (S2 & G2 & N2 & F2 & F3); [| |done|].
  - intros x [Hd|Hd]%elem_of_app; [apply M2; by apply Hxs|]. apply elem_of_list_singleton in Hd as [= ->]. done.
  - intros [Hd|Hd]%elem_of_app; [done|]. by apply elem_of_list_singleton in Hd.
  - split; [by etrans|]. split; [by eapply goes_trans|]. split; [by eapply no_new_nils_trans|done].
Qed.
Lemma new_coll_goes h ms : (forall m, m ∈ ms -> makes h (GMap m)) -> forall h1 h3 ys, half h1 ->
  (forall x, is_Some (h !! x) -> is_Some (h1 !! x)) -> let c : loc := fresh (dom h1) in
  new_maps new_value ms (<[c := OColl []]> h1) [] = (h3, ys) -> let h2 := <[c := OColl ys]> h3 in
  h1 ⊆ h2 /\ goes h1 h2 /\ no_new_nils h1 h2 /\ is_Some (h2 !! c).
Proof.
  intros Hm h1 h3 ys Hh Hx c E h2. assert (Hc : h1 !! c = None) by apply fresh_none.
  pose proof (half_store h1 c (OColl []) Hh (fits_fresh _ _ _ Hc)) as G1. destruct G1 as (Hh1 & G1); [by intros d ?%elem_of_nil|].
  destruct (new_maps_goes h ms Hm _ _ _ _ Hh1 ltac:(intros x Hs; apply G1; auto) ltac:(by intros d ?%elem_of_nil) ltac:(by intros ?%elem_of_nil) E)
    as (S2 & G2 & N2 & F2 & F3).
  pose proof G2 as (Hh2 & _).
  assert (h3 !! c = Some (OColl [])) as E2 by (eapply lookup_weaken; [|exact S2]; by rewrite lookup_insert).
  assert (G3 : goes h3 (<[c := OColl ys]> h3)) by (apply half_store; [done|by unfold fits; rewrite E2|done]).
  split; [by eapply grow_alloc|].
  split; [eapply goes_trans; [|exact G3]; eapply goes_trans; [|exact G2]; by split|].
  split; [eapply alloc_store; [done|done|by intros zs [[= <-]|?]|exact N2]|].
  eexists. unfold h2. by rewrite lookup_insert.
Qed.
Lemma new_value_makes h g : held_source h g -> makes h g.
Proof.
  induction 1 as [v Hv|m _ IH|ms _ IH|gs _ IH]; intros h1 h2 v' Hh Hx; cbn [new_value].
  - intros [= <- <-]. split_and!; try done. intros d ->. apply Hx. by apply Hv.
  - destruct (new_dataset_ new_value h1 m) as [h3 d] eqn:E. intros [= <- <-].
    destruct (new_dataset_goes h m IH _ _ _ Hh Hx E) as (S1 & G1 & N1 & D1). split_and!; try done.
    + intros d' [= <-]. destruct D1 as [[? ?]|[? ?]]; by eexists.
    + intros m' [= <-]. by exists d.
  - unfold alloc. destruct (new_maps _ _ _ _) as [h3 ys] eqn:E. intros [= <- <-].
    destruct (new_coll_goes h ms IH _ _ _ Hh Hx E) as (S1 & G1 & N1 & I1). split_and!; try done. by intros d [= <-].
  - unfold alloc. rewrite new_list_maps. destruct (new_maps _ _ _ _) as [h3 ys] eqn:E. intros [= <- <-].
    assert (IH' : forall m, m ∈ maps_of gs -> makes h (GMap m)) by (intros m Hm; by apply IH, maps_of_in).
    destruct (new_coll_goes h _ IH' _ _ _ Hh Hx E) as (S1 & G1 & N1 & I1). split_and!; try done. by intros d [= <-].
Qed.

(** ** All calls *)
Definition good (nils : bool) (h : heap) : Prop :=
  half h /\ (forall x, h !! x <> Some (OTs None)) /\ (nils = false -> forall c xs, collection_at h c xs -> None ∉ xs).
Lemma good_goes nils h h' : good nils h -> goes h h' -> no_new_nils h h' -> good nils h'.
Proof.
  intros (G1 & G2 & G3) [Hh _] [N1 N2]. split; [done|]. split.
  - intros x E. by apply (G2 x), N1.
  - intros Hn c xs E Hin. pose proof (N2 c xs E Hin) as E'. by apply (G3 Hn c xs E').
Qed.
Lemma good_store nils h c o : good nils h -> fits h c o -> filled h o -> o <> OTs None ->
  (nils = false -> forall xs, (o = OColl xs \/ o = OCollTS xs) -> None ∉ xs) -> good nils (<[c := o]> h).
Proof.
  intros (G1 & G2 & G3) Hf Hc Ho Hn. split; [by apply half_store|]. split.
  - intros x. destruct (decide (x = c)) as [->|N]; [rewrite lookup_insert; congruence|by rewrite lookup_insert_ne].
  - intros Hb c' xs E. destruct (decide (c' = c)) as [->|N].
    + unfold collection_at in E. rewrite lookup_insert in E. apply (Hn Hb). destruct E as [[= ->]|[= ->]]; eauto.
    + unfold collection_at in E. rewrite lookup_insert_ne in E by done. by apply (G3 Hb c').
Qed.
Lemma on_dataset_inv {A} n h l (f : loc -> gmap bytes value -> outcome A) a : on_dataset n h l f = Ok a ->
  exists l' m, h !! l' = Some (ODs m) /\ f l' m = Ok a.
Proof.
  revert l. induction n as [|n IH]; intros l; cbn [on_dataset]; [done|].
  destruct (h !! l) as [[m|[d|]| |]|] eqn:E; try done; [|apply IH]. intros H. by exists l, m.
Qed.
Lemma elements_inv h c xs : elements h c = Some xs -> collection_at h c xs.
Proof. unfold elements, collection_at. destruct (h !! c) as [[| | |]|]; try done; intros [= ->]; auto. Qed.
Lemma set_elements_good nils h c xs ys : good nils h -> collection_at h c xs ->
  (forall d, Some d ∈ ys -> dataset_at h d) -> (nils = false -> None ∉ ys) -> good nils (set_elements h c ys).
Proof.
  intros Hg Hc Hd Hn. unfold set_elements. destruct Hc as [Hc|Hc]; rewrite Hc.
  - apply good_store; [done|by unfold fits; rewrite Hc|done|done|]. by intros Hb zs [[= <-]|?]; [apply Hn|].
  - apply good_store; [done|by unfold fits; rewrite Hc|done|done|]. by intros Hb zs [?|[= <-]]; [|apply Hn].
Qed.
Lemma held_element_good nils h x xs (ys : list (option loc)) : good nils h -> (exists c, collection_at h c xs) -> held_element nils h x ->
  (forall y, y ∈ ys -> y = x \/ y ∈ xs) -> (forall d, Some d ∈ ys -> dataset_at h d) /\ (nils = false -> None ∉ ys).
Proof.
  intros ((_ & H2 & _) & _ & G3) [c Hc] Hx Hys. split.
  - intros d Hd. destruct (Hys _ Hd) as [<-|Hd']; [done|by eapply H2].
  - intros Hb Hin. destruct (Hys _ Hin) as [<-|Hin']; [simpl in Hx; congruence|]. by apply (G3 Hb c xs Hc).
Qed.
Lemma good_counted nils h h' : good nils h -> counted h h' -> good nils h'.
Proof.
  intros ((H1 & H2 & H3) & G2 & G3) Hc. split; [split_and!|split].
  - intros l d E. apply (counted_chain h h' l Hc). pose proof (counted_kind h h' l Hc) as Hk.
    destruct (h !! l) as [[m| | |]|] eqn:Ex; try congruence; [destruct Hk as [m' Hk]; congruence|]. apply (H1 l d). congruence.
  - intros c xs d Hx Hd. apply (counted_dataset h h'); [done|]. eapply H2; [|done]. by apply (counted_collection h h').
  - intros x y Hxy. apply (counted_child h h' x y Hc) in Hxy. apply H3 in Hxy as [o Ho]. pose proof (counted_kind h h' y Hc) as Hk.
    rewrite Ho in Hk. destruct o; try (by eexists). destruct Hk as [m' Hk]. by eexists.
  - intros x E. apply (G2 x). pose proof (counted_kind h h' x Hc) as Hk.
    destruct (h !! x) as [[m| | |]|] eqn:Ex; try congruence. destruct Hk as [m' Hk]; congruence.
  - intros Hb c xs E. apply (G3 Hb c). by apply (counted_collection h h').
Qed.
Lemma call_good nils h h' : good nils h -> call nils h h' -> good nils h'.
Proof.
  intros Hg Hcall. pose proof Hg as ((H1 & H2 & H3) & G2 & G3).
  assert (Hch : forall d, dataset_at h d -> chain h d).
  { intros d [[m E]|[[w|] E]]; [by eapply chain_ds|by eapply H1|by edestruct G2]. }
  destruct Hcall as [l Hl|l d Hl Hd|l Hl|l Hl|n l k v h' Hv E|n l k h' E|c x h' Hx E|c x h' Hx E|c x h' E|c x h' E|ord n l h' l' E|m h' d Hm E|ms h' c Hm E|
    F ord langs th n t d h' out Hth E].
  - apply good_store; [done|by apply fits_fresh|by intros k d; rewrite lookup_empty|done|by intros _ xs [?|?]].
  - apply good_store; [done|by apply fits_fresh|by apply Hch|done|by intros _ xs [?|?]].
  - apply good_store; [done|by apply fits_fresh|by intros d ?%elem_of_nil|done|]. by intros _ xs [[= <-]|?]; [intros ?%elem_of_nil|].
  - apply good_store; [done|by apply fits_fresh|by intros d ?%elem_of_nil|done|]. by intros _ xs [?|[= <-]]; [|intros ?%elem_of_nil].
  - apply on_dataset_inv in E as (l' & m & El & [= <-]). apply good_store; [done|by unfold fits; rewrite El| |done|by intros _ xs [?|?]].
    intros k' d. destruct (decide (k' = k)) as [->|N].
    + rewrite lookup_insert. intros [= ->]. by apply Hv.
    + rewrite lookup_insert_ne by done. intros Hd. eapply H3. by eapply child_ds.
  - apply on_dataset_inv in E as (l' & m & El & [= <-]). apply good_store; [done|by unfold fits; rewrite El| |done|by intros _ xs [?|?]].
    intros k' d Hd. apply lookup_delete_Some in Hd as [_ Hd]. eapply H3. by eapply child_ds.
  - unfold cpush in E. destruct (elements h c) as [xs|] eqn:Ex; [|done]. injection E as <-. apply elements_inv in Ex.
    destruct (held_element_good nils h x xs (xs ++ [x]) Hg ltac:(by exists c) Hx) as [P1 P2].
    { intros y [Hy|Hy]%elem_of_app; [by right|]. apply elem_of_list_singleton in Hy. by left. }
    by eapply set_elements_good.
  - unfold cunshift in E. destruct (elements h c) as [xs|] eqn:Ex; [|done]. injection E as <-. apply elements_inv in Ex.
    destruct (held_element_good nils h x xs ([x] ++ xs) Hg ltac:(by exists c) Hx) as [P1 P2].
    { intros y [Hy|Hy]%elem_of_app; [apply elem_of_list_singleton in Hy; by left|by right]. }
    by eapply set_elements_good.
  - unfold cpop in E. destruct (elements h c) as [xs|] eqn:Ex; [|done]. apply elements_inv in Ex.
    destruct (bool_decide _); [done|]. destruct (xs !! _) as [y|]; [|done]. injection E as <- _.
    assert (S : forall y, y ∈ take (Z.to_nat (Z.of_nat (length xs) - 1)) xs -> y ∈ xs).
    { intros z Hz. apply elem_of_take in Hz as (i & Hi & _). by eapply elem_of_list_lookup_2. }
    eapply set_elements_good; [done|done| |].
    + intros d Hd. eapply H2; [done|by apply S].
    + intros Hb Hin. by apply (G3 Hb c xs Ex), S.
  - unfold cshift in E. destruct (elements h c) as [xs|] eqn:Ex; [|done]. apply elements_inv in Ex.
    destruct (xs !! _) as [y|]; [|done]. injection E as <- _.
    assert (S : forall y, y ∈ drop 1 xs -> y ∈ xs).
    { intros z Hz. destruct xs; [done|]. by right. }
    eapply set_elements_good; [done|done| |].
    + intros d Hd. eapply H2; [done|by apply S].
    + intros Hb Hin. by apply (G3 Hb c xs Ex), S.
  - destruct (clone_goes ord n h l h' l' ltac:(done) E) as (_ & G & N & _). by eapply good_goes.
  - unfold new_dataset in E. destruct (new_value_makes h (GMap m) Hm h h' (VRef d) ltac:(done) ltac:(done)) as (_ & G & N & _).
    { cbn [new_value]. by rewrite E. }
    by eapply good_goes.
  - unfold new_collection, alloc in E. destruct (new_value_makes h (GMaps ms) Hm h h' (VRef c) ltac:(done) ltac:(done)) as (_ & G & N & _).
    { cbn [new_value]. unfold alloc. destruct (new_maps _ _ _ _) as [h3 ys]. by injection E as <- <-. }
    by eapply good_goes.
  - eapply good_counted; [done|]. by eapply execute_counted.
Qed.
Lemma built_good nils h : built nils h -> good nils h.
Proof.
  unfold built. apply (rtc_ind_r (fun h => good nils h)).
  - split; [split_and!|split].
    + intros l d. by rewrite lookup_empty.
    + intros c xs d [E|E]; by rewrite lookup_empty in E.
    + intros x y Hxy. inversion Hxy as [l m k d E|l d E|l xs d E]; [by rewrite lookup_empty in E..|]. destruct E as [E|E]; by rewrite lookup_empty in E.
    + intros x. by rewrite lookup_empty.
    + intros _ c xs [E|E]; by rewrite lookup_empty in E.
  - intros h1 h2 _ Hc Hg. by eapply call_good.
Qed.
Lemma built_wf nils h : built nils h -> wf h /\ no_dangling h.
Proof.
  intros ((H1 & H2 & H3) & G2 & _)%built_good. split; [|done]. split; [|done]. intros l [d|] E; [by eapply H1|by edestruct G2].
Qed.
Lemma built_complete h l : built false h -> is_Some (h !! l) -> complete h l.
Proof.
  intros ((H1 & H2 & H3) & G2 & G3)%built_good Hl x Hx. split_and!; [|done|by intros xs; apply G3].
  revert Hx. apply (rtc_ind_r (fun x => exists o, h !! x = Some o)); [exact Hl|]. intros y z _ Hyz _. by apply H3 in Hyz.
Qed.
Lemma built_get nils h l key n : built nils h -> dataset_at h l ->
  dget n h l key <> Panic /\ exists n0 r, forall n', (n0 <= n')%nat -> dget n' h l key = Ok r.
Proof. intros [Hw _]%built_wf Hl. split; [by apply get_no_panic|]. by apply get_total. Qed.
Lemma built_clone h l ord : built false h -> is_Some (h !! l) -> order_ok ord ->
  (forall n, clone ord n h l <> Panic) /\ ((exists n r, clone ord n h l = Ok r) <-> acyclic h l) /\
  (forall n h' l', clone ord n h l = Ok (h', l') -> built false h').
Proof.
  intros Hb Hl Ho. pose proof (built_complete h l Hb Hl) as Hc. split_and!.
  - intros n. by apply (clone_no_panic ord Ho n h l h).
  - split.
    + intros (n & r & E). by eapply clone_acyclic.
    + intros Ha. destruct (clone_copies ord h l Ho Ha Hc) as (n & h' & l' & _ & E). eauto.
  - intros n h' l' E. eapply rtc_r; [exact Hb|]. by eapply call_clone.
Qed.
(** A nil element makes Clone fail. *)
Lemma clone_nil ord n h c xs r : collection_at h c xs -> None ∈ xs -> clone ord n h c <> Ok r.
Proof.
  intros Hc Hin. destruct n as [|n]; [done|]. cbn [clone]. unfold alloc.
  assert (P : forall h ys r, clone_elements (clone ord n) xs h ys <> Ok r).
  { clear Hc. induction xs as [|[y|] xs IH]; intros h0 ys r0; cbn [clone_elements]; [by apply elem_of_nil in Hin| |done].
    apply elem_of_cons in Hin as [Hin|Hin]; [done|]. destruct (clone ord n h0 y) as [[h1 y']| |]; [cbn [obind]; by apply IH|done|done]. }
  destruct Hc as [-> | ->].
  - specialize (P (<[fresh (dom h):=OColl []]> h) []). destruct (clone_elements _ _ _ _); [by edestruct P|done|done].
  - specialize (P (<[fresh (dom h):=OCollTS []]> h) []). destruct (clone_elements _ _ _ _); [by edestruct P|done|done].
Qed.
