(** * Map laws and typed getters. *)
From Coq Require Import SpecFloat.
From Verif Require Import GoBase GoStrings GoStringsProofs DatasetModel DatasetSpec DatasetProofs.
Local Open Scope Z_scope.

(** A call that takes fuel answers [a]. *)
Definition returns {A} (f : nat -> outcome A) (a : A) : Prop := exists n, f n = Ok a.
(** Get(key) on object [l] answers [r]. *)
Definition gets (h : heap) (l : loc) (key : bytes) (r : option value) : Prop := returns (fun n => dget n h l key) r.

Lemma gets_path h l key r : gets h l key r <-> at_path h l (split_on gt key) r.
Proof. apply get_paths. Qed.
Lemma gets_det h l key r r' : gets h l key r -> gets h l key r' -> r = r'.
Proof. intros [n Hn] [n' Hn']. assert (Ok r = Ok r') as [= ->] by (by eapply (dget_unique n n')). done. Qed.

(** ** The dataset inside the wrappers *)
Inductive inside (h : heap) : loc -> loc -> gmap bytes value -> Prop :=
| in_ds l m : h !! l = Some (ODs m) -> inside h l l m
| in_ts l d t m : h !! l = Some (OTs (Some d)) -> inside h d t m -> inside h l t m.
Lemma inside_at h l t m : inside h l t m -> h !! t = Some (ODs m).
Proof. by induction 1. Qed.
Lemma inside_det h l t m t' m' : inside h l t m -> inside h l t' m' -> t = t' /\ m = m'.
Proof. induction 1 as [l m H|l d t m H _ IH]; inversion 1; subst; simplify_eq; eauto. Qed.
Lemma inside_chain h l : chain h l <-> exists t m, inside h l t m.
Proof.
  split.
  - induction 1 as [l m H|l d H _ (t & m & IH)]; [exists l, m; by apply in_ds|exists t, m; by eapply in_ts].
  - intros (t & m & H). induction H as [l m H|l d t m H _ IH]; [by eapply chain_ds|by eapply chain_ts].
Qed.
Lemma inside_same h t m m' l x : h !! t = Some (ODs m) -> inside h l x m' -> x <> t ->
  forall m2, inside (<[t := ODs m2]> h) l x m'.
Proof.
  intros Ht Hi Hne m2. induction Hi as [l m' H|l d x m' H _ IH].
  - apply in_ds. by rewrite lookup_insert_ne.
  - eapply in_ts; [|by apply IH]. rewrite lookup_insert_ne; [done|]. congruence.
Qed.
Lemma inside_changed h l t m m2 : inside h l t m -> inside (<[t := ODs m2]> h) l t m2.
Proof.
  intros Hi. pose proof (inside_at _ _ _ _ Hi) as Ht. induction Hi as [l m H|l d x m H _ IH].
  - apply in_ds. by rewrite lookup_insert.
  - eapply in_ts; [|by apply IH]. rewrite lookup_insert_ne; [done|]. congruence.
Qed.

Lemma on_dataset_ok {A} n h l (f : loc -> gmap bytes value -> outcome A) a :
  on_dataset n h l f = Ok a -> exists t m, inside h l t m /\ f t m = Ok a.
Proof.
  revert l. induction n as [|n IH]; intros l; simpl; [done|]. destruct (h !! l) as [[m|[d|]|xs|xs]|] eqn:E; try done.
  - intros H. exists l, m. split; [by apply in_ds|done].
  - intros H. apply IH in H as (t & m & Hi & H). exists t, m. split; [by eapply in_ts|done].
Qed.
Lemma on_dataset_inside {A} h l t m : inside h l t m ->
  exists n, forall n', (n <= n')%nat -> forall f : loc -> gmap bytes value -> outcome A, on_dataset n' h l f = f t m.
Proof.
  induction 1 as [l m H|l d t m H _ (n & IH)].
  - exists 1%nat. intros [|n'] Hle f; [lia|]. simpl. by rewrite H.
  - exists (S n). intros [|n'] Hle f; [lia|]. simpl. rewrite H. apply IH. lia.
Qed.
Lemma inside_path h l t m p r : inside h l t m -> at_path h l p r <-> at_path h t p r.
Proof.
  induction 1 as [l m H|l d t m H _ IH]; [done|]. rewrite <-IH. split; [|intros ?; by eapply ap_wrap].
  inversion 1; simplify_eq. done.
Qed.
Lemma inside_gets h l t m key r : inside h l t m -> gets h l key r <-> gets h t key r.
Proof. intros Hi. rewrite !gets_path. by eapply inside_path. Qed.
Lemma path_inside h l p r : at_path h l p r -> exists t m, inside h l t m.
Proof. induction 1 as [l d p r H _ (t & m & IH)| | | | | | | ]; [exists t, m; by eapply in_ts|..]; eexists _, _; by apply in_ds. Qed.
Lemma gets_inside h l key r : gets h l key r -> exists t m, inside h l t m.
Proof. rewrite gets_path. apply path_inside. Qed.
Lemma gets_simple h l t m k r : inside h l t m -> gt ∉ k -> gets h l k r <-> r = m !! k.
Proof.
  intros Hi Hk. rewrite gets_path, (inside_path _ _ _ _ _ _ Hi), split_on_none by done.
  pose proof (inside_at _ _ _ _ Hi) as Ht. split; [|intros ->; by apply ap_last].
  inversion 1; by simplify_eq.
Qed.
Lemma dset_inside n h l k v h' : dset n h l k v = Ok h' ->
  exists t m, inside h l t m /\ h' = <[t := ODs (<[k := v]> m)]> h.
Proof. intros H. apply on_dataset_ok in H as (t & m & Hi & [= <-]). eauto. Qed.
Lemma ddel_inside n h l k h' : ddel n h l k = Ok h' ->
  exists t m, inside h l t m /\ h' = <[t := ODs (delete k m)]> h.
Proof. intros H. apply on_dataset_ok in H as (t & m & Hi & [= <-]). eauto. Qed.

(** ** C21 *)
Lemma set_get n h l k v h' : dset n h l k v = Ok h' -> gt ∉ k -> gets h' l k (Some v).
Proof.
  intros (t & m & Hi & ->)%dset_inside Hk. apply (inside_changed _ _ _ _ (<[k := v]> m)) in Hi.
  rewrite (gets_simple _ _ _ _ _ _ Hi Hk). by rewrite lookup_insert.
Qed.
Lemma del_get n h l k h' : ddel n h l k = Ok h' -> gt ∉ k -> gets h' l k None.
Proof.
  intros (t & m & Hi & ->)%ddel_inside Hk. apply (inside_changed _ _ _ _ (delete k m)) in Hi.
  rewrite (gets_simple _ _ _ _ _ _ Hi Hk). by rewrite lookup_delete.
Qed.
(** Whatever the key written, on whatever object, other simple keys keep their answer. *)
Lemma change_other h l t m m2 x k k' r : inside h l t m -> h !! t = Some (ODs m) ->
  (forall j, j <> k -> m2 !! j = m !! j) -> k' <> k -> gt ∉ k' ->
  gets (<[t := ODs m2]> h) x k' r <-> gets h x k' r.
Proof.
  intros Hi Ht Hm Hne Hk'. split; intros Hg.
  - pose proof (gets_inside _ _ _ _ Hg) as (t' & m' & Hx). destruct (decide (t' = t)) as [->|Hnt].
    + pose proof (inside_at _ _ _ _ Hx) as Ht'. rewrite lookup_insert in Ht'. injection Ht' as <-.
      rewrite (gets_simple _ _ _ _ _ _ Hx Hk') in Hg. subst r. apply (inside_changed _ _ _ _ m) in Hx.
      rewrite insert_insert, insert_id in Hx by done. rewrite (gets_simple _ _ _ _ _ _ Hx Hk'). by apply Hm.
    + rewrite (gets_simple _ _ _ _ _ _ Hx Hk') in Hg. subst r.
      assert (Hback : inside h x t' m').
      { apply (inside_same _ t m2) with (m2 := m) in Hx; [|by rewrite lookup_insert|done].
        by rewrite insert_insert, insert_id in Hx. }
      by rewrite (gets_simple _ _ _ _ _ _ Hback Hk').
  - pose proof (gets_inside _ _ _ _ Hg) as (t' & m' & Hx). rewrite (gets_simple _ _ _ _ _ _ Hx Hk') in Hg. subst r.
    destruct (decide (t' = t)) as [->|Hnt].
    + pose proof (inside_at _ _ _ _ Hx) as Ht'. simplify_eq. apply (inside_changed _ _ _ _ m2) in Hx.
      rewrite (gets_simple _ _ _ _ _ _ Hx Hk'). symmetry. by apply Hm.
    + apply (inside_same _ t m) with (m2 := m2) in Hx; [|done..]. by rewrite (gets_simple _ _ _ _ _ _ Hx Hk').
Qed.
Lemma set_other n h l k v h' x k' r : dset n h l k v = Ok h' -> k' <> k -> gt ∉ k' -> gets h' x k' r <-> gets h x k' r.
Proof.
  intros (t & m & Hi & ->)%dset_inside Hne Hk'. eapply change_other; [done|by eapply inside_at| |done..].
  intros j Hj. by rewrite lookup_insert_ne.
Qed.
Lemma del_other n h l k h' x k' r : ddel n h l k = Ok h' -> k' <> k -> gt ∉ k' -> gets h' x k' r <-> gets h x k' r.
Proof.
  intros (t & m & Hi & ->)%ddel_inside Hne Hk'. eapply change_other; [done|by eapply inside_at| |done..].
  intros j Hj. by rewrite lookup_delete_ne.
Qed.
Lemma set_twice n n' h l k v w h1 h2 : dset n h l k v = Ok h1 -> dset n' h1 l k w = Ok h2 -> returns (fun n => dset n h l k w) h2.
Proof.
  intros (t & m & Hi & ->)%dset_inside (t' & m' & Hi' & ->)%dset_inside.
  destruct (inside_det _ _ _ _ _ _ Hi' (inside_changed _ _ _ _ _ Hi)) as [-> ->].
  destruct (on_dataset_inside (A := heap) _ _ _ _ Hi) as [N HN]. exists N. unfold dset. rewrite HN by done.
  by rewrite !insert_insert.
Qed.
Lemma del_twice n n' h l k h1 h2 : ddel n h l k = Ok h1 -> ddel n' h1 l k = Ok h2 -> h2 = h1.
Proof.
  intros (t & m & Hi & ->)%ddel_inside (t' & m' & Hi' & ->)%ddel_inside.
  destruct (inside_det _ _ _ _ _ _ Hi' (inside_changed _ _ _ _ _ Hi)) as [-> ->].
  by rewrite insert_insert, delete_idemp.
Qed.
Lemma set_del n n' h l k v h1 h2 : dset n h l k v = Ok h1 -> ddel n' h1 l k = Ok h2 -> returns (fun n => ddel n h l k) h2.
Proof.
  intros (t & m & Hi & ->)%dset_inside (t' & m' & Hi' & ->)%ddel_inside.
  destruct (inside_det _ _ _ _ _ _ Hi' (inside_changed _ _ _ _ _ Hi)) as [-> ->].
  destruct (on_dataset_inside (A := heap) _ _ _ _ Hi) as [N HN]. exists N. unfold ddel. rewrite HN by done.
  by rewrite insert_insert, delete_insert_delete.
Qed.
Lemma set_defined h l k v : wf h -> dataset_at h l -> exists h', returns (fun n => dset n h l k v) h'.
Proof.
  intros Hwf Hl. pose proof (wf_chain _ _ Hwf Hl) as (t & m & Hi)%inside_chain.
  destruct (on_dataset_inside (A := heap) _ _ _ _ Hi) as [N HN]. eexists _, N. unfold dset. by rewrite HN.
Qed.
Lemma del_defined h l k : wf h -> dataset_at h l -> exists h', returns (fun n => ddel n h l k) h'.
Proof.
  intros Hwf Hl. pose proof (wf_chain _ _ Hwf Hl) as (t & m & Hi)%inside_chain.
  destruct (on_dataset_inside (A := heap) _ _ _ _ Hi) as [N HN]. eexists _, N. unfold ddel. by rewrite HN.
Qed.

(** ** C22 *)
(** Two heaps that differ only in the entry [k] of one XDataset. *)
Definition differ_at (t : loc) (k : bytes) (h h' : heap) : Prop :=
  exists m m', h !! t = Some (ODs m) /\ h' !! t = Some (ODs m') /\ (forall x, x <> t -> h' !! x = h !! x) /\
    (forall j, j <> k -> m' !! j = m !! j).
Lemma differ_kinds t k h h' : differ_at t k h h' ->
  (forall d, dataset_at h d <-> dataset_at h' d) /\ (forall c xs, collection_at h c xs <-> collection_at h' c xs) /\
  (forall l d, h !! l = Some (OTs d) <-> h' !! l = Some (OTs d)).
Proof.
  intros (m & m' & Ht & Ht' & Hx & _). split_and!.
  - intros d. unfold dataset_at. destruct (decide (d = t)) as [->|Hne]; [|by rewrite Hx]. split; intros _; eauto.
  - intros c xs. unfold collection_at. destruct (decide (c = t)) as [->|Hne]; [|by rewrite Hx]. rewrite Ht, Ht'. naive_solver.
  - intros l d. destruct (decide (l = t)) as [->|Hne]; [|by rewrite Hx]. rewrite Ht, Ht'. naive_solver.
Qed.
Lemma differ_plain t k h h' v : differ_at t k h h' -> plain h v <-> plain h' v.
Proof.
  intros (Hd & Hc & _)%differ_kinds. unfold plain. split; intros [H1 H2]; split.
  - intros d E H. by apply (H1 d E), Hd.
  - intros c xs E H. by apply (H2 c xs E), Hc.
  - intros d E H. by apply (H1 d E), Hd.
  - intros c xs E H. by apply (H2 c xs E), Hc.
Qed.
Lemma differ_sym t k h h' : differ_at t k h h' -> differ_at t k h' h.
Proof.
  intros (m & m' & Ht & Ht' & Hx & Hk). exists m', m. split_and!; try done.
  - intros x Hne. symmetry. by apply Hx.
  - intros j Hne. symmetry. by apply Hk.
Qed.
Lemma differ_map t k h h' l m : differ_at t k h h' -> h !! l = Some (ODs m) ->
  exists m', h' !! l = Some (ODs m') /\ forall j, j <> k -> m' !! j = m !! j.
Proof.
  intros (m1 & m' & Ht & Ht' & Hx & Hk) Hl. destruct (decide (l = t)) as [->|Hne].
  - simplify_eq. eauto.
  - exists m. rewrite Hx by done. eauto.
Qed.
Lemma gt_in_key k p : split_on gt k = p -> (2 <= length p)%nat -> gt ∈ k.
Proof.
  intros H Hl. destruct (decide (gt ∈ k)) as [|Hn]; [done|]. rewrite split_on_none in H by done. subst. simpl in Hl. lia.
Qed.
Lemma differ_path t k h h' : differ_at t k h h' -> forall l p r, at_path h l p r -> Forall (fun w => gt ∉ w) p ->
  (length p < length (split_on gt k))%nat -> at_path h' l p r.
Proof.
  intros Hd. destruct (differ_kinds _ _ _ _ Hd) as (Kd & Kc & Kt).
  assert (Hsimple : forall j, gt ∉ j -> (1 < length (split_on gt k))%nat -> j <> k).
  { intros j Hj Hl ->. rewrite split_on_none in Hl by done. simpl in Hl. lia. }
  induction 1 as [l d p r Hl _ IH|l m j Hl|l m j p Hl Hk Hp|l m j d p r Hl Hk Hds Hp _ IH|l m j c xs s p Hl Hk Hc Hi
    |l m j c xs s i d Hl Hk Hc Hs Hx|l m j c xs s i d p r Hl Hk Hc Hs Hx Hp _ IH|l m j p v Hl Hk Hv Hp]; intros Hf Hlen.
  - eapply ap_wrap; [by apply Kt|]. by apply IH.
  - destruct (differ_map _ _ _ _ _ _ Hd Hl) as (m' & Hm' & E). apply Forall_cons in Hf as [Hj _]. simpl in Hlen.
    rewrite <-E by (apply Hsimple; [done|lia]). by apply ap_last.
  - destruct (differ_map _ _ _ _ _ _ Hd Hl) as (m' & Hm' & E). apply Forall_cons in Hf as [Hj _]. simpl in Hlen.
    eapply ap_missing; [done| |done]. rewrite E; [done|]. apply Hsimple; [done|lia].
  - destruct (differ_map _ _ _ _ _ _ Hd Hl) as (m' & Hm' & E). apply Forall_cons in Hf as [Hj Hf]. simpl in Hlen.
    eapply ap_dataset; [done| |by apply Kd|done|apply IH; [done|lia]]. rewrite E; [done|]. apply Hsimple; [done|lia].
  - destruct (differ_map _ _ _ _ _ _ Hd Hl) as (m' & Hm' & E). apply Forall_cons in Hf as [Hj Hf]. simpl in Hlen.
    eapply ap_no_index; [done| |by apply Kc|done]. rewrite E; [done|]. apply Hsimple; [done|lia].
  - destruct (differ_map _ _ _ _ _ _ Hd Hl) as (m' & Hm' & E). apply Forall_cons in Hf as [Hj Hf]. simpl in Hlen.
    eapply ap_element; [done| |by apply Kc|done|done]. rewrite E; [done|]. apply Hsimple; [done|lia].
  - destruct (differ_map _ _ _ _ _ _ Hd Hl) as (m' & Hm' & E). apply Forall_cons in Hf as [Hj Hf]. simpl in Hlen.
    apply Forall_cons in Hf as [_ Hf].
    eapply ap_in_element; [done| |by apply Kc|done|done|done|apply IH; [done|lia]]. rewrite E; [done|]. apply Hsimple; [done|lia].
  - destruct (differ_map _ _ _ _ _ _ Hd Hl) as (m' & Hm' & E). pose proof Hf as [Hj Hf']%Forall_cons. simpl in Hlen.
    rewrite <-E.
    + eapply ap_literal; [done| |by apply (differ_plain _ _ _ _ _ Hd)|done]. rewrite E; [done|]. apply Hsimple; [done|lia].
    + rewrite <-join_concat. intros Ek. rewrite <-Ek, split_join in Hlen by done. simpl in Hlen. lia.
Qed.
(** The path of a key with '>' that is not looked up literally. *)
Lemma differ_own_path t k h h' l t0 m0 x0 rest : differ_at t k h h' -> split_on gt k = x0 :: rest -> rest <> [] ->
  inside h l t0 m0 -> (forall w, m0 !! x0 = Some w -> ~ plain h w) -> forall r,
  at_path h l (x0 :: rest) r -> at_path h' l (x0 :: rest) r.
Proof.
  intros Hd Hs Hr Hi Hnp r. destruct (differ_kinds _ _ _ _ Hd) as (Kd & Kc & Kt).
  assert (Hlen : length (split_on gt k) = S (length rest)) by (by rewrite Hs).
  assert (Hp : Forall (fun w => gt ∉ w) (x0 :: rest)) by (rewrite <-Hs; apply split_on_pieces).
  assert (Hx0 : x0 <> k).
  { intros ->. apply Forall_cons in Hp as [Hp _]. rewrite split_on_none in Hs by done. by simplify_eq. }
  assert (Hi' : exists m1, inside h' l t0 m1 /\ forall j, j <> k -> m1 !! j = m0 !! j).
  { clear Hnp. induction Hi as [l m0 Hl|l d t0 m0 Hl _ (m1 & IH & E)].
    - destruct (differ_map _ _ _ _ _ _ Hd Hl) as (m1 & Hm1 & E). exists m1. split; [by apply in_ds|done].
    - exists m1. split; [|done]. eapply in_ts; [by apply Kt|done]. }
  destruct Hi' as (m1 & Hi' & E). rewrite (inside_path _ _ _ _ _ _ Hi), (inside_path _ _ _ _ _ _ Hi').
  pose proof (inside_at _ _ _ _ Hi) as Ht0. pose proof (inside_at _ _ _ _ Hi') as Ht1. apply Forall_cons in Hp as [_ Hp].
  inversion 1 as [? ? ? ? Hl|? m j Hl|? m j p Hl Hk Hpne|? m j d p r' Hl Hk Hds Hpne Hsub|? m j c xs s p Hl Hk Hc Hix
    |? m j c xs s i d Hl Hk Hc Hsd Hx|? m j c xs s i d p r' Hl Hk Hc Hsd Hx Hpne Hsub|? m j p v Hl Hk Hv Hpne]; subst; simplify_eq.
  - eapply ap_missing; [done|by rewrite E|done].
  - eapply ap_dataset; [done|by rewrite E|by apply Kd|done|]. eapply differ_path; [exact Hd|exact Hsub|exact Hp|]. lia.
  - eapply ap_no_index; [done|by rewrite E|by apply Kc|done].
  - eapply ap_element; [done|by rewrite E|by apply Kc|done..].
  - eapply ap_in_element; [done|by rewrite E|by apply Kc|done|done|done|]. apply Forall_cons in Hp as [_ Hp].
    eapply differ_path; [exact Hd|exact Hsub|exact Hp|]. simpl in Hlen. lia.
  - by destruct (Hnp v).
Qed.
Lemma split_first k : gt ∈ k -> exists x0 rest, split_on gt k = x0 :: rest /\ rest <> [] /\ gt ∉ x0.
Proof.
  intros Hk. pose proof (split_on_pieces gt k) as Hp. destruct (split_on gt k) as [|x0 [|x1 rest]] eqn:E.
  - by destruct (split_on_nonempty gt k).
  - assert (length (split_on gt k) = 1)%nat as H%split_on_length by (by rewrite E). done.
  - exists x0, (x1 :: rest). apply Forall_cons in Hp as [? _]. done.
Qed.
(** Exact answer of Get(k) after Set(k,v), for a key with '>'. *)
Lemma set_get_special n h l k v h' : dset n h l k v = Ok h' -> gt ∈ k ->
  forall r, gets h' l k r <->
    ((exists w, gets h l (hd [] (split_on gt k)) (Some w) /\ plain h w) /\ r = Some v) \/
    ((~ exists w, gets h l (hd [] (split_on gt k)) (Some w) /\ plain h w) /\ gets h l k r).
Proof.
  intros (t & m & Hi & ->)%dset_inside Hk r.
  destruct (split_first k Hk) as (x0 & rest & Hs & Hr & Hx0). rewrite Hs. cbn [hd].
  assert (Hd : differ_at t k h (<[t := ODs (<[k := v]> m)]> h)).
  { exists m, (<[k := v]> m). split_and!; [by eapply inside_at|by rewrite lookup_insert|..].
    - intros x Hne. by rewrite lookup_insert_ne.
    - intros j Hne. by rewrite lookup_insert_ne. }
  pose proof (inside_changed _ _ _ _ (<[k := v]> m) Hi) as Hi'.
  assert (Hx0k : x0 <> k) by (intros ->; done).
  assert (Hsim : forall w, gets h l x0 (Some w) <-> m !! x0 = Some w).
  { intros w. rewrite (gets_simple _ _ _ _ _ _ Hi Hx0). split; intros ->; done. }
  rewrite !gets_path, Hs.
  assert (Hcase : (exists w, m !! x0 = Some w /\ plain h w) \/ ~ exists w, m !! x0 = Some w /\ plain h w).
  { destruct (m !! x0) as [w|] eqn:E; [|right; naive_solver]. destruct (plain_or_not h w) as [Hp|[(d & -> & Hp)|(c & xs & -> & Hp)]].
    - left. eauto.
    - right. intros (w & [= <-] & Hpl). by apply (proj1 Hpl d).
    - right. intros (w & [= <-] & Hpl). by apply (proj2 Hpl c xs). }
  destruct Hcase as [(w & Hw & Hpl)|Hno].
  - assert (Hlit : at_path (<[t:=ODs (<[k:=v]> m)]> h) l (x0 :: rest) (Some v)).
    { rewrite (inside_path _ _ _ _ _ _ Hi'). replace (Some v) with (<[k:=v]> m !! (x0 ++ concat (map (cons ">"%char) rest))).
      - eapply ap_literal; [by eapply inside_at|by rewrite lookup_insert_ne|by apply (differ_plain _ _ _ _ _ Hd)|done].
      - rewrite <-join_concat, <-Hs, join_split. by rewrite lookup_insert. }
    split.
    + intros Ha. left. split; [exists w; split; [by apply Hsim|done]|].
      eapply at_path_det; [| |done|done]; [done|]. rewrite <-Hs. apply split_on_pieces.
    + intros [[_ ->]|[Hn _]]; [done|]. destruct Hn. exists w. split; [by apply Hsim|done].
  - assert (Hno' : ~ exists w, gets h l x0 (Some w) /\ plain h w).
    { intros (w & Hw & Hp). apply Hno. exists w. split; [by apply Hsim|done]. }
    assert (forall r, at_path h l (x0 :: rest) r <-> at_path (<[t:=ODs (<[k:=v]> m)]> h) l (x0 :: rest) r) as Heq.
    { intros r'. split.
      - eapply differ_own_path; [done..|]. intros w Hw Hp. apply Hno. eauto.
      - eapply differ_own_path; [by apply differ_sym|done..|]. intros w Hw Hp. apply Hno. exists w.
        rewrite lookup_insert_ne in Hw by done. split; [done|]. by apply (differ_plain _ _ _ _ _ Hd). }
    rewrite <-Heq. split; [intros Ha; right; done|]. intros [[? _]|[_ ?]]; done.
Qed.
(** In particular a fresh dataset never gives it back. *)
Lemma set_get_lost n h l k v h' : dset n h l k v = Ok h' -> gt ∈ k -> gets h l (hd [] (split_on gt k)) None -> gets h' l k None.
Proof.
  intros H Hk Hn. apply (set_get_special _ _ _ _ _ _ H Hk). right. split.
  - intros (w & Hw & _). by pose proof (gets_det _ _ _ _ _ Hn Hw).
  - destruct (split_first k Hk) as (x0 & rest & Hs & Hr & Hx0). rewrite Hs in Hn. rewrite gets_path, Hs. cbn [hd] in Hn.
    destruct (gets_inside _ _ _ _ Hn) as (t & m & Hi). rewrite (inside_path _ _ _ _ _ _ Hi).
    eapply ap_missing; [by eapply inside_at| |done]. symmetry. by apply (gets_simple _ _ _ _ _ _ Hi Hx0).
Qed.
