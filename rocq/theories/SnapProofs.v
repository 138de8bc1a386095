(** * Clone among other goroutines (C122): proofs. *)
From Verif Require Import GoBase DatasetModel DatasetSpec DatasetProofs DatasetProofs2 DatasetProofs3 DatasetProofs4  ParModel ParProofs MeanSpec MeanProofs SnapModel SnapSpec.
Local Open Scope nat_scope.

(** ** Clone that is alone *)
Section Alone.
  Context (ord : heap -> gmap bytes value -> list (bytes * value)) (Hord : order_ok ord) (h : heap).
  Definition copied (l : loc) : Prop := exists n0 t, forall n, n0 <= n -> alone (p_copy ord n l) h = Ok (h, t) /\ unfolds h l t.
  Lemma alone_bind' {A C} (m : act A) (f : A -> act C) g a : alone m h = Ok (g, a) -> alone (abind m f) h = alone (f a) g.
  Proof. revert h. induction m as [b| | |w k IH]; intros h0; cbn; try done; [by intros [= -> ->]|]. apply IH. Qed.
  Lemma copied_entries l : Forall (fun kv => forall r, kv.2 = VRef r -> copied r) l ->
    exists n0 es, forall n, n0 <= n -> alone (p_entries (p_copy ord n) l) h = Ok (h, es) /\ un_entries h l es.
  Proof.
    induction 1 as [|[k v] l Hv _ (n2 & es & IH)].
    - exists 0, []. intros n _. split; [done|constructor].
    - cbn [snd] in Hv. assert (Hc : (exists r, v = VRef r) \/ forall d, v <> VRef d) by (destruct v; eauto; by right).
      destruct Hc as [[r ->]|Hv'].
      + destruct (Hv r eq_refl) as (n1 & t & H1). exists (n1 `max` n2), ((k, t) :: es). intros n Hn.
        destruct (H1 n ltac:(lia)) as [E1 U1]. destruct (IH n ltac:(lia)) as [E2 U2]. split; [|by constructor].
        cbn [p_entries]. erewrite alone_bind' by exact E1. erewrite alone_bind' by exact E2. done.
      + exists n2, ((k, Leaf v) :: es). intros n Hn. destruct (IH n Hn) as [E2 U2]. split; [|by constructor].
        assert (E1 : alone (match v with VRef r => p_copy ord n r | _ => Ret (Leaf v) end) h = Ok (h, Leaf v)) by (destruct v; try done; by destruct (Hv' l0)).
        cbn [p_entries]. erewrite alone_bind' by exact E1. erewrite alone_bind' by exact E2. done.
  Qed.
  Lemma copied_elements xs : Forall (fun x => exists r, x = Some r /\ copied r) xs ->
    exists n0 ts, forall n, n0 <= n -> alone (p_elements (p_copy ord n) xs) h = Ok (h, ts) /\ un_elements h xs ts.
  Proof.
    induction 1 as [|x xs (r & -> & n1 & t & H1) _ (n2 & ts & IH)].
    - exists 0, []. intros n _. split; [done|constructor].
    - exists (n1 `max` n2), (t :: ts). intros n Hn. destruct (H1 n ltac:(lia)) as [E1 U1]. destruct (IH n ltac:(lia)) as [E2 U2]. split; [|by constructor].
      cbn [p_elements]. erewrite alone_bind' by exact E1. erewrite alone_bind' by exact E2. done.
  Qed.
  Lemma unfolds_copied : (forall l t, unfolds h l t -> copied l) /\
    (forall l es, un_entries h l es -> Forall (fun kv => forall r, kv.2 = VRef r -> copied r) l) /\
    (forall xs ts, un_elements h xs ts -> Forall (fun x => exists r, x = Some r /\ copied r) xs).
  Proof.
    apply (unfolds_mutind h (fun l _ => copied l) (fun l _ => Forall (fun kv => forall r, kv.2 = VRef r -> copied r) l) (fun xs _ => Forall (fun x => exists r, x = Some r /\ copied r) xs)).
    - intros l m ents es El Hp _ IH. assert (IH' : Forall (fun kv => forall r, kv.2 = VRef r -> copied r) (ord h m)).
      { rewrite Forall_forall in IH |- *. intros x Hx. apply IH. rewrite Hp. by rewrite <- (Hord h m). }
      destruct (copied_entries _ IH') as (n0 & es' & H0). exists (S n0), (Node es'). intros [|n] Hn; [lia|]. destruct (H0 n ltac:(lia)) as [E U]. split.
      + cbn [p_copy alone]. rewrite El. by erewrite alone_bind' by exact E.
      + eapply un_ds; [exact El|apply Hord|exact U].
    - intros l d t El _ (n0 & t' & H0). exists (S n0), (Wrap t'). intros [|n] Hn; [lia|]. destruct (H0 n ltac:(lia)) as [E U]. split.
      + cbn [p_copy alone]. rewrite El. by erewrite alone_bind' by exact E.
      + by eapply un_ts.
    - intros l b xs ts El _ IH. destruct (copied_elements _ IH) as (n0 & ts' & H0). exists (S n0), (Coll b ts'). intros [|n] Hn; [lia|]. destruct (H0 n ltac:(lia)) as [E U]. split.
      + unfold list_at in El. cbn [p_copy alone]. rewrite El. by destruct b; erewrite alone_bind' by exact E.
      + by eapply un_coll.
    - constructor.
    - intros k v l es Hv _ IH. constructor; [|done]. cbn. intros r ->. by destruct (Hv r).
    - intros k d t l es _ Hd _ IH. constructor; [|done]. cbn. by intros r [= <-].
    - constructor.
    - intros d t xs ts _ Hd _ IH. constructor; [|done]. by exists d.
  Qed.
End Alone.

(** ** What unfolds is finite and complete *)
Lemma list_coll h l b xs : list_at h l b xs -> collection_at h l xs.
Proof. unfold list_at, collection_at. destruct b; auto. Qed.
Lemma coll_eq h l b xs ys : list_at h l b xs -> collection_at h l ys -> ys = xs.
Proof. unfold list_at, collection_at. intros E [E'|E']; rewrite E in E'; destruct b; congruence. Qed.
Lemma unfolds_acyclic h : (forall l t, unfolds h l t -> acyclic h l) /\
  (forall l es, un_entries h l es -> Forall (fun kv => forall r, kv.2 = VRef r -> acyclic h r) l) /\
  (forall xs ts, un_elements h xs ts -> Forall (fun x => exists r, x = Some r /\ acyclic h r) xs).
Proof.
  apply (unfolds_mutind h (fun l _ => acyclic h l) (fun l _ => Forall (fun kv => forall r, kv.2 = VRef r -> acyclic h r) l) (fun xs _ => Forall (fun x => exists r, x = Some r /\ acyclic h r) xs)).
  - intros l m ents es El Hp _ IH. apply Acc_intro. intros y Hy. inversion Hy as [? m' k ? E1 E2|? ? E1|? xs ? Hc _]; subst.
    + rewrite El in E1. injection E1 as <-. rewrite Forall_forall in IH. apply (IH (k, VRef y)); [|done]. rewrite Hp. by apply elem_of_map_to_list.
    + congruence.
    + destruct Hc; congruence.
  - intros l d t El _ IH. apply Acc_intro. intros y Hy. inversion Hy as [? m' k ? E1 E2|? ? E1|? xs ? Hc _]; subst; try congruence; [by rewrite El in E1; injection E1 as <-|].
    destruct Hc; congruence.
  - intros l b xs ts El _ IH. apply Acc_intro. intros y Hy. inversion Hy as [? m' k ? E1 E2|? ? E1|? ys ? Hc Hin]; subst.
    + unfold list_at in El. destruct b; congruence.
    + unfold list_at in El. destruct b; congruence.
    + apply (coll_eq _ _ _ _ _ El) in Hc as ->. rewrite Forall_forall in IH. destruct (IH _ Hin) as (r & [= <-] & Hr). done.
  - constructor.
  - intros k v l es Hv _ IH. constructor; [|done]. cbn. intros r ->. by destruct (Hv r).
  - intros k d t l es _ Hd _ IH. constructor; [|done]. cbn. by intros r [= <-].
  - constructor.
  - intros d t xs ts _ Hd _ IH. constructor; [|done]. by exists d.
Qed.
Definition fine (h : heap) (x : loc) : Prop :=
  (exists o, h !! x = Some o) /\ h !! x <> Some (OTs None) /\ (forall xs, collection_at h x xs -> None ∉ xs).
Lemma complete_from h l : fine h l -> (forall y, child h l y -> complete h y) -> complete h l.
Proof. intros Hf Hc x Hx. inversion Hx as [?|? y ? H1 H2]; subst; [exact Hf|]. by apply (Hc y). Qed.
Lemma unfolds_complete h : (forall l t, unfolds h l t -> complete h l) /\
  (forall l es, un_entries h l es -> Forall (fun kv => forall r, kv.2 = VRef r -> complete h r) l) /\
  (forall xs ts, un_elements h xs ts -> Forall (fun x => exists r, x = Some r /\ complete h r) xs).
Proof.
  apply (unfolds_mutind h (fun l _ => complete h l) (fun l _ => Forall (fun kv => forall r, kv.2 = VRef r -> complete h r) l) (fun xs _ => Forall (fun x => exists r, x = Some r /\ complete h r) xs)).
  - intros l m ents es El Hp _ IH. apply complete_from.
    { split; [eauto|]. split; [congruence|]. intros xs [E|E]; congruence. }
    intros y Hy. inversion Hy as [? m' k ? E1 E2|? ? E1|? xs ? Hc _]; subst.
    + rewrite El in E1. injection E1 as <-. rewrite Forall_forall in IH. apply (IH (k, VRef y)); [|done]. rewrite Hp. by apply elem_of_map_to_list.
    + congruence.
    + destruct Hc; congruence.
  - intros l d t El _ IH. apply complete_from.
    { split; [eauto|]. split; [congruence|]. intros xs [E|E]; congruence. }
    intros y Hy. inversion Hy as [? m' k ? E1 E2|? ? E1|? xs ? Hc _]; subst; try congruence; [by rewrite El in E1; injection E1 as <-|].
    destruct Hc; congruence.
  - intros l b xs ts El _ IH. apply complete_from.
    { split; [eauto|]. split; [unfold list_at in El; destruct b; congruence|]. intros ys Hy. apply (coll_eq _ _ _ _ _ El) in Hy as ->.
      intros Hn. rewrite Forall_forall in IH. by destruct (IH _ Hn) as (r & ? & _). }
    intros y Hy. inversion Hy as [? m' k ? E1 E2|? ? E1|? ys ? Hc Hin]; subst.
    + unfold list_at in El. destruct b; congruence.
    + unfold list_at in El. destruct b; congruence.
    + apply (coll_eq _ _ _ _ _ El) in Hc as ->. rewrite Forall_forall in IH. destruct (IH _ Hin) as (r & [= <-] & Hr). done.
  - constructor.
  - intros k v l es Hv _ IH. constructor; [|done]. cbn. intros r ->. by destruct (Hv r).
  - intros k d t l es _ Hd _ IH. constructor; [|done]. cbn. by intros r [= <-].
  - constructor.
  - intros d t xs ts _ Hd _ IH. constructor; [|done]. by exists d.
Qed.

(** ** Copies unfold to the same *)
Definition in_copy (m' : gmap bytes value) (l : list (bytes * value)) : list (bytes * value) := map (fun kv => (kv.1, default VNil (m' !! kv.1))) l.
Lemma in_copy_perm (m m' : gmap bytes value) l : (forall k, m' !! k = None <-> m !! k = None) -> l ≡ₚ map_to_list m -> in_copy m' l ≡ₚ map_to_list m'.
Proof.
  intros Hk Hp. assert (Hf : (in_copy m' l).*1 = l.*1) by (unfold in_copy; rewrite <- list_fmap_compose; by apply list_fmap_ext; intros ? []).
  assert (Hn : NoDup l.*1) by (rewrite Hp; apply NoDup_fst_map_to_list). apply NoDup_Permutation.
  - apply (NoDup_fmap_1 fst). by rewrite Hf.
  - apply NoDup_map_to_list.
  - intros [k v]. rewrite elem_of_map_to_list. unfold in_copy. rewrite elem_of_list_fmap. split.
    + intros ([k' v'] & [= -> ->] & Hin). cbn [fst]. rewrite Hp in Hin. apply elem_of_map_to_list in Hin. destruct (m' !! k') eqn:E; [done|]. apply Hk in E. congruence.
    + intros E. destruct (m !! k) as [w|] eqn:Em; [|apply Hk in Em; congruence]. exists (k, w). cbn [fst]. rewrite E. split; [done|]. rewrite Hp. by apply elem_of_map_to_list.
Qed.
Lemma copy_unfolds h h' : (forall l t, unfolds h l t -> forall l', copy h h' l l' -> unfolds h' l' t) /\
  (forall l es, un_entries h l es -> forall m', (forall k v, (k, v) ∈ l -> exists v', m' !! k = Some v' /\ copy_value h h' v v') -> un_entries h' (in_copy m' l) es) /\
  (forall xs ts, un_elements h xs ts -> forall ds ds', xs = map Some ds -> length ds = length ds' ->
    (forall i d d', ds !! i = Some d -> ds' !! i = Some d' -> copy h h' d d') -> un_elements h' (map Some ds') ts).
Proof.
  apply (unfolds_mutind h (fun l t => forall l', copy h h' l l' -> unfolds h' l' t)
    (fun l es => forall m', (forall k v, (k, v) ∈ l -> exists v', m' !! k = Some v' /\ copy_value h h' v v') -> un_entries h' (in_copy m' l) es)
    (fun xs ts => forall ds ds', xs = map Some ds -> length ds = length ds' ->
      (forall i d d', ds !! i = Some d -> ds' !! i = Some d' -> copy h h' d d') -> un_elements h' (map Some ds') ts)).
  - intros l m ents es El Hp _ IH l' Hc. inversion Hc as [? ? m0 m' E1 E2 Hk Hv|? ? ? ? E1|? ? ? ? E1|? ? ? ? E1]; subst; rewrite El in E1; try done.
    injection E1 as <-. eapply un_ds; [exact E2|by eapply in_copy_perm|]. apply IH. intros k v Hin. rewrite Hp in Hin. apply elem_of_map_to_list in Hin.
    destruct (m' !! k) as [v'|] eqn:E'; [|apply Hk in E'; congruence]. exists v'. split; [done|]. by eapply Hv.
  - intros l d t El _ IH l' Hc. inversion Hc as [? ? m0 m' E1|? ? ? ? E1 E2 Hd|? ? ? ? E1|? ? ? ? E1]; subst; rewrite El in E1; try done.
    injection E1 as <-. eapply un_ts; [exact E2|]. by apply IH.
  - intros l b xs ts El _ IH l' Hc. unfold list_at in El.
    inversion Hc as [? ? m0 m' E1|? ? ? ? E1|? ? ds ds' E1 E2 Hl Hd|? ? ds ds' E1 E2 Hl Hd]; subst; rewrite El in E1; destruct b; try done; injection E1 as ->.
    + eapply (un_coll _ _ false); [exact E2|]. by eapply IH.
    + eapply (un_coll _ _ true); [exact E2|]. by eapply IH.
  - intros m' _. constructor.
  - intros k v l es Hv _ IH m' Hin. destruct (Hin k v) as (v' & E & Hc); [left|]. unfold in_copy. cbn [map fst]. rewrite E. cbn [default].
    inversion Hc; subst; [|by destruct (Hv d)]. constructor; [done|]. apply IH. intros k0 v0 H0. apply Hin. by right.
  - intros k d t l es _ IHd _ IH m' Hin. destruct (Hin k (VRef d)) as (v' & E & Hc); [left|]. unfold in_copy. cbn [map fst]. rewrite E. cbn [default].
    inversion Hc as [? Hn|? d' Hd]; subst; [by destruct (Hn d)|]. constructor; [by apply IHd|]. apply IH. intros k0 v0 H0. apply Hin. by right.
  - intros [|? ?] [|? ?]; try done. constructor.
  - intros d t xs ts _ IHd _ IH [|d0 ds] [|d0' ds'] [=] Hl Hd; subst; try done. cbn [map]. constructor; [apply IHd; by apply (Hd 0)|]. eapply IH; [done|by injection Hl|].
    intros i d d' H1 H2. by apply (Hd (S i)).
Qed.
Lemma clone_alone ord h l t : order_ok ord -> unfolds h l t -> exists n0, forall n, n0 <= n ->
  (exists t', alone (p_copy ord n l) h = Ok (h, t') /\ unfolds h l t') /\
  exists h' c, clone ord n h l = Ok (h', c) /\ forall t', unfolds h l t' -> unfolds h' c t'.
Proof.
  intros Hord Hu. destruct (proj1 (unfolds_copied ord Hord h) _ _ Hu) as (n1 & t' & H1).
  pose proof (proj1 (unfolds_complete h) _ _ Hu) as Hcm.
  destruct (clone_copies ord h l Hord (proj1 (unfolds_acyclic h) _ _ Hu) Hcm) as (n2 & _ & _ & H2 & _).
  exists (n1 `max` n2). intros n Hn. split; [exists t'; apply H1; lia|]. destruct (H2 n ltac:(lia)) as (h' & c & Hc). exists h', c. split; [done|].
  destruct (clone_deep ord n h l h' c Hord Hcm Hc) as (_ & _ & Hcp & _). intros u Hu'. by eapply (proj1 (copy_unfolds h h')).
Qed.

(** ** Among other goroutines *)
Section Snaps.
  Context (ord : heap -> gmap bytes value -> list (bytes * value)) (Hord : order_ok ord) (H : nat -> heap).
  Lemma entries_snap (f : loc -> act tree) : (forall l i j t, during H (f l) i j t -> snap H i l j t) ->
    forall l i j es, during H (p_entries f l) i j es -> snap_entries H i l j es.
  Proof using.
    intros Hf. induction l as [|[k v] l IH]; intros i j es D; cbn [p_entries] in D.
    - destruct D as [-> <-]. constructor.
    - apply during_bind in D as (i1 & t & D1 & D). apply during_bind in D as (i2 & es' & D2 & [-> <-]). apply IH in D2.
      assert (Hc : (exists r, v = VRef r) \/ forall d, v <> VRef d) by (destruct v; eauto; by right). destruct Hc as [[r ->]|Hv].
      + econstructor; [by apply Hf|done].
      + assert (D1' : during H (Ret (Leaf v)) i i1 t) by (destruct v; try done; by destruct (Hv l0)). destruct D1' as [-> <-]. by constructor.
  Qed.
  Lemma elements_snap (f : loc -> act tree) : (forall l i j t, during H (f l) i j t -> snap H i l j t) ->
    forall xs i j ts, during H (p_elements f xs) i j ts -> snap_elements H i xs j ts.
  Proof using.
    intros Hf. induction xs as [|[r|] xs IH]; intros i j ts D; cbn [p_elements] in D; [|..|done].
    - destruct D as [-> <-]. constructor.
    - apply during_bind in D as (i1 & t & D1 & D). apply during_bind in D as (i2 & ts' & D2 & [-> <-]). econstructor; [by apply Hf|by apply IH].
  Qed.
  Lemma copy_snap n : forall l i j t, during H (p_copy ord n l) i j t -> snap H i l j t.
  Proof using Hord.
    induction n as [|n IH]; intros l i j t D; [done|]. destruct D as (m & Hm & _ & D). destruct (H m !! l) as [[mp|[d|]|xs|xs]|] eqn:E; try done.
    - apply during_bind in D as (i1 & es & D & [-> <-]). eapply sn_ds; [exact Hm|exact E|apply Hord|]. by eapply entries_snap.
    - apply during_bind in D as (i1 & es & D & [-> <-]). eapply sn_ts; [exact Hm|exact E|]. by apply IH.
    - apply during_bind in D as (i1 & es & D & [-> <-]). eapply (sn_coll _ _ _ _ false); [exact Hm|exact E|]. by eapply elements_snap.
    - apply during_bind in D as (i1 & es & D & [-> <-]). eapply (sn_coll _ _ _ _ true); [exact Hm|exact E|]. by eapply elements_snap.
  Qed.
  Lemma snap_later : (forall i l j t, snap H i l j t -> i < j) /\ (forall i l j es, snap_entries H i l j es -> i <= j) /\ (forall i l j es, snap_elements H i l j es -> i <= j).
  Proof using. apply (snap_mutind H (fun i _ j _ => i < j) (fun i _ j _ => i <= j) (fun i _ j _ => i <= j)); intros; lia. Qed.
  (** Nothing below [l] changes. *)
  Lemma snap_still h T l0 : (forall m x, m <= T -> reach h l0 x -> H m !! x = h !! x) ->
    (forall i l j t, snap H i l j t -> j <= T -> reach h l0 l -> unfolds h l t) /\
    (forall i l j es, snap_entries H i l j es -> j <= T -> (forall k r, (k, VRef r) ∈ l -> reach h l0 r) -> un_entries h l es) /\
    (forall i xs j ts, snap_elements H i xs j ts -> j <= T -> (forall r, Some r ∈ xs -> reach h l0 r) -> un_elements h xs ts).
  Proof using.
    intros Hs. assert (Hstep : forall x y, reach h l0 x -> child h x y -> reach h l0 y) by (intros x y Hx Hy; eapply rtc_r; eassumption).
    destruct snap_later as (L1 & L2 & L3).
    apply (snap_mutind H (fun i l j t => j <= T -> reach h l0 l -> unfolds h l t) (fun i l j es => j <= T -> (forall k r, (k, VRef r) ∈ l -> reach h l0 r) -> un_entries h l es)
      (fun i xs j ts => j <= T -> (forall r, Some r ∈ xs -> reach h l0 r) -> un_elements h xs ts)).
    - intros i m l mp ents es j Hm E Hp Hsn IH Hj Hr. apply L2 in Hsn. rewrite Hs in E by (done || lia). eapply un_ds; [exact E|exact Hp|]. apply IH; [done|].
      intros k r Hin. rewrite Hp in Hin. apply elem_of_map_to_list in Hin. eapply Hstep; [exact Hr|]. by eapply child_ds.
    - intros i m l d t j Hm E Hsn IH Hj Hr. apply L1 in Hsn. rewrite Hs in E by (done || lia). eapply un_ts; [exact E|]. apply IH; [done|]. eapply Hstep; [exact Hr|]. by eapply child_ts.
    - intros i m l b xs ts j Hm E Hsn IH Hj Hr. apply L3 in Hsn. unfold list_at in E. rewrite Hs in E by (done || lia). eapply un_coll; [exact E|]. apply IH; [done|].
      intros r Hin. eapply Hstep; [exact Hr|]. eapply child_coll; [by eapply list_coll|done].
    - intros. constructor.
    - intros i k v l es j Hv _ IH Hj Hr. constructor; [done|]. apply IH; [done|]. intros k' r Hin. eapply Hr. by right.
    - intros i k d t l es i1 j Hd IHd Hl IH Hj Hr. apply L2 in Hl. constructor; [apply IHd; [lia|]; eapply Hr; by left|]. apply IH; [done|]. intros k' r Hin. eapply Hr. by right.
    - intros. constructor.
    - intros i d t xs ts i1 j Hd IHd Hl IH Hj Hr. apply L3 in Hl. constructor; [apply IHd; [lia|]; eapply Hr; by left|]. apply IH; [done|]. intros r Hin. eapply Hr. by right.
  Qed.
  Lemma flat_entries h i l j es : snap_entries H i l j es -> (forall k r, (k, VRef r) ∉ l) -> un_entries h l es.
  Proof using.
    intros Hs. revert i j es Hs. induction l as [|[k v] l IH]; intros i j es Hs Hl; inversion Hs; subst.
    - constructor.
    - constructor; [done|]. eapply IH; [eassumption|]. intros k' r Hin. eapply Hl. by right.
    - edestruct Hl. by left.
  Qed.
End Snaps.

Lemma snap_course ord n l (path : nat -> heap * list (act tree)) T i t : order_ok ord -> course T path ->
  (path 0).2 !! i = Some (p_copy ord n l) -> (path T).2 !! i = Some (Ret t) -> exists j, j <= T /\ snap (fun m => (path m).1) 0 l j t.
Proof.
  intros Hord Hc H0 HT. destruct (course_during path T i t _ 0 Hc HT (Nat.le_0_l _) H0) as (j & Hj & D). exists j. split; [done|]. by eapply copy_snap.
Qed.
Lemma still_course ord n l (path : nat -> heap * list (act tree)) T i t : order_ok ord -> course T path ->
  (path 0).2 !! i = Some (p_copy ord n l) -> (path T).2 !! i = Some (Ret t) ->
  (forall m x, m <= T -> reach (path 0).1 l x -> (path m).1 !! x = (path 0).1 !! x) -> unfolds (path 0).1 l t.
Proof.
  intros Hord Hc H0 HT Hs. destruct (snap_course ord n l path T i t Hord Hc H0 HT) as (j & Hj & Hsn).
  eapply (proj1 (snap_still (fun m => (path m).1) (path 0).1 T l Hs)); [exact Hsn|done|constructor].
Qed.
Lemma flat_snap (H : nat -> heap) T w d j t : snap H 0 w j t -> j <= T ->
  (forall m, m <= T -> H m !! w = Some (OTs (Some d)) /\ exists mp, H m !! d = Some (ODs mp) /\ forall k r, mp !! k <> Some (VRef r)) ->
  exists m, m <= T /\ unfolds (H m) w t.
Proof.
  intros Hsn Hj Hs. destruct (snap_later H) as (L1 & L2 & L3).
  inversion Hsn as [? m ? mp ents es ? Hm E Hp Hes|? m ? d' t' ? Hm E Hd|? m ? b xs ts ? Hm E Hxs]; subst.
  - apply L2 in Hes. destruct (Hs m ltac:(lia)) as [E1 _]. congruence.
  - pose proof (L1 _ _ _ _ Hd). destruct (Hs m ltac:(lia)) as [E1 _]. rewrite E in E1. injection E1 as ->.
    inversion Hd as [? m2 ? mp ents es ? Hm2 E2 Hp Hes|? m2 ? d2 t2 ? Hm2 E2 Hd2|? m2 ? b xs ts ? Hm2 E2 Hxs]; subst.
    + pose proof (L2 _ _ _ _ Hes). exists m2. split; [lia|]. destruct (Hs m2 ltac:(lia)) as (E3 & mp' & E4 & Hn). rewrite E2 in E4. injection E4 as <-.
      eapply un_ts; [exact E3|]. eapply un_ds; [exact E2|exact Hp|]. eapply flat_entries; [exact Hes|]. intros k r Hin. rewrite Hp in Hin. apply elem_of_map_to_list in Hin. by apply (Hn k r).
    + apply L1 in Hd2. destruct (Hs m2 ltac:(lia)) as (_ & mp' & E4 & _). congruence.
    + apply L3 in Hxs. destruct (Hs m2 ltac:(lia)) as (_ & mp' & E4 & _). unfold list_at in E2. destruct b; congruence.
  - apply L3 in Hxs. destruct (Hs m ltac:(lia)) as [E1 _]. unfold list_at in E. destruct b; congruence.
Qed.
Lemma flat_course ord n w d (path : nat -> heap * list (act tree)) T i t : order_ok ord -> course T path ->
  (path 0).2 !! i = Some (p_copy ord n w) -> (path T).2 !! i = Some (Ret t) ->
  (forall m, m <= T -> (path m).1 !! w = Some (OTs (Some d)) /\ exists mp, (path m).1 !! d = Some (ODs mp) /\ forall k r, mp !! k <> Some (VRef r)) ->
  exists m, m <= T /\ unfolds (path m).1 w t.
Proof.
  intros Hord Hc H0 HT Hs. destruct (snap_course ord n w path T i t Hord Hc H0 HT) as (j & Hj & Hsn).
  destruct (flat_snap (fun m => (path m).1) T w d j t Hsn Hj Hs) as (m & Hm & Hu). by exists m.
Qed.
