(** * NewXDataset (C30, C31) and the collections (C33-C35). *)
From Coq Require Import SpecFloat.
From Verif Require Import GoBase GoStrings GoStringsProofs DatasetModel DatasetSpec DatasetProofs DatasetProofs2 DatasetProofs3 DatasetProofs4.
Local Open Scope Z_scope.

(** ** Building *)
Lemma source_at_none m k : source_at m k None <-> k ∉ m.*1.
Proof.
  split.
  - inversion 1 as [? ? Hn|]; subst. intros ([k' g] & Hk & Hin)%elem_of_list_fmap. simpl in Hk. subst k'. by destruct (Hn g).
  - intros Hk. constructor. intros g Hin. destruct Hk. apply elem_of_list_fmap. by exists (k, g).
Qed.
Lemma source_at_some m k g : source_at m k (Some g) <-> (k, g) ∈ m.
Proof. split; [by inversion 1|by constructor]. Qed.

Lemma represents_frame (P Q : loc -> Prop) (h h' : heap) g v : represents P h g v -> (forall x, P x -> Q x) ->
  (forall x o, P x -> h !! x = Some o -> h' !! x = Some o) -> represents Q h' g v.
Proof.
  intros Hr HPQ E. induction Hr as [v|m d mm Hd Hm Hn _ IH|ms c ds Hc Hds Hl _ IH|gs c ds Hc Hds Hl _ IH].
  - constructor.
  - eapply rep_map; [by apply HPQ|by apply E|done|done].
  - eapply rep_maps; [by apply HPQ|by apply E|done|done].
  - eapply rep_list; [by apply HPQ|by apply E|done|done].
Qed.
Definition absent (h : heap) (x : loc) : Prop := h !! x = None.
Lemma represents_grow P h h' g v : represents P h g v -> h ⊆ h' -> represents P h' g v.
Proof. intros Hr Hs. eapply represents_frame; [done|done|]. intros x o _ Hx. by eapply lookup_weaken. Qed.
Lemma represents_older h1 h2 h g v : h2 ⊆ h1 -> represents (absent h1) h g v -> represents (absent h2) h g v.
Proof.
  intros Hs Hr. eapply represents_frame; [done| |done]. unfold absent. intros x Hx. destruct (h2 !! x) eqn:E; [|done].
  by rewrite (lookup_weaken _ _ _ _ E Hs) in Hx.
Qed.
Lemma represents_store h1 h c o g v : represents (absent h1) h g v -> is_Some (h1 !! c) -> represents (absent h1) (<[c := o]> h) g v.
Proof.
  intros Hr [oc Hc]. eapply represents_frame; [done|done|]. unfold absent. intros x ox Hx Hxo.
  rewrite lookup_insert_ne; [done|]. intros ->. congruence.
Qed.

Definition builds (f : heap -> gval -> heap * value) (g : gval) : Prop :=
  forall h h' v, f h g = (h', v) -> h ⊆ h' /\ represents (absent h) h' g v.
Lemma new_entries_built f l : NoDup l.*1 -> (forall k g, (k, g) ∈ l -> builds f g) ->
  forall h1 h m h' m', h1 ⊆ h -> new_entries f l h m = (h', m') ->
  h ⊆ h' /\ (forall k, k ∉ l.*1 -> m' !! k = m !! k) /\
  (forall k g, (k, g) ∈ l -> exists v, m' !! k = Some v /\ represents (absent h1) h' g v).
Proof.
  induction l as [|[k g] l IH]; intros Hnd Hf h1 h m h' m' Hs; simpl.
  { intros [= <- <-]. split_and!; [done|done|]. intros k g H. by apply elem_of_nil in H. }
  apply NoDup_cons in Hnd as [Hk Hnd]. destruct (f h g) as [h2 v] eqn:E. intros He.
  destruct (Hf k g ltac:(by left) h h2 v E) as [Hs2 Hr].
  destruct (IH Hnd ltac:(intros; eapply Hf; by right) h1 h2 _ h' m' ltac:(by etrans) He) as (H1 & H2 & H3). split_and!.
  - by etrans.
  - intros k' [? ?]%not_elem_of_cons. rewrite H2 by done. by rewrite lookup_insert_ne.
  - intros k' g' [[= -> ->]|Hin]%elem_of_cons; [|by apply H3]. exists v. split; [rewrite H2 by done; by rewrite lookup_insert|].
    eapply represents_older; [exact Hs|]. by eapply represents_grow.
Qed.
Lemma new_dataset_built f m h h' d : NoDup m.*1 -> (forall k g, (k, g) ∈ m -> builds f g) ->
  new_dataset_ f h m = (h', d) -> h ⊆ h' /\ represents (absent h) h' (GMap m) (VRef d).
Proof.
  intros Hnd Hf. unfold new_dataset_, alloc. set (c := fresh (dom h)). pose proof (fresh_none h) as Hc. fold c in Hc.
  destruct (new_entries f m _ _) as [h2 mm] eqn:E. intros [= <- <-].
  destruct (new_entries_built f m Hnd Hf (<[c := ODs ∅]> h) _ _ _ _ (reflexivity _) E) as (H1 & H2 & H3).
  split; [by eapply grow_alloc|].
  assert (Hn : forall k, mm !! k = None <-> source_at m k None).
  { intros k. rewrite source_at_none. split; [|intros Hk; by rewrite H2]. intros Hk ([k' g] & Ek & Hin)%elem_of_list_fmap.
    simpl in Ek. subst k'. destruct (H3 _ _ Hin) as (v & Hv & _). congruence. }
  eapply rep_map; [exact Hc|by rewrite lookup_insert|exact Hn|].
  intros k g v Hg%source_at_some Hv. destruct (H3 _ _ Hg) as (v' & Hv' & Hr). assert (v' = v) as -> by congruence.
  eapply represents_older; [apply (sub_alloc h (ODs ∅))|]. apply represents_store; [done|]. fold c. rewrite lookup_insert. by eexists.
Qed.
Lemma new_maps_built f l : (forall m, m ∈ l -> forall h h' d, new_dataset_ f h m = (h', d) -> h ⊆ h' /\ represents (absent h) h' (GMap m) (VRef d)) ->
  forall h1 h xs h' ys, h1 ⊆ h -> new_maps f l h xs = (h', ys) ->
  h ⊆ h' /\ exists ds, ys = xs ++ map Some ds /\ Forall2 (fun m d => represents (absent h1) h' (GMap m) (VRef d)) l ds.
Proof.
  induction l as [|m l IH]; intros Hf h1 h xs h' ys Hs; simpl.
  { intros [= <- <-]. split; [done|]. exists []. split; [by rewrite app_nil_r|constructor]. }
  destruct (new_dataset_ f h m) as [h2 d] eqn:E. intros He.
  destruct (Hf m ltac:(by left) _ _ _ E) as [Hs2 Hr].
  destruct (IH ltac:(intros m0 Hm0; apply Hf; by right) h1 h2 _ h' ys ltac:(by etrans) He) as (H1 & ds & -> & H2).
  split; [by etrans|]. exists (d :: ds). split; [by rewrite <-app_assoc|]. constructor; [|done].
  eapply represents_older; [exact Hs|]. by eapply represents_grow.
Qed.
(** The maps among the elements of an array. *)
Fixpoint maps_of (gs : list gval) : list (list (bytes * gval)) :=
  match gs with [] => [] | GMap m :: gs' => m :: maps_of gs' | _ :: gs' => maps_of gs' end.
Lemma maps_of_length gs : length (maps_of gs) = count_maps gs.
Proof. induction gs as [|[] gs IH]; simpl; try done. by rewrite IH. Qed.
Lemma nth_map_maps gs i m : nth_map gs i m <-> maps_of gs !! i = Some m.
Proof.
  unfold nth_map. revert i. induction gs as [|g gs IH]; intros i.
  { simpl. split; [by intros (j & Hj & _)|done]. }
  destruct g as [v|m'|ms|gs']; simpl.
  2:{ destruct i as [|i]; simpl.
      - split; [|intros [= ->]; by exists 0%nat]. intros (j & Hj & Hi). destruct j as [|j]; [by injection Hj as ->|done].
      - rewrite <-IH. split.
        + intros (j & Hj & Hi). destruct j as [|j]; [done|]. simpl in Hj, Hi. exists j. split; [done|]. congruence.
        + intros (j & Hj & Hi). exists (S j). split; [done|]. simpl. congruence. }
  all: rewrite <-IH; split; [intros (j & Hj & Hi); destruct j as [|j]; [done|]; by exists j|intros (j & Hj & Hi); by exists (S j)].
Qed.
Lemma new_list_maps f l h xs : new_list f l h xs = new_maps f (maps_of l) h xs.
Proof. revert h xs. induction l as [|[] l IH]; intros h xs; simpl; try done. destruct (new_dataset_ f h m). apply IH. Qed.
Lemma maps_of_in gs m : m ∈ maps_of gs <-> GMap m ∈ gs.
Proof.
  induction gs as [|g gs IH]; simpl; [split; intros H; by apply elem_of_nil in H|].
  destruct g as [v|m'|ms|gs']; rewrite !elem_of_cons, ?IH; naive_solver.
Qed.
Lemma builds_map m : builds new_value (GMap m) ->
  forall h h' d, new_dataset_ new_value h m = (h', d) -> h ⊆ h' /\ represents (absent h) h' (GMap m) (VRef d).
Proof. intros Hb h h' d E. apply Hb. cbn [new_value]. by rewrite E. Qed.
Lemma new_collection_built ms h h2 xs o : let c : loc := fresh (dom h) in
  (forall m, m ∈ ms -> builds new_value (GMap m)) -> new_maps new_value ms (<[c := o]> h) [] = (h2, xs) ->
  h ⊆ <[c := OColl xs]> h2 /\ exists ds, xs = map Some ds /\
    Forall2 (fun m d => represents (absent h) (<[c := OColl xs]> h2) (GMap m) (VRef d)) ms ds.
Proof.
  intros c Hms E. destruct (new_maps_built new_value ms) with (h1 := <[c := o]> h) (h := <[c := o]> h) (xs := ([] : list (option loc))) (h' := h2) (ys := xs)
      as (H1 & ds & -> & H2); [|done|done|].
  { intros m Hm. by apply builds_map, Hms. }
  split; [by eapply grow_alloc|]. exists ds. split; [done|]. eapply Forall2_impl; [exact H2|]. intros m d Hr.
  eapply represents_older; [apply (sub_alloc h o)|]. apply represents_store; [done|]. fold c. rewrite lookup_insert. by eexists.
Qed.

Lemma new_value_built g : go_value g -> builds new_value g.
Proof.
  induction 1 as [v|m Hnd _ IH|ms _ IH|gs _ IH]; intros h h' v'; cbn [new_value].
  - intros [= <- <-]. split; [done|constructor].
  - destruct (new_dataset_ new_value h m) as [h2 d] eqn:E. intros [= <- <-]. by eapply new_dataset_built.
  - unfold alloc. destruct (new_maps new_value ms _ _) as [h2 xs] eqn:E. intros [= <- <-].
    destruct (new_collection_built _ _ _ _ _ IH E) as (Hs & ds & -> & H2). split; [done|].
    eapply rep_maps; [apply fresh_none|by rewrite lookup_insert|symmetry; by eapply Forall2_length|].
    intros i m d Hm Hd. by apply (Forall2_lookup_lr _ _ _ _ _ _ H2 Hm Hd).
  - unfold alloc. rewrite new_list_maps. destruct (new_maps new_value _ _ _) as [h2 xs] eqn:E. intros [= <- <-].
    assert (IH' : forall m, m ∈ maps_of gs -> builds new_value (GMap m)) by (intros m Hm; by apply IH, maps_of_in).
    destruct (new_collection_built _ _ _ _ _ IH' E) as (Hs & ds & -> & H2). split; [done|].
    eapply rep_list; [apply fresh_none|by rewrite lookup_insert| |].
    + rewrite <-maps_of_length. symmetry. by eapply Forall2_length.
    + intros i m d Hm%nth_map_maps Hd. by apply (Forall2_lookup_lr _ _ _ _ _ _ H2 Hm Hd).
Qed.

Lemma new_dataset_represents h m h' d : go_value (GMap m) -> new_dataset h m = (h', d) ->
  (forall x o, h !! x = Some o -> h' !! x = Some o) /\ represents (fun x => h !! x = None) h' (GMap m) (VRef d).
Proof.
  intros Hg E. destruct (builds_map m (new_value_built _ Hg) _ _ _ E) as [Hs Hr]. split; [|exact Hr].
  intros x o Hx. by eapply lookup_weaken.
Qed.
Lemma new_collection_represents h l h' c : (forall m, m ∈ l -> go_value (GMap m)) -> new_collection h l = (h', c) ->
  (forall x o, h !! x = Some o -> h' !! x = Some o) /\ represents (fun x => h !! x = None) h' (GMaps l) (VRef c).
Proof.
  intros Hg E. assert (Hb : builds new_value (GMaps l)) by (by apply new_value_built; constructor).
  destruct (Hb h h' (VRef c)) as [Hs Hr].
  - cbn [new_value]. unfold new_collection, alloc in *. destruct (new_maps _ _ _ _). by injection E as <- <-.
  - split; [|exact Hr]. intros x o Hx. by eapply lookup_weaken.
Qed.

(** ** Reading what was built *)
Definition represents_answer (P : loc -> Prop) (h : heap) (g : option gval) (r : option value) : Prop :=
  match g, r with None, None => True | Some g, Some v => represents P h g v | _, _ => False end.
Lemma source_path_nonempty m p g : source_path m p g -> p <> [].
Proof. by destruct 1. Qed.
Lemma represents_path P h m p g : source_path m p g -> forall d, represents P h (GMap m) (VRef d) ->
  exists r, at_path h d p r /\ represents_answer P h g r.
Proof.
  assert (Hget : forall m d, represents P h (GMap m) (VRef d) -> exists mm, h !! d = Some (ODs mm) /\
    (forall k, source_at m k None -> mm !! k = None) /\
    (forall k g, source_at m k (Some g) -> exists v, mm !! k = Some v /\ represents P h g v)).
  { intros m0 d Hr. inversion Hr as [|? ? mm HP Hd Hn Hv| |]; subst. exists mm. split_and!; [done|intros k; apply Hn|].
    intros k g0 Hk. destruct (mm !! k) as [v|] eqn:E; [exists v; split; [done|by eapply Hv]|].
    apply Hn in E. apply source_at_none in E. apply source_at_some in Hk. destruct E. apply elem_of_list_fmap. by exists (k, g0). }
  assert (Hmaps : forall ms v, represents P h (GMaps ms) v -> exists c ds, v = VRef c /\ collection_at h c (map Some ds) /\ length ds = length ms /\
    forall i m d, ms !! i = Some m -> ds !! i = Some d -> represents P h (GMap m) (VRef d)).
  { intros ms v Hr. inversion Hr; subst. unfold collection_at. eauto 10. }
  assert (Hlist : forall gs v, represents P h (GList gs) v -> exists c ds, v = VRef c /\ collection_at h c (map Some ds) /\ length ds = count_maps gs /\
    forall i m d, nth_map gs i m -> ds !! i = Some d -> represents P h (GMap m) (VRef d)).
  { intros gs v Hr. inversion Hr; subst. unfold collection_at. eauto 10. }
  induction 1 as [m k g Hk|m k p Hk Hp|m k m' p g Hk Hs IH|m k ms s i m' Hk Hd Hm|m k ms s i m' p g Hk Hd Hm Hs IH|m k ms s p Hk Hno
    |m k gs s i m' Hk Hd Hm|m k gs s i m' p g Hk Hd Hm Hs IH|m k gs s p Hk Hno]; intros l Hr;
    destruct (Hget _ _ Hr) as (mm & Hl & Hn & Hv).
  - exists (mm !! k). split; [by apply ap_last|]. destruct g as [g|].
    + destruct (Hv _ _ Hk) as (v & -> & ?). done.
    + by rewrite Hn.
  - exists None. split; [|done]. eapply ap_missing; [done|by apply Hn|done].
  - destruct (Hv _ _ Hk) as (v & Hkv & Hrv). inversion Hrv as [|? d' mm' HP Hd' _ _| |]; subst.
    destruct (IH d' Hrv) as (r & ? & ?). exists r. split; [|done]. eapply ap_dataset; [done|done| |by eapply source_path_nonempty|done].
    left. eauto.
  - destruct (Hv _ _ Hk) as (v & Hkv & (c & ds & -> & Hc & Hlen & Hds)%Hmaps).
    destruct (lookup_lt_is_Some_2 ds i) as [d Hd']; [rewrite Hlen; by eapply lookup_lt_Some|].
    exists (Some (VRef d)). split; [|by eapply Hds]. eapply ap_element; [done..|]. by apply map_Some_lookup.
  - destruct (Hv _ _ Hk) as (v & Hkv & (c & ds & -> & Hc & Hlen & Hds)%Hmaps).
    destruct (lookup_lt_is_Some_2 ds i) as [d Hd']; [rewrite Hlen; by eapply lookup_lt_Some|].
    destruct (IH d) as (r & ? & ?); [by eapply Hds|]. exists r. split; [|done].
    eapply ap_in_element; [done..|by apply map_Some_lookup|by eapply source_path_nonempty|done].
  - destruct (Hv _ _ Hk) as (v & Hkv & (c & ds & -> & Hc & Hlen & Hds)%Hmaps). exists None. split; [|done].
    eapply ap_no_index; [done..|]. intros i d Hd Hx%map_Some_lookup. apply lookup_lt_Some in Hx. rewrite Hlen in Hx.
    apply lookup_lt_is_Some in Hx as [? Hx]. by rewrite Hno in Hx.
  - destruct (Hv _ _ Hk) as (v & Hkv & (c & ds & -> & Hc & Hlen & Hds)%Hlist).
    destruct (lookup_lt_is_Some_2 ds i) as [d Hd'].
    { rewrite Hlen, <-maps_of_length. apply nth_map_maps in Hm. by eapply lookup_lt_Some. }
    exists (Some (VRef d)). split; [|by eapply Hds]. eapply ap_element; [done..|]. by apply map_Some_lookup.
  - destruct (Hv _ _ Hk) as (v & Hkv & (c & ds & -> & Hc & Hlen & Hds)%Hlist).
    destruct (lookup_lt_is_Some_2 ds i) as [d Hd'].
    { rewrite Hlen, <-maps_of_length. apply nth_map_maps in Hm. by eapply lookup_lt_Some. }
    destruct (IH d) as (r & ? & ?); [by eapply Hds|]. exists r. split; [|done].
    eapply ap_in_element; [done..|by apply map_Some_lookup|by eapply source_path_nonempty|done].
  - destruct (Hv _ _ Hk) as (v & Hkv & (c & ds & -> & Hc & Hlen & Hds)%Hlist). exists None. split; [|done].
    eapply ap_no_index; [done..|]. intros i d Hd Hx%map_Some_lookup. apply lookup_lt_Some in Hx. rewrite Hlen, <-maps_of_length in Hx.
    apply lookup_lt_is_Some in Hx as [m' Hx]. apply nth_map_maps in Hx. by destruct (Hno i m').
Qed.
Lemma source_path_gets P h m s segs g d : Forall (fun w => ">"%char ∉ w) (s :: segs) -> source_path m (s :: segs) g ->
  represents P h (GMap m) (VRef d) -> exists r, gets h d (s ++ concat (map (cons ">"%char) segs)) r /\ represents_answer P h g r.
Proof.
  intros Hf Hp Hr. destruct (represents_path P h m _ g Hp d Hr) as (r & Ha & Hg). exists r. split; [|done].
  rewrite gets_path, <-join_concat. change gt with ">"%char. by rewrite split_join.
Qed.
Lemma new_dataset_paths h m h' d s segs g : go_value (GMap m) -> new_dataset h m = (h', d) ->
  Forall (fun w => ">"%char ∉ w) (s :: segs) -> source_path m (s :: segs) g ->
  exists r, gets h' d (s ++ concat (map (cons ">"%char) segs)) r /\ represents_answer (fun x => h !! x = None) h' g r.
Proof. intros Hg E Hf Hp. eapply source_path_gets; [done..|]. by apply (new_dataset_represents h m). Qed.

(** C31 *)
Lemma new_dataset_array h m h' d k gs : go_value (GMap m) -> new_dataset h m = (h', d) -> ">"%char ∉ k -> (k, GList gs) ∈ m ->
  exists c ds, gets h' d k (Some (VRef c)) /\ collection_at h' c (map Some ds) /\ length ds = count_maps gs /\
    (forall i x, ds !! i = Some x -> exists m', nth_map gs i m' /\ represents (fun x => h !! x = None) h' (GMap m') (VRef x)) /\
    (forall j m', gs !! j = Some (GMap m') -> exists x, ds !! count_maps (take j gs) = Some x /\
       represents (fun x => h !! x = None) h' (GMap m') (VRef x)).
Proof.
  intros Hg E Hk Hin. destruct (new_dataset_paths h m h' d k [] (Some (GList gs)) Hg E) as (r & Hr & Ha).
  { by constructor. }
  { constructor. by apply source_at_some. }
  simpl in Hr. rewrite app_nil_r in Hr. destruct r as [v|]; [|done]. simpl in Ha.
  inversion Ha as [| | |? c ds HP Hc Hlen Hds]; subst. exists c, ds. split_and!; [done|by left|done|..].
  - intros i x Hx. pose proof (lookup_lt_Some _ _ _ Hx) as Hi. rewrite Hlen, <-maps_of_length in Hi.
    apply lookup_lt_is_Some in Hi as [m' Hm']. apply nth_map_maps in Hm'. exists m'. split; [done|]. by eapply Hds.
  - intros j m' Hj. assert (Hn : nth_map gs (count_maps (take j gs)) m') by (by exists j).
    destruct (lookup_lt_is_Some_2 ds (count_maps (take j gs))) as [x Hx].
    { rewrite Hlen, <-(maps_of_length gs). apply nth_map_maps in Hn. by eapply lookup_lt_Some. }
    exists x. split; [done|]. by eapply Hds.
Qed.
Lemma new_dataset_scalars h m h' d k gs : go_value (GMap m) -> new_dataset h m = (h', d) -> ">"%char ∉ k -> (k, GList gs) ∈ m ->
  (forall m', GMap m' ∉ gs) -> exists c, gets h' d k (Some (VRef c)) /\ collection_at h' c [].
Proof.
  intros Hg E Hk Hin Hno. destruct (new_dataset_array _ _ _ _ _ _ Hg E Hk Hin) as (c & ds & Hr & Hc & Hlen & _).
  exists c. split; [done|]. assert (count_maps gs = 0%nat) as Hz.
  { clear -Hno. induction gs as [|g gs IH]; [done|]. destruct g as [v|m|ms|gs']; simpl.
    2:{ destruct (Hno m). by left. }
    all: apply IH; intros m' Hm'; apply (Hno m'); by right. }
  rewrite Hz in Hlen. apply nil_length_inv in Hlen. by subst ds.
Qed.

(** ** C33 *)
Definition cstep (h : heap) (c : loc) (o : deque_op) : outcome (heap * deque_answer) :=
  match o with
  | DPush d => h' <-! cpush h c d; Ok (h', DUnit)
  | DPop => r <-! cpop h c; Ok (r.1, DElement r.2)
  | DShift => r <-! cshift h c; Ok (r.1, DElement r.2)
  | DUnshift d => h' <-! cunshift h c d; Ok (h', DUnit)
  | DCount => z <-! ccount h c; Ok (h, DNumber z)
  | DGet i => r <-! cget h c i; Ok (h, match r with Some d => DFound d | None => DNotFound end)
  end.
Fixpoint crun (h : heap) (c : loc) (os : list deque_op) : outcome (heap * list deque_answer) :=
  match os with
  | [] => Ok (h, [])
  | o :: os' => r <-! cstep h c o; r' <-! crun r.1 c os'; Ok (r'.1, r.2 :: r'.2)
  end.
(** [h'] is [h] with the content of the collection [c] replaced. *)
Definition now_contains (h : heap) (c : loc) (xs : list (option loc)) (h' : heap) : Prop :=
  (h !! c <> None) /\ (forall ys, h !! c = Some (OColl ys) -> h' = <[c := OColl xs]> h) /\
  (forall ys, h !! c = Some (OCollTS ys) -> h' = <[c := OCollTS xs]> h).
Lemma set_elements_contains h c xs ys : collection_at h c xs -> now_contains h c ys (set_elements h c ys).
Proof. unfold now_contains, set_elements. intros [E|E]; rewrite E; naive_solver. Qed.
Lemma now_contains_self h c xs : collection_at h c xs -> now_contains h c xs h.
Proof. unfold now_contains. intros [E|E]; rewrite E; split_and!; try done; intros ys [= ->]; by rewrite insert_id. Qed.
Lemma now_contains_at h c xs ys h' : collection_at h c xs -> now_contains h c ys h' -> collection_at h' c ys.
Proof.
  intros [E|E] (_ & H1 & H2).
  - rewrite (H1 _ E). left. by rewrite lookup_insert.
  - rewrite (H2 _ E). right. by rewrite lookup_insert.
Qed.
Lemma now_contains_trans h c xs ys zs h1 h2 : collection_at h c xs -> now_contains h c ys h1 -> now_contains h1 c zs h2 -> now_contains h c zs h2.
Proof.
  intros Hc (Hn & H1 & H2) (Hn' & H1' & H2'). split; [done|]. destruct Hc as [E|E]; rewrite E.
  - split; [|done]. intros _ [= <-]. specialize (H1 _ E). subst h1. rewrite lookup_insert in H1'.
    rewrite (H1' _ eq_refl). by rewrite insert_insert.
  - split; [done|]. intros _ [= <-]. specialize (H2 _ E). subst h1. rewrite lookup_insert in H2'.
    rewrite (H2' _ eq_refl). by rewrite insert_insert.
Qed.
Lemma elements_at h c xs : collection_at h c xs -> elements h c = Some xs.
Proof. intros H. by apply elements_some. Qed.

Lemma cstep_spec h c xs o : collection_at h c xs ->
  (exists ys a h', deque_step xs o ys a /\ cstep h c o = Ok (h', a) /\ now_contains h c ys h') \/
  (xs = [] /\ (o = DPop \/ o = DShift) /\ cstep h c o = Panic).
Proof.
  intros Hc. pose proof (elements_at _ _ _ Hc) as He. destruct o as [d| | |d| |i]; simpl.
  - left. unfold cpush. rewrite He. eexists _, _, _. split; [constructor|]. split; [done|]. by eapply set_elements_contains.
  - unfold cpop. rewrite He. destruct xs as [|d ys _] using rev_ind.
    { right. rewrite bool_decide_eq_true_2 by (simpl; lia). auto. }
    left. rewrite app_length. cbn [length]. replace (Z.of_nat (length ys + 1) - 1) with (Z.of_nat (length ys)) by lia.
    rewrite bool_decide_eq_false_2 by lia. rewrite Nat2Z.id.
    rewrite (lookup_app_r ys) by lia. rewrite Nat.sub_diag. cbn [lookup list_lookup]. rewrite take_app.
    eexists _, _, _. split; [constructor|]. split; [done|]. by eapply set_elements_contains.
  - unfold cshift. rewrite He. destruct xs as [|d xs]; [right; auto|]. left. eexists _, _, _. split; [constructor|]. split; [done|].
    by eapply set_elements_contains.
  - left. unfold cunshift. rewrite He. eexists _, _, _. split; [constructor|]. split; [done|]. by eapply set_elements_contains.
  - left. unfold ccount. rewrite He. eexists _, _, _. split; [constructor|]. split; [done|]. by eapply now_contains_self.
  - left. unfold cget. rewrite He. destruct (decide (i < 0 \/ Z.of_nat (length xs) <= i)) as [Hi|Hi].
    + eexists _, _, _. split; [by apply dq_get_none|]. split; [|by eapply now_contains_self].
      destruct Hi as [Hi|Hi]; [by rewrite (bool_decide_eq_true_2 (i < 0))|]. rewrite (bool_decide_eq_true_2 (Z.of_nat _ <= i)) by done.
      by rewrite orb_true_r.
    + assert (0 <= i < Z.of_nat (length xs)) as Hb by lia.
      destruct (lookup_lt_is_Some_2 xs (Z.to_nat i)) as [d Hd]; [lia|].
      rewrite (bool_decide_eq_false_2 (i < 0)) by lia. rewrite (bool_decide_eq_false_2 (Z.of_nat _ <= i)) by lia. cbn [orb]. rewrite Hd.
      pose proof (take_drop_middle _ _ _ Hd) as Hm. assert (Hlt : length (take (Z.to_nat i) xs) = Z.to_nat i) by (rewrite take_length; lia).
      eexists _, _, _. split; [|split; [done|by eapply now_contains_self]].
      assert (Hz : i = Z.of_nat (length (take (Z.to_nat i) xs))) by lia. 
      pose proof (dq_get (take (Z.to_nat i) xs) (drop (S (Z.to_nat i)) xs) d) as Hq. rewrite Hm in Hq. by rewrite <-Hz in Hq.
Qed.
Lemma deque_step_det xs o ys a ys' a' : deque_step xs o ys a -> deque_step xs o ys' a' -> ys = ys' /\ a = a'.
Proof.
  intros H H'. inversion H; subst; inversion H'; subst; try done.
  - by match goal with E : _ ++ [_] = _ ++ [_] |- _ => apply app_inj_tail in E as [-> ->] end.
  - split; [done|]. match goal with E : _ ++ _ = _ ++ _, E2 : Z.of_nat _ = Z.of_nat _ |- _ => apply Nat2Z.inj in E2; apply app_inj_1 in E as [_ [= -> ->]] end; done.
  - exfalso. rewrite app_length in *. simpl in *. lia.
  - exfalso. rewrite app_length in *. simpl in *. lia.
Qed.
(** Any sequence of operations. *)
Lemma crun_spec h c xs os : collection_at h c xs ->
  (exists ys as_ h', deque_run xs os ys as_ /\ crun h c os = Ok (h', as_) /\ now_contains h c ys h') \/
  (exists os1 o os2 as_, os = os1 ++ o :: os2 /\ (o = DPop \/ o = DShift) /\ deque_run xs os1 [] as_ /\ crun h c os = Panic).
Proof.
  revert h xs. induction os as [|o os IH]; intros h xs Hc.
  { left. eexists _, _, _. split; [constructor|]. split; [done|]. by eapply now_contains_self. }
  cbn [crun]. destruct (cstep_spec h c xs o Hc) as [(ys & a & h' & Hs & E & Hn)|(-> & Ho & E)]; rewrite E; cbn [obind fst snd].
  - pose proof (now_contains_at _ _ _ _ _ Hc Hn) as Hc'.
    destruct (IH h' ys Hc') as [(zs & as_ & h2 & Hr & E2 & Hn2)|(os1 & o' & os2 & as_ & -> & Ho & Hr & E2)]; rewrite E2; cbn [obind].
    + left. eexists _, _, _. split; [by econstructor|]. split; [done|]. by eapply now_contains_trans.
    + right. exists (o :: os1), o', os2, (a :: as_). split_and!; [done|done|by econstructor|done].
  - right. exists [], o, os, []. split_and!; [done|done|constructor|done].
Qed.

(** ** C34 *)
Lemma search_returns h key back r : returns (fun n => search n h back key) r <->
  (exists pre d post v, back = map Some pre ++ Some d :: post /\ Forall (fun x => gets h x key None) pre /\ gets h d key (Some v) /\ r = Some v) \/
  (exists ds, back = map Some ds /\ Forall (fun x => gets h x key None) ds /\ r = None).
Proof.
  split.
  - intros [n Hn]. revert Hn. induction back as [|[d|] back IH]; simpl; [intros [= <-]; right; by exists []| |done].
    destruct (dget n h d key) as [r0| |] eqn:E; try done. cbn [obind]. destruct r0 as [v|].
    + intros [= <-]. left. exists [], d, back, v. split_and!; [done|done|by exists n|done].
    + intros Hn. assert (Hd : gets h d key None) by (by exists n).
      destruct (IH Hn) as [(pre & d' & post & v & -> & Hf & Hv & ->)|(ds & -> & Hf & ->)].
      * left. exists (d :: pre), d', post, v. split_and!; [done|by constructor|done|done].
      * right. exists (d :: ds). split_and!; [done|by constructor|done].
  - assert (Hmono : forall n n' back x, (n <= n')%nat -> search n h back key = Ok x -> search n' h back key = Ok x).
    { intros n n' b x Hle. induction b as [|[d|] b IH]; simpl; [done| |done].
      destruct (dget n h d key) as [r0| |] eqn:E; try done. rewrite (dget_mono n n' h d key _ Hle E); [|done]. cbn [obind]. by destruct r0. }
    intros [(pre & d & post & v & -> & Hf & [n Hn] & ->)|(ds & -> & Hf & ->)].
    + induction Hf as [|x pre [k Hk] _ [n' IH]]; simpl.
      * exists n. simpl. by rewrite Hn.
      * exists (k + n')%nat. simpl. rewrite (dget_mono k (k + n') h x key _ ltac:(lia) Hk); [|done]. cbn [obind]. eapply Hmono; [|exact IH]. lia.
    + induction Hf as [|x ds [k Hk] _ [n' IH]]; simpl; [by exists 0%nat|].
      exists (k + n')%nat. simpl. rewrite (dget_mono k (k + n') h x key _ ltac:(lia) Hk); [|done]. cbn [obind]. eapply Hmono; [|exact IH]. lia.
Qed.
Lemma cget_data_found h c xs key v : collection_at h c xs ->
  returns (fun n => cget_data n h c key) (Some v) <->
  exists i d, xs !! i = Some (Some d) /\ gets h d key (Some v) /\
    forall j, (i < j < length xs)%nat -> exists d', xs !! j = Some (Some d') /\ gets h d' key None.
Proof.
  intros Hc. pose proof (elements_at _ _ _ Hc) as He.
  assert (Hred : returns (fun n => cget_data n h c key) (Some v) <-> returns (fun n => search n h (reverse xs) key) (Some v)).
  { unfold cget_data. rewrite He. done. }
  rewrite Hred, search_returns. split.
  - intros [(pre & d & post & v' & Hx & Hf & Hd & [= <-])|(ds & _ & _ & ?)]; [|done].
    assert (xs = reverse post ++ Some d :: reverse (map Some pre)) as ->.
    { rewrite <-(reverse_involutive xs), Hx, reverse_app, reverse_cons, <-app_assoc. done. }
    exists (length (reverse post)), d. split_and!; [|done|].
    + by rewrite lookup_app_r, Nat.sub_diag by lia.
    + intros j [Hj Hl]. rewrite app_length in Hl. cbn [length] in Hl. rewrite lookup_app_r by lia.
      destruct (j - length (reverse post))%nat as [|j'] eqn:Ej; [lia|]. rewrite lookup_cons_ne_0 by done. cbn [pred].
      assert (Hl' : (j' < length (reverse (map Some pre)))%nat) by lia.
      apply lookup_lt_is_Some in Hl' as [y Hy]. rewrite Hy. pose proof (elem_of_list_lookup_2 _ _ _ Hy) as Hin. rewrite elem_of_reverse in Hin.
      apply elem_of_list_fmap in Hin as (d' & -> & Hin). exists d'. split; [done|]. rewrite Forall_forall in Hf. by apply Hf.
  - intros (i & d & Hi & Hd & Hj). left.
    assert (Hpre : exists pre, map Some pre = reverse (drop (S i) xs) /\ Forall (fun x => gets h x key None) pre).
    { assert (Hall : Forall (fun y => exists d', y = Some d' /\ gets h d' key None) (drop (S i) xs)).
      { apply Forall_forall. intros y Hy. apply elem_of_list_lookup in Hy as [k Hk]. rewrite lookup_drop in Hk.
        destruct (Hj (S i + k)%nat) as (d' & Hd' & ?); [apply lookup_lt_Some in Hk; lia|]. rewrite Hk in Hd'. injection Hd' as ->. eauto. }
      apply Forall_reverse in Hall. clear -Hall. induction Hall as [|y l (d' & -> & Hd') _ (pre & <- & IH)]; [by exists []|].
      exists (d' :: pre). split; [done|by constructor]. }
    destruct Hpre as (pre & Hpre & Hf). exists pre, d, (reverse (take i xs)), v. split_and!; [|done|done|done].
    rewrite Hpre. rewrite <-(take_drop_middle _ _ _ Hi) at 1. by rewrite reverse_app, reverse_cons, <-app_assoc.
Qed.
Lemma cget_data_missing h c xs key : collection_at h c xs ->
  returns (fun n => cget_data n h c key) None <->
  forall j, (j < length xs)%nat -> exists d, xs !! j = Some (Some d) /\ gets h d key None.
Proof.
  intros Hc. pose proof (elements_at _ _ _ Hc) as He.
  assert (Hred : returns (fun n => cget_data n h c key) None <-> returns (fun n => search n h (reverse xs) key) None).
  { unfold cget_data. rewrite He. done. }
  rewrite Hred, search_returns. split.
  - intros [(pre & d & post & v' & Hx & Hf & Hd & ?)|(ds & Hx & Hf & _)]; [done|]. intros j Hj.
    apply lookup_lt_is_Some in Hj as [y Hy]. rewrite Hy. assert (Hin : y ∈ reverse xs) by (apply elem_of_reverse; by eapply elem_of_list_lookup_2).
    rewrite Hx in Hin. apply elem_of_list_fmap in Hin as (d' & -> & Hin). exists d'. split; [done|]. rewrite Forall_forall in Hf. by apply Hf.
  - intros Hj. right. assert (Hall : Forall (fun y => exists d', y = Some d' /\ gets h d' key None) xs).
    { apply Forall_forall. intros y Hy. apply elem_of_list_lookup in Hy as [k Hk].
      destruct (Hj k) as (d' & Hd' & ?); [by eapply lookup_lt_Some|]. rewrite Hk in Hd'. injection Hd' as ->. eauto. }
    apply Forall_reverse in Hall. clear -Hall. induction Hall as [|y l (d' & -> & Hd') _ (ds & -> & IH & _)]; [by exists []|].
    exists (d' :: ds). split; [done|]. split; [by constructor|done].
Qed.

(** ** C35 *)
Lemma same_content F ord n h p t xs key : h !! p = Some (OColl xs) -> h !! t = Some (OCollTS xs) ->
  (forall i, cget h t i = cget h p i) /\ ccount h t = ccount h p /\ cget_data n h t key = cget_data n h p key /\
  cget_bool n h t key = cget_bool n h p key /\ cget_int n h t key = cget_int n h p key /\
  cget_float n h t key = cget_float n h p key /\ cget_time n h t key = cget_time n h p key /\
  (cget_data n h p key <> Ok (Some VNil) -> cget_string F ord n h t key = cget_string F ord n h p key) /\
  (cget_data n h p key = Ok (Some VNil) -> cget_string F ord n h p key = Ok ([], true) /\ cget_string F ord n h t key = Ok (B "<nil>", true)) /\
  ((forall v, cget_data n h p key = Ok (Some v) -> exists c ys, v = VRef c /\ collection_at h c ys) ->
     cget_collection n h t key = cget_collection n h p key) /\
  (forall v, cget_data n h p key = Ok (Some v) -> (forall c ys, v = VRef c -> ~ collection_at h c ys) ->
     cget_collection n h p key = Ok None /\ cget_collection n h t key = Panic).
Proof.
  intros Hp Ht. assert (Ep : elements h p = Some xs) by (apply elements_some; by left). assert (Et : elements h t = Some xs) by (apply elements_some; by right).
  assert (Hd : cget_data n h t key = cget_data n h p key) by (unfold cget_data; by rewrite Ep, Et).
  split_and!.
  - intros i. unfold cget. by rewrite Ep, Et.
  - unfold ccount. by rewrite Ep, Et.
  - done.
  - unfold cget_bool, ctyped. by rewrite Hd.
  - unfold cget_int, ctyped. by rewrite Hd.
  - unfold cget_float, ctyped. by rewrite Hd.
  - unfold cget_time, ctyped. by rewrite Hd.
  - intros Hne. unfold cget_string. rewrite Hd. destruct (cget_data n h p key) as [[v|]| |]; try done. cbn [obind]. rewrite Hp, Ht. by destruct v.
  - intros E. unfold cget_string. rewrite Hd, E. cbn [obind]. rewrite Hp, Ht. done.
  - intros Hc. unfold cget_collection. rewrite Hd. destruct (cget_data n h p key) as [[v|]| |]; try done. cbn [obind].
    destruct (Hc v eq_refl) as (c & ys & -> & Hcy). assert (as_collection h (VRef c) = Some c) as -> by (apply as_collection_some; eauto). done.
  - intros v E Hno. unfold cget_collection. rewrite Hd, E. cbn [obind]. rewrite Hp, Ht.
    destruct (as_collection h v) as [c|] eqn:Ec; [|done]. apply as_collection_some in Ec as [-> [ys Hc]]. by destruct (Hno c ys).
Qed.

(** ** C75 *)
Lemma ctyped_returns {A} h c key (conv : value -> option A) zero x :
  returns (fun n => ctyped n h c key conv zero) x <->
  exists r, returns (fun n => cget_data n h c key) r /\
    x = match r with Some v => match conv v with Some a => (a, true) | None => (zero, false) end | None => (zero, false) end.
Proof.
  split.
  - intros [n H]. unfold ctyped in H. destruct (cget_data n h c key) as [r| |] eqn:E; try done. injection H as <-. exists r. split; [by exists n|done].
  - intros (r & [n Hn] & ->). exists n. unfold ctyped. by rewrite Hn.
Qed.
Lemma cget_exact h c key :
  (forall b, returns (fun n => cget_bool n h c key) (b, true) <-> returns (fun n => cget_data n h c key) (Some (VBool b))) /\
  (forall z, returns (fun n => cget_int n h c key) (z, true) <-> returns (fun n => cget_data n h c key) (Some (VInt KInt z))) /\
  (forall f, returns (fun n => cget_float n h c key) (f, true) <-> returns (fun n => cget_data n h c key) (Some (VFloat64 f))) /\
  (forall t, returns (fun n => cget_time n h c key) (t, true) <-> returns (fun n => cget_data n h c key) (Some (VTime t))).
Proof.
  repeat split; intros H;
    try (apply ctyped_returns; eexists; split; [exact H|done]);
    apply ctyped_returns in H as (r & Hr & E); destruct r as [v|]; try done; destruct v; try done; simpl in E; try congruence.
  destruct k; try done. congruence.
Qed.
Lemma cget_zero h c key r : returns (fun n => cget_data n h c key) r ->
  ((forall b, r <> Some (VBool b)) -> returns (fun n => cget_bool n h c key) (false, false)) /\
  ((forall z, r <> Some (VInt KInt z)) -> returns (fun n => cget_int n h c key) (0, false)) /\
  ((forall f, r <> Some (VFloat64 f)) -> returns (fun n => cget_float n h c key) (S754_zero false, false)) /\
  ((forall t, r <> Some (VTime t)) -> returns (fun n => cget_time n h c key) (GoTime 0 0 0, false)).
Proof.
  intros Hr. repeat split; intros Hn; apply ctyped_returns; exists r; (split; [exact Hr|]);
    destruct r as [v|]; try done; destruct v; try done; try (by edestruct Hn).
  destruct k; try done. by edestruct Hn.
Qed.
Lemma cget_int_differs F h c d key k z : collection_at h c [Some d] -> gets h d key (Some (VInt k z)) ->
  holds k z -> z <= 2 ^ 63 - 1 -> k <> KInt ->
  returns (fun n => get_int F n h d key) (z, true) /\ returns (fun n => cget_int n h c key) (0, false).
Proof.
  intros Hc Hg Hk Hz Hne. split.
  - assert (H := get_int_exact F h d key k z Hg Hk). by rewrite (bool_decide_eq_true_2 _ Hz) in H.
  - apply (cget_zero h c key (Some (VInt k z))); [|congruence].
    apply (cget_data_found h c _ key (VInt k z) Hc). exists 0%nat, d. split; [done|]. split; [done|]. simpl. lia.
Qed.
Lemma cget_collection_checked h c xs key :
  h !! c = Some (OColl xs) ->
  (forall x, returns (fun n => cget_collection n h c key) (Some x) <->
     returns (fun n => cget_data n h c key) (Some (VRef x)) /\ exists ys, collection_at h x ys) /\
  (returns (fun n => cget_collection n h c key) None <->
     returns (fun n => cget_data n h c key) None \/
     exists v, returns (fun n => cget_data n h c key) (Some v) /\ forall x ys, v = VRef x -> ~ collection_at h x ys).
Proof.
  intros Ec.
  assert (Has : forall v x, as_collection h v = Some x <-> v = VRef x /\ exists ys, collection_at h x ys).
  { intros v x. unfold as_collection, collection_at. split.
    - destruct v as [| | | | | | | | | | | |l|]; try done. destruct (h !! l) as [[| | |]|] eqn:E; try done; intros [= <-]; (split; [done|]); rewrite E; eauto.
    - intros (-> & ys & [->| ->]); done. }
  split; [intros x; split|split].
  - intros [n H]. unfold cget_collection in H. destruct (cget_data n h c key) as [[v|]| |] eqn:E; try done. cbn [obind] in H.
    destruct (as_collection h v) as [y|] eqn:Ea; [|by rewrite Ec in H]. injection H as ->. apply Has in Ea as (-> & Hy). split; [by exists n|done].
  - intros ([n Hn] & Hy). exists n. unfold cget_collection. rewrite Hn. cbn [obind]. assert (Ha := proj2 (Has (VRef x) x) (conj eq_refl Hy)). by rewrite Ha.
  - intros [n H]. unfold cget_collection in H. destruct (cget_data n h c key) as [[v|]| |] eqn:E; try done; [|left; by exists n]. cbn [obind] in H.
    destruct (as_collection h v) as [y|] eqn:Ea; [done|]. right. exists v. split; [by exists n|]. intros x ys -> Hx.
    assert (Ha := proj2 (Has (VRef x) x) (conj eq_refl (ex_intro _ ys Hx))). congruence.
  - intros [[n Hn]|(v & [n Hn] & Hv)]; exists n; unfold cget_collection; rewrite Hn; cbn [obind]; [done|].
    destruct (as_collection h v) as [y|] eqn:Ea; [|by rewrite Ec]. apply Has in Ea as (-> & ys & Hy). by destruct (Hv y ys).
Qed.
