(** * Executions while the data grow (C119): no panic. *)
From Verif Require Import GoBase GoStrings GoStringsProofs DatasetModel LangModel DatasetSpec DatasetProofs DatasetProofs2 DatasetProofs3 TemplateModel TemplateSpec
  RenderSpec RenderProofs RenderProofs4 RenderProofs6 RenderProofs7 CrashProofs ParModel ParProofs ParProofs2 GrowSpec.
Local Open Scope Z_scope.

Lemma grown_refl h : grown h h.
Proof. split; [done|]. intros c xs H. exists []. by rewrite app_nil_r. Qed.
Lemma grown_trans h1 h2 h3 : grown h1 h2 -> grown h2 h3 -> grown h1 h3.
Proof.
  intros [A1 A2] [B1 B2]. split; [eauto|]. intros c xs H. destruct (A2 c xs H) as [ys H1]. destruct (B2 c _ H1) as [zs H2].
  exists (ys ++ zs). by rewrite app_assoc.
Qed.
Lemma careful_grown {A} (p : act A) h h' : grown h h' -> careful h p -> careful h' p.
Proof. destruct p as [a| | |w k]; cbn; try done. intros Hg H h1 Hs H1. apply H; [done|]. by eapply grown_trans. Qed.
Lemma careful_bind {A C} (m : act A) (f : A -> act C) : forall h, careful h m -> (forall a h', grown h h' -> careful h' (f a)) -> careful h (abind m f).
Proof.
  induction m as [a| | |w k IH]; intros h Hm Hf; cbn; try done; [apply Hf, grown_refl|]. intros h1 Hs Hg. destruct (Hm h1 Hs Hg) as (H1 & H2 & H3).
  split; [done|]. split; [done|]. apply IH; [done|]. intros a h' Hg'. apply Hf. eapply grown_trans; [exact Hg|]. by eapply grown_trans.
Qed.
(** ** A goroutine that does not panic either *)
Fixpoint never {A} (Q : A -> heap -> Prop) (h0 : heap) (p : act A) : Prop :=
  match p with
  | Ret a => Q a h0
  | Fail => False
  | Out => True
  | Act w k => forall h, sound h -> grown h0 h -> sound (w h) /\ grown h (w h) /\ never Q (w h) (k h)
  end.
Definition stable {A} (Q : A -> heap -> Prop) : Prop := forall a h h', Q a h -> grown h h' -> Q a h'.
Lemma never_careful {A} (Q : A -> heap -> Prop) p : forall h, never Q h p -> careful h p.
Proof. induction p as [a| | |w k IH]; intros h; cbn; try done. intros H h1 Hs Hg. destruct (H h1 Hs Hg) as (? & ? & ?). auto. Qed.
Lemma never_grown {A} (Q : A -> heap -> Prop) p h h' : stable Q -> grown h h' -> never Q h p -> never Q h' p.
Proof. intros HQ. destruct p as [a| | |w k]; cbn; try done; [intros; by eapply HQ|]. intros Hg H h1 Hs H1. apply H; [done|]. by eapply grown_trans. Qed.
Lemma never_bind {A C} (P : A -> heap -> Prop) (Q : C -> heap -> Prop) m f : forall h, never P h m ->
  (forall a h', grown h h' -> P a h' -> never Q h' (f a)) -> never Q h (abind m f).
Proof.
  induction m as [a| | |w k IH]; intros h Hm Hf; cbn in *; try done; [by apply Hf; [apply grown_refl|]|]. intros h1 Hs Hg. destruct (Hm h1 Hs Hg) as (H1 & H2 & H3).
  split; [done|]. split; [done|]. apply IH; [done|]. intros a h' Hg'. apply Hf. eapply grown_trans; [exact Hg|]. by eapply grown_trans.
Qed.
Lemma never_lift {A} (Q : A -> heap -> Prop) r h : r <> Panic -> (forall a, r = Ok a -> Q a h) -> never Q h (lift r).
Proof. destruct r; cbn; auto. Qed.
Lemma never_read {A} (Q : A -> heap -> Prop) f h0 : (forall h, sound h -> grown h0 h -> f h <> Panic /\ forall a, f h = Ok a -> Q a h) -> never Q h0 (read f).
Proof. intros H h Hs Hg. split; [done|]. split; [apply grown_refl|]. destruct (H h Hs Hg). by apply never_lift. Qed.
Lemma never_weak {A} (P Q : A -> heap -> Prop) m : forall h, (forall a h', P a h' -> Q a h') -> never P h m -> never Q h m.
Proof. induction m as [a| | |w k IH]; intros h HI; cbn; try done; [by apply HI|]. intros H h1 Hs Hg. destruct (H h1 Hs Hg) as (? & ? & ?). auto. Qed.

(** ** The goroutines side by side *)
Definition all_careful {A} (s : heap * list (act A)) : Prop := sound s.1 /\ Forall (careful s.1) s.2.
Lemma careful_step {A} (s s' : heap * list (act A)) : par_step s s' -> all_careful s -> all_careful s' /\ grown s.1 s'.1.
Proof.
  destruct 1 as [h ps i w k E]. intros [Hs Hps]. cbn [fst snd] in *. rewrite Forall_forall in Hps. assert (Hi : careful h (Act w k)) by (apply Hps; by eapply elem_of_list_lookup_2).
  destruct (Hi h Hs (grown_refl h)) as (H1 & H2 & H3). split; [|done]. split; [done|]. apply Forall_forall. cbn [fst snd]. intros p Hp. apply elem_of_list_lookup in Hp as [j Hj].
  destruct (decide (i = j)) as [<-|Hne].
  - rewrite list_lookup_insert in Hj by (by eapply lookup_lt_Some). by injection Hj as <-.
  - rewrite list_lookup_insert_ne in Hj by done. eapply careful_grown; [exact H2|]. apply Hps. by eapply elem_of_list_lookup_2.
Qed.
Lemma careful_steps {A} (s s' : heap * list (act A)) : rtc par_step s s' -> all_careful s -> all_careful s' /\ grown s.1 s'.1.
Proof.
  induction 1 as [s|s1 s2 s3 Hst _ IH]; intros H; [split; [done|apply grown_refl]|]. destruct (careful_step _ _ Hst H) as [H2 Hg]. destruct (IH H2). split; [done|]. by eapply grown_trans.
Qed.
Lemma never_steps {A} (Q : A -> heap -> Prop) i (s s' : heap * list (act A)) : stable Q -> rtc par_step s s' -> all_careful s ->
  (exists p, s.2 !! i = Some p /\ never Q s.1 p) -> exists p, s'.2 !! i = Some p /\ never Q s'.1 p.
Proof.
  intros HQ. induction 1 as [s|s1 s2 s3 Hst _ IH]; intros Hc Hi; [done|]. destruct (careful_step _ _ Hst Hc) as [H2 Hg]. apply IH; [done|].
  destruct Hi as (p & Hp & Hn). destruct Hst as [h ps j w k E]. cbn [fst snd] in *. destruct (decide (j = i)) as [->|Hne].
  - rewrite E in Hp. injection Hp as <-. exists (k h). rewrite list_lookup_insert by (by eapply lookup_lt_Some). split; [done|]. apply Hn; [apply Hc|apply grown_refl].
  - exists p. rewrite list_lookup_insert_ne by done. split; [done|]. by eapply never_grown.
Qed.

(** ** Sound heaps *)
Lemma sound_chain h d : sound h -> dataset_at h d -> chain h d.
Proof. intros [[H _] _] [[m E]|[w E]]; [by eapply chain_ds|by eapply H]. Qed.
Lemma grown_all h h' xs : grown h h' -> Forall (dataset_at h) xs -> Forall (dataset_at h') xs.
Proof. intros [H _] Hx. eapply Forall_impl; [exact Hx|]. exact H. Qed.
(** A field is written. *)
Lemma chain_store h l m m' d : h !! l = Some (ODs m) -> chain h d -> chain (<[l := ODs m']> h) d.
Proof.
  intros El. induction 1 as [x mx E|x y E _ IH]; (destruct (decide (x = l)) as [->|Hne]; [apply (chain_ds _ _ m'); by rewrite lookup_insert|]).
  - apply (chain_ds _ _ mx). by rewrite lookup_insert_ne by done.
  - apply (chain_ts _ _ y); [by rewrite lookup_insert_ne by done|done].
Qed.
Lemma dataset_store h l m m' d : h !! l = Some (ODs m) -> dataset_at h d <-> dataset_at (<[l := ODs m']> h) d.
Proof.
  intros El. unfold dataset_at. destruct (decide (d = l)) as [->|Hne].
  - rewrite lookup_insert, El. split; (intros [[? H]|[? H]]; [left; eauto|done]).
  - by rewrite lookup_insert_ne by done.
Qed.
Lemma collection_store h l m m' c xs : h !! l = Some (ODs m) -> collection_at h c xs <-> collection_at (<[l := ODs m']> h) c xs.
Proof.
  intros El. unfold collection_at. destruct (decide (c = l)) as [->|Hne].
  - rewrite lookup_insert, El. split; intros [H|H]; done.
  - by rewrite lookup_insert_ne by done.
Qed.
Lemma store_sound h l m m' : sound h -> h !! l = Some (ODs m) -> sound (<[l := ODs m']> h) /\ grown h (<[l := ODs m']> h).
Proof.
  intros [[H1 H2] H3] El. split; [split; [split|]|split].
  - intros x w Hx. destruct (decide (x = l)) as [->|Hne]; [by rewrite lookup_insert in Hx|]. rewrite lookup_insert_ne in Hx by done. by eapply chain_store, H1.
  - intros c xs d Hc Hd. rewrite <- dataset_store by done. apply <- collection_store in Hc; [|done]. by eapply H2.
  - intros c xs Hc. apply <- collection_store in Hc; [|done]. by eapply H3.
  - intros d. by rewrite <- dataset_store by done.
  - intros c xs Hc. exists []. rewrite app_nil_r. by rewrite <- collection_store by done.
Qed.
Lemma on_dataset_there {A} n h l (f : loc -> gmap bytes value -> outcome A) a : on_dataset n h l f = Ok a -> exists x m, h !! x = Some (ODs m) /\ f x m = Ok a.
Proof. revert l. induction n as [|n IH]; intros l; cbn; [done|]. destruct (h !! l) as [[m|[d|]| |]|] eqn:E; try done; [eauto|]. apply IH. Qed.
Lemma set_sound n h d k v h' : sound h -> dset n h d k v = Ok h' -> sound h' /\ grown h h'.
Proof. intros Hs H. apply on_dataset_there in H as (x & m & E & [= <-]). by eapply store_sound. Qed.
Lemma del_sound n h d k h' : sound h -> ddel n h d k = Ok h' -> sound h' /\ grown h h'.
Proof. intros Hs H. apply on_dataset_there in H as (x & m & E & [= <-]). by eapply store_sound. Qed.
(** A new object. *)
Lemma new_sound h l m : sound h -> h !! l = None -> sound (<[l := ODs m]> h) /\ grown h (<[l := ODs m]> h) /\ dataset_at (<[l := ODs m]> h) l.
Proof.
  intros [[H1 H2] H3] El.
  assert (Hch : forall d, chain h d -> chain (<[l := ODs m]> h) d).
  { induction 1 as [x mx E|x y E _ IH]; (destruct (decide (x = l)) as [->|Hne]; [by rewrite El in E|]).
    - apply (chain_ds _ _ mx). by rewrite lookup_insert_ne by done.
    - apply (chain_ts _ _ y); [by rewrite lookup_insert_ne by done|done]. }
  assert (Hds : forall d, dataset_at h d -> dataset_at (<[l := ODs m]> h) d).
  { intros d. unfold dataset_at. destruct (decide (d = l)) as [->|Hne]; [rewrite El; by intros [[? ?]|[? ?]]|]. by rewrite lookup_insert_ne by done. }
  assert (Hco : forall c xs, collection_at (<[l := ODs m]> h) c xs <-> collection_at h c xs).
  { intros c xs. unfold collection_at. destruct (decide (c = l)) as [->|Hne]; [rewrite lookup_insert, El; by split; intros [?|?]|]. by rewrite lookup_insert_ne by done. }
  split; [split; [split|]|split; [split|]].
  - intros x w Hx. destruct (decide (x = l)) as [->|Hne]; [by rewrite lookup_insert in Hx|]. rewrite lookup_insert_ne in Hx by done. by eapply Hch, H1.
  - intros c xs d Hc Hd. apply Hds. apply Hco in Hc. by eapply H2.
  - intros c xs Hc. apply Hco in Hc. by eapply H3.
  - done.
  - intros c xs Hc. exists []. rewrite app_nil_r. by apply Hco.
  - left. exists m. by rewrite lookup_insert.
Qed.
(** Push. *)
Lemma push_sound h c d h' : sound h -> dataset_at h d -> cpush h c (Some d) = Ok h' -> sound h' /\ grown h h'.
Proof.
  intros [[H1 H2] H3] Hd. unfold cpush, elements, set_elements. destruct (h !! c) as [[| |xs|xs]|] eqn:E; try done; intros [= <-].
  - assert (Hch : forall x, chain h x -> chain (<[c := OColl (xs ++ [Some d])]> h) x).
    { induction 1 as [x mx Ex|x y Ex _ IH]; (destruct (decide (x = c)) as [->|Hne]; [by rewrite E in Ex|]).
      - apply (chain_ds _ _ mx). by rewrite lookup_insert_ne by done.
      - apply (chain_ts _ _ y); [by rewrite lookup_insert_ne by done|done]. }
    assert (Hds : forall x, dataset_at h x -> dataset_at (<[c := OColl (xs ++ [Some d])]> h) x).
    { intros x. unfold dataset_at. destruct (decide (x = c)) as [->|Hne]; [rewrite E; by intros [[? ?]|[? ?]]|]. by rewrite lookup_insert_ne by done. }
    split; [split; [split|]|split].
    + intros x w Hx. destruct (decide (x = c)) as [->|Hne]; [by rewrite lookup_insert in Hx|]. rewrite lookup_insert_ne in Hx by done. by eapply Hch, H1.
    + intros c' ys y Hc Hy. apply Hds. destruct (decide (c' = c)) as [->|Hne].
      * unfold collection_at in Hc. rewrite lookup_insert in Hc. destruct Hc as [[= <-]|[=]]. apply elem_of_app in Hy as [Hy|Hy]; [by eapply (H2 c xs); [left|]|].
        apply elem_of_list_singleton in Hy as [= ->]. done.
      * unfold collection_at in Hc. rewrite lookup_insert_ne in Hc by done. by eapply H2.
    + intros c' ys Hc. destruct (decide (c' = c)) as [->|Hne].
      * unfold collection_at in Hc. rewrite lookup_insert in Hc. destruct Hc as [[= <-]|[=]]. intros Hy. apply elem_of_app in Hy as [Hy|Hy]; [by eapply (H3 c xs); [left|]|].
        by apply elem_of_list_singleton in Hy.
      * unfold collection_at in Hc. rewrite lookup_insert_ne in Hc by done. by eapply H3.
    + done.
    + intros c' ys Hc. unfold collection_at in *. destruct (decide (c' = c)) as [->|Hne].
      * exists [Some d]. rewrite lookup_insert. rewrite E in Hc. destruct Hc as [[= <-]|[=]]. by left.
      * exists []. rewrite app_nil_r. by rewrite lookup_insert_ne by done.
  - assert (Hch : forall x, chain h x -> chain (<[c := OCollTS (xs ++ [Some d])]> h) x).
    { induction 1 as [x mx Ex|x y Ex _ IH]; (destruct (decide (x = c)) as [->|Hne]; [by rewrite E in Ex|]).
      - apply (chain_ds _ _ mx). by rewrite lookup_insert_ne by done.
      - apply (chain_ts _ _ y); [by rewrite lookup_insert_ne by done|done]. }
    assert (Hds : forall x, dataset_at h x -> dataset_at (<[c := OCollTS (xs ++ [Some d])]> h) x).
    { intros x. unfold dataset_at. destruct (decide (x = c)) as [->|Hne]; [rewrite E; by intros [[? ?]|[? ?]]|]. by rewrite lookup_insert_ne by done. }
    split; [split; [split|]|split].
    + intros x w Hx. destruct (decide (x = c)) as [->|Hne]; [by rewrite lookup_insert in Hx|]. rewrite lookup_insert_ne in Hx by done. by eapply Hch, H1.
    + intros c' ys y Hc Hy. apply Hds. destruct (decide (c' = c)) as [->|Hne].
      * unfold collection_at in Hc. rewrite lookup_insert in Hc. destruct Hc as [[=]|[= <-]]. apply elem_of_app in Hy as [Hy|Hy]; [by eapply (H2 c xs); [right|]|].
        apply elem_of_list_singleton in Hy as [= ->]. done.
      * unfold collection_at in Hc. rewrite lookup_insert_ne in Hc by done. by eapply H2.
    + intros c' ys Hc. destruct (decide (c' = c)) as [->|Hne].
      * unfold collection_at in Hc. rewrite lookup_insert in Hc. destruct Hc as [[=]|[= <-]]. intros Hy. apply elem_of_app in Hy as [Hy|Hy]; [by eapply (H3 c xs); [right|]|].
        by apply elem_of_list_singleton in Hy.
      * unfold collection_at in Hc. rewrite lookup_insert_ne in Hc by done. by eapply H3.
    + done.
    + intros c' ys Hc. unfold collection_at in *. destruct (decide (c' = c)) as [->|Hne].
      * exists [Some d]. rewrite lookup_insert. rewrite E in Hc. destruct Hc as [[=]|[= <-]]. by right.
      * exists []. rewrite app_nil_r. by rewrite lookup_insert_ne by done.
Qed.
(** ** The calls *)
Lemma careful_write f h0 : (forall h h', sound h -> grown h0 h -> f h = Ok h' -> sound h' /\ grown h h') -> careful h0 (write f).
Proof.
  intros H h Hs Hg. specialize (H h). destruct (f h) as [h1| |] eqn:E; cbn.
  - destruct (H h1 Hs Hg eq_refl). done.
  - split; [done|]. split; [apply grown_refl|done].
  - split; [done|]. split; [apply grown_refl|done].
Qed.
Lemma careful_lift {A} (r : outcome A) h : careful h (lift r).
Proof. by destruct r. Qed.
Lemma careful_read {A} (f : heap -> outcome A) h : careful h (read f).
Proof. intros h1 Hs Hg. split; [done|]. split; [apply grown_refl|]. apply careful_lift. Qed.
Lemma careful_set h n d k v : careful h (write (fun h => dset n h d k v)).
Proof. apply careful_write. intros h1 h' Hs _. by apply set_sound. Qed.
Lemma careful_del h n d k : careful h (write (fun h => ddel n h d k)).
Proof. apply careful_write. intros h1 h' Hs _. by apply del_sound. Qed.
Lemma careful_push h c d : dataset_at h d -> careful h (write (fun h => cpush h c (Some d))).
Proof. intros Hd. apply careful_write. intros h1 h' Hs [Hg _]. apply push_sound; [done|]. by apply Hg. Qed.
Lemma careful_push_new new h c m : (forall h, h !! new h = None) -> careful h (push_new new c m).
Proof.
  intros Hn h1 Hs Hg. cbn. destruct (new_sound h1 (new h1) m Hs (Hn h1)) as (H1 & H2 & H3). split; [done|]. split; [done|]. by apply careful_push.
Qed.
Lemma careful_push_all new c ms : (forall h, h !! new h = None) -> forall h, careful h (push_all new c ms).
Proof. intros Hn. induction ms as [|m ms IH]; intros h; [done|]. apply (careful_bind (push_new new c m)); [by apply careful_push_new|]. intros a h' _. apply IH. Qed.

(** ** Execute *)
Section Execute.
  Context (F : golib) (ord : heap -> gmap bytes value -> list (bytes * value)) (langs : nat -> option lang) (th : theap).
  Context (Hcomp : compiled th) (Hclosed : closed th).
  Definition any {A} (_ : A) (_ : heap) : Prop := True.
  Lemma never_search n sc key : forall h, Forall (dataset_at h) sc -> never any h (p_search n sc key).
  Proof.
    induction sc as [|d sc IH]; intros h Hsc; cbn [p_search]; [done|]. apply Forall_cons in Hsc as [Hd Hsc].
    apply (never_bind any); [apply never_read|].
    - intros h1 Hs [Hg _]. split; [|done]. apply get_no_panic; [apply Hs|by apply Hg].
    - intros [v|] h1 Hg _; [done|]. apply IH. by eapply grown_all.
  Qed.
  Lemma never_data n xs key h : Forall (dataset_at h) xs -> never any h (p_data n xs key).
  Proof. intros H. apply never_search. by apply Forall_reverse. Qed.
  Lemma never_sprint n v h : never any h (read (fun h => sprint F ord n h v)).
  Proof. apply never_read. intros h1 _ _. split; [|done]. apply show_value_no_panic. Qed.
  Lemma never_string n xs key h : Forall (dataset_at h) xs -> never any h (p_string F ord n xs key).
  Proof.
    intros H. apply (never_bind any); [by apply never_data|]. intros [v|] h1 _ _; [|done]. destruct v; try done; apply never_sprint.
  Qed.
  Lemma never_collection n xs key h : Forall (dataset_at h) xs -> never (fun r h => forall l, r = Some l -> exists ys, collection_at h l ys) h (p_collection n xs key).
  Proof.
    intros H. apply (never_bind any); [by apply never_data|]. intros v h1 _ _. apply never_read. intros h2 _ _. split; [done|].
    intros a [= <-] l Hl. destruct v as [v|]; cbn in Hl; [|done]. destruct v; try done. cbn in Hl. destruct (h2 !! l0) as [[| |ys|ys]|] eqn:E; try done; injection Hl as <-; exists ys; [by left|by right].
  Qed.
  Lemma count_ok c h : (exists ys, collection_at h c ys) -> exists ys, collection_at h c ys /\ ccount h c = Ok (Z.of_nat (length ys)).
  Proof. intros [ys H]. exists ys. split; [done|]. unfold ccount, elements. by destruct H as [-> | ->]. Qed.
  Definition coll_at (c : loc) (h : heap) : Prop := exists ys, collection_at h c ys.
  Lemma coll_grown c h h' : grown h h' -> coll_at c h -> coll_at c h'.
  Proof. intros [_ H] [ys Hc]. destruct (H c ys Hc) as [zs ?]. by exists (ys ++ zs). Qed.
  Lemma never_count c h : coll_at c h -> never (fun z h => exists ys, collection_at h c ys /\ z = Z.of_nat (length ys)) h (read (fun h => ccount h c)).
  Proof.
    intros Hc. apply never_read. intros h1 _ Hg. apply (coll_grown c _ _ Hg) in Hc. apply count_ok in Hc as (ys & Hy & E). rewrite E. split; [done|].
    intros a [= <-]. eauto.
  Qed.
  (** A place of the collection that was there stays. *)
  Lemma never_get c i h : 0 <= i -> (exists ys, collection_at h c ys /\ i < Z.of_nat (length ys)) ->
    never (fun r h => exists d, r = Some (Some d) /\ dataset_at h d) h (read (fun h => cget h c i)).
  Proof.
    intros Hi (ys & Hy & Hl). apply never_read. intros h1 Hs [_ Hg]. destruct (Hg c ys Hy) as [zs H1].
    assert (Hlt : (Z.to_nat i < length (ys ++ zs))%nat) by (rewrite app_length; lia). apply lookup_lt_is_Some in Hlt as [x Hx].
    assert (Hin : x ∈ ys ++ zs) by (by eapply elem_of_list_lookup_2).
    destruct x as [d|]; [|destruct Hs as [_ Hs]; by destruct (Hs c _ H1)].
    assert (E : cget h1 c i = Ok (Some (Some d))).
    { unfold cget, elements. assert (E : match h1 !! c with Some (OColl xs) | Some (OCollTS xs) => Some xs | _ => None end = Some (ys ++ zs)) by (by destruct H1 as [-> | ->]).
      rewrite E. apply lookup_lt_Some in Hx as Hx'. rewrite bool_decide_eq_false_2, bool_decide_eq_false_2 by lia. cbn. by rewrite Hx. }
    rewrite E. split; [done|]. intros a [= <-]. exists d. split; [done|]. destruct Hs as [[_ Hs] _]. by eapply Hs.
  Qed.
  Lemma never_set n d k v h : dataset_at h d -> never any h (write (fun h => dset n h d k v)).
  Proof.
    intros Hd h1 Hs [Hg _]. pose proof (chain_set_ok n h1 d k v (sound_chain _ _ Hs (Hg d Hd))) as Hn. destruct (dset n h1 d k v) as [h2| |] eqn:E; cbn; [|done|].
    - destruct (set_sound _ _ _ _ _ _ Hs E). done.
    - split; [done|]. split; [apply grown_refl|done].
  Qed.
  Definition there (t : loc) : Prop := is_Some (th !! t).
  Lemma lookup_there n t a x : there t -> lookup_template th n t a = Ok (Some x) -> there x.
  Proof using Hclosed.
    unfold lookup_template. revert t. induction n as [|n IH]; intros t Ht; cbn; [done|]. destruct Ht as [T HT]. rewrite HT. destruct Hclosed as [C1 C2].
    destruct (t_subs T ≫= (fun m => m !! a)) as [y|] eqn:E.
    { intros [= <-]. eapply (C1 t T a); [done|]. unfold subs_of. by destruct (t_subs T). } destruct (t_father T) as [f|] eqn:Ef; [|done]. apply IH. by eapply C2.
  Qed.
  Lemma try_there n t ns x : there t -> try_names th n t ns = Ok (Some x) -> there x.
  Proof using Hclosed.
    intros Ht. induction ns as [|a ns IH]; cbn [try_names]; [done|]. destruct (lookup_template th n t a) as [[y|]| |] eqn:E; cbn; try done. intros [= <-]. by eapply lookup_there.
  Qed.
  Definition found_there (r : option loc) (_ : heap) : Prop := forall x, r = Some x -> there x.
  Lemma never_lookup n t a h : there t -> never found_there h (lift (lookup_template th n t a)).
  Proof using Hclosed. intros Ht. apply never_lift; [by apply closed_lookup|]. intros r E x ->. by eapply lookup_there. Qed.
  Lemma never_try n t ns h : there t -> never found_there h (lift (try_names th n t ns)).
  Proof using Hclosed. intros Ht. apply never_lift; [by apply try_names_ok|]. intros r E x ->. by eapply try_there. Qed.
  Lemma pick_there (r : option loc) x h : found_there r h -> there x -> there (match r with Some y => y | None => x end).
  Proof. intros H Hx. destruct r; [by apply H|done]. Qed.
  Lemma as_dataset_at h v d : as_dataset h v = Some d -> dataset_at h d.
  Proof. destruct v; try done. cbn. destruct (h !! l) as [[m|w| |]|] eqn:E; try done; intros [= <-]; [left|right]; eauto. Qed.
  Definition same (xs : list loc) {A} (r : option (list loc) * A) (_ : heap) : Prop := r.1 = Some xs.
  Section Body.
    Context (n : nat) (lg : option lang) (inj : option (list loc) -> loc -> act (option (list loc) * bytes)).
    Context (Hinj : forall h xs t, Forall (dataset_at h) xs -> there t -> never (same xs) h (inj (Some xs) t)).
    Lemma never_run h xs t : Forall (dataset_at h) xs -> there t -> never (same xs) h (p_run inj (Some xs) t).
    Proof using Hinj. intros Hx Ht. apply (never_bind (same xs)); [by apply Hinj|]. intros [sc o] h1 _ E. exact E. Qed.
    Lemma never_run_opt h xs t : Forall (dataset_at h) xs -> found_there t h -> never (same xs) h (p_run_opt inj (Some xs) t).
    Proof using Hinj. intros Hx Ht. destruct t as [t|]; [|done]. apply never_run; [done|]. by apply Ht. Qed.
    Lemma never_inner {A} (Q : A -> heap -> Prop) h xs d t (k : option (list loc) -> bytes -> act A) : Forall (dataset_at h) xs -> dataset_at h d -> there t ->
      (forall out h', grown h h' -> never Q h' (k (Some xs) out)) ->
      never Q h (sc1 <~ lift (spush (Some xs) d); '(sc2, out) <~ inj sc1 t; sc3 <~ lift (spop sc2); k sc3 out).
    Proof using Hinj.
      intros Hx Hd Ht Hk. cbn. apply (never_bind (same (xs ++ [d]))); [apply Hinj; [|done]; apply Forall_app; split; [done|by constructor]|].
      intros [sc o] h1 Hg E. unfold same in E. cbn [fst] in E. subst sc. unfold spop, non_nil. rewrite reverse_snoc. cbn. rewrite reverse_involutive. by apply Hk.
    Qed.
    Lemma never_reference h xs t xid : Forall (dataset_at h) xs -> there t -> never (same xs) h (p_reference F ord th n inj (Some xs) t xid).
    Proof using Hinj Hclosed.
      intros Hx Ht.
      assert (Hone : forall a, never (same xs) h (r <~ lift (lookup_template th n t a); match r with None => Ret (Some xs, []) | Some subt => p_run inj (Some xs) subt end)).
      { intros a. apply (never_bind found_there); [by apply never_lookup|]. intros [x|] h1 Hg Hr; [|done]. apply never_run; [by eapply grown_all|by apply Hr]. }
      destruct xid as [|x0 [|x1 [|x2 [|x3 l]]]]; try apply Hone.
      - unfold p_reference. apply (never_bind found_there); [by apply never_lookup|]. intros [x|] h1 Hg Hr; [|done].
        apply (never_bind any); [apply never_data; by eapply grown_all|]. intros v h2 Hg2 _.
        apply (never_bind (fun r h => forall d, r = Some d -> dataset_at h d)).
        + apply never_read. intros h3 _ _. split; [done|]. intros a [= <-] d Hd. destruct v as [v|]; [|done]. cbn in Hd. by eapply as_dataset_at.
        + intros [d|] h3 Hg3 Hd.
          * apply never_inner; [do 3 (eapply grown_all; [eassumption|]); done|by apply Hd|by apply Hr|]. done.
          * apply never_run; [do 3 (eapply grown_all; [eassumption|]); done|by apply Hr].
      - unfold p_reference. apply (never_bind any); [by apply never_string|]. intros v h1 Hg _.
        apply (never_bind found_there); [by apply never_try|]. intros r h2 Hg2 Hr. apply never_run_opt; [do 2 (eapply grown_all; [eassumption|]); done|done].
    Qed.
    Lemma never_loop k : forall i h xs t b x c, 0 <= i -> Forall (dataset_at h) xs -> there t -> there x -> coll_at c h ->
      never (same xs) h (p_loop th n inj k i (Some xs) t b x c).
    Proof using Hinj Hclosed.
      induction k as [|k IH]; intros i h xs t b x c Hi Hx Ht Hsub Hc; cbn [p_loop]; [done|].
      eapply never_bind; [by apply never_count|]. cbv beta. intros z h1 Hg (ys & Hy & ->). case_bool_decide as Hlt; [|done].
      apply (never_bind found_there); [by apply never_try|]. intros r1 h2 Hg2 Hr1.
      assert (Hc2 : coll_at c h2) by (eapply coll_grown; [exact Hg2|]; by exists ys).
      apply (never_bind found_there).
      { destruct r1 as [y|]; [intros ? [= <-]; by apply Hr1|]. eapply never_bind; [by apply never_count|]. intros c2 h3 _ _. by apply never_try. }
      intros r h3 Hg3 Hr.
      assert (Hy3 : exists ys, collection_at h3 c ys /\ i < Z.of_nat (length ys)).
      { destruct (grown_trans _ _ _ Hg2 Hg3) as [_ H]. destruct (H c ys Hy) as [zs Hz]. exists (ys ++ zs). split; [done|]. rewrite app_length. lia. }
      eapply never_bind; [by apply never_get|]. cbv beta. intros e h4 Hg4 (d & -> & Hd).
      apply (never_bind any); [by apply never_set|]. intros _u h5 Hg5 _.
      assert (Hx5 : Forall (dataset_at h5) xs) by (do 5 (eapply grown_all; [eassumption|]); done).
      apply (never_inner (same xs)); [done|by apply Hg5|by eapply pick_there|]. intros out h6 Hg6.
      apply (never_bind (same xs)).
      - apply IH; [lia|by eapply grown_all|done|done|]. do 4 (eapply coll_grown; [eassumption|]). done.
      - intros [sc o] h7 _ E. exact E.
    Qed.
    Lemma never_range h xs t s : Forall (dataset_at h) xs -> there t -> never (same xs) h (p_range th n inj (Some xs) t s).
    Proof using Hinj Hclosed.
      intros Hx Ht. unfold p_range. destruct (two_ids s) as [a b]. apply (never_bind found_there); [by apply never_lookup|]. intros [x|] h1 Hg Hr; [|done].
      assert (Hsub : there x) by (by apply Hr). eapply never_bind; [apply never_collection; by eapply grown_all|]. cbv beta. intros cl h2 Hg2 Hcl.
      assert (Hnone : forall h3, grown h2 h3 -> never (same xs) h3 (tmp <~ lift (try_names th n t [dot b (B "none")]); p_run inj (Some xs) (match tmp with Some y => y | None => x end))).
      { intros h3 Hg3. apply (never_bind found_there); [by apply never_try|]. intros r h4 Hg4 Hr4. apply never_run; [|by eapply pick_there].
        do 4 (eapply grown_all; [eassumption|]). done. }
      destruct cl as [c|]; [|apply Hnone, grown_refl].
      assert (Hc : coll_at c h2) by (by apply Hcl). change (never (same xs) h2 (z <~ read (fun h => ccount h c); (if bool_decide (0 < z) then p_loop th n inj n 0 (Some xs) t b x c
        else tmp <~ lift (try_names th n t [dot b (B "none")]); p_run inj (Some xs) (match tmp with Some y => y | None => x end)))).
      eapply never_bind; [by apply never_count|]. cbv beta. intros z h3 Hg3 _. case_bool_decide; [|by apply Hnone].
      apply never_loop; [done| |done|done|by eapply coll_grown]. do 3 (eapply grown_all; [eassumption|]). done.
    Qed.
    Lemma never_condition h xs t s : Forall (dataset_at h) xs -> there t -> never (same xs) h (p_condition F ord th n inj (Some xs) t s).
    Proof using Hinj Hclosed.
      intros Hx Ht. unfold p_condition. destruct (two_ids s) as [a b]. apply (never_bind found_there); [by apply never_lookup|]. intros subt h1 Hg Hr.
      apply (never_bind any). { apply (never_bind any); [apply never_data; by eapply grown_all|]. done. }
      intros v h2 Hg2 _. assert (Hx2 : Forall (dataset_at h2) xs) by (do 2 (eapply grown_all; [eassumption|]); done).
      apply (never_bind (fun r _ => r.1.1 = Some xs /\ found_there r.2 h2)).
      { destruct subt as [x|]; [|done]. assert (Hsub : there x) by (by apply Hr). destruct (is_nil v); [done|].
        apply (never_bind (fun r h => forall d, r = Some d -> dataset_at h d)).
        - apply never_read. intros h3 _ _. split; [done|]. intros r [= <-] d Hd. by eapply as_dataset_at.
        - intros [d|] h3 Hg3 Hd; assert (Hx3 : Forall (dataset_at h3) xs) by (by eapply grown_all).
          + cbn. apply (never_bind found_there); [by apply never_lookup|]. intros tmp h4 Hg4 Htmp.
            apply (never_inner (fun r _ => r.1.1 = Some xs /\ found_there r.2 h2) h4 xs d _ (fun sc3 out => Ret (sc3, [out], Some (match tmp with Some y => y | None => x end)))).
            * by eapply grown_all.
            * apply Hg4. by apply Hd.
            * by eapply pick_there.
            * intros out h5 _. split; [done|]. intros y [= <-]. by eapply pick_there.
          + apply (never_bind any); [apply never_sprint|]. intros sv h4 Hg4 _. destruct sv as [|ch sv]; [done|].
            apply (never_bind found_there); [by apply never_lookup|]. intros tmp h5 Hg5 Htmp.
            apply (never_bind (same xs)); [apply Hinj; [do 2 (eapply grown_all; [eassumption|]); done|by eapply pick_there]|].
            intros [sc o] h6 _ E. split; [exact E|]. intros y [= <-]. by eapply pick_there. }
      intros [[sc1 outs] subt1] h3 Hg3 [E1 Hs1]. cbn in E1, Hs1. subst sc1.
      apply (never_bind any).
      { destruct (is_nil v); [done|]. apply never_read. intros h4 _ _. split; [|done]. pose proof (show_value_no_panic F (show F ord n h4) false v) as Hn. unfold sprint. by destruct (show_value F (show F ord n h4) false v). }
      intros [|] h4 Hg4 _; [|done]. apply (never_bind found_there); [by apply never_lookup|]. intros tmp h5 Hg5 Htmp.
      apply (never_bind (same xs)).
      - apply never_run_opt; [do 3 (eapply grown_all; [eassumption|]); done|]. intros y. destruct tmp as [y'|]; [intros [= <-]; by apply Htmp|]. apply Hs1.
      - intros [sc o] h6 _ E. exact E.
    Qed.
    Lemma never_param h xs t p : Forall (dataset_at h) xs -> there t -> never (same xs) h (p_param F ord th n lg inj (Some xs) t p).
    Proof using Hinj Hclosed.
      intros Hx Ht. unfold p_param. repeat case_bool_decide; try done.
      - by apply never_reference.
      - apply (never_bind any); [by apply never_string|]. done.
      - by apply never_range.
      - by apply never_condition.
      - destruct xs as [|d xs]; [done|]. apply (never_bind any); [|done].
        apply never_read. intros h1 Hs [Hg _]. split; [|done]. apply show_chain_ok. apply sound_chain; [done|]. apply Hg. by apply Forall_inv in Hx.
      - by destruct xs.
    Qed.
    Lemma never_params ps : forall h xs t, Forall (dataset_at h) xs -> there t -> never (same xs) h (p_params F ord th n lg inj (Some xs) t ps).
    Proof using Hinj Hclosed.
      induction ps as [|p ps IH]; intros h xs t Hx Ht; cbn [p_params]; [done|]. apply (never_bind (same xs)); [by apply never_param|].
      intros [sc a] h1 Hg E. unfold same in E. cbn [fst] in E. subst sc. apply (never_bind (same xs)); [apply IH; [by eapply grown_all|done]|]. intros [sc b] h2 _ E. exact E.
    Qed.
  End Body.
  Lemma never_injector n : forall lg h xs t, Forall (dataset_at h) xs -> there t -> never (same xs) h (p_injector F ord th n lg (Some xs) t).
  Proof using Hclosed.
    induction n as [|n IH]; intros lg h xs t Hx Ht; cbn [p_injector]; [done|]. destruct Ht as [T HT]. rewrite HT. destruct (t_root T) as [ps|]; [|done].
    apply (never_bind (same xs)); [apply never_params; [intros; by apply IH|done|by eexists]|]. intros [sc o] h1 _ E. exact E.
  Qed.
  Lemma never_execute n h t d : dataset_at h d -> there t -> never any h (p_execute F ord langs th n t (Some d)).
  Proof using Hclosed.
    intros Hd Ht. unfold p_execute. apply (never_bind any).
    - apply never_read. intros h1 Hs [Hg _]. split; [|done]. apply get_no_panic; [apply Hs|by apply Hg].
    - intros r h1 [Hg _] _. eapply never_bind; [apply never_injector; [|done]; constructor; [by apply Hg|constructor]|]. by intros [sc o] h2 _ _.
  Qed.
End Execute.
Lemma any_stable {A} : stable (@any A).
Proof. done. Qed.
(** ** No panic *)
Lemma grow_no_panic F ord langs th n t d h0 (ps0 : list (act bytes)) h ps i : closed th -> is_Some (th !! t) -> sound h0 -> dataset_at h0 d ->
  ps0 !! i = Some (p_execute F ord langs th n t (Some d)) -> Forall (careful h0) ps0 -> rtc par_step (h0, ps0) (h, ps) -> ps !! i <> Some Fail.
Proof.
  intros Hcl Ht Hs Hd Hi Hps Hst E. destruct (never_steps any i _ _ any_stable Hst) as (p & Hp & Hn); cbn in *.
  - done.
  - exists (p_execute F ord langs th n t (Some d)). split; [done|]. by apply never_execute.
  - rewrite E in Hp. by injection Hp as <-.
Qed.
Lemma careful_execute F ord langs th n t d h : closed th -> is_Some (th !! t) -> dataset_at h d -> careful h (p_execute F ord langs th n t (Some d)).
Proof. intros Hc Ht Hd. eapply never_careful. by apply never_execute. Qed.
