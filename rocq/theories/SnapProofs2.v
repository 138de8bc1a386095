(** * Clone among other goroutines (C122): no panic; not one moment. *)
From Verif Require Import GoBase GoStrings GoStringsProofs DatasetModel DatasetSpec DatasetProofs DatasetProofs2 DatasetProofs3 ParModel ParProofs MeanSpec MeanProofs SnapModel SnapSpec SnapProofs.
Local Open Scope nat_scope.

(** ** The data stay whole *)
Lemma kept_refl h : kept h h.
Proof. by intros l. Qed.
Lemma kept_trans h1 h2 h3 : kept h1 h2 -> kept h2 h3 -> kept h1 h3.
Proof. unfold kept. auto. Qed.
Lemma kept_insert h t o : kept h (<[t := o]> h).
Proof. intros l H. destruct (decide (l = t)) as [->|Hne]; [rewrite lookup_insert; eauto|by rewrite lookup_insert_ne]. Qed.
(** What an object refers to exists. *)
Definition sane (h : heap) (o : obj) : Prop :=
  match o with
  | ODs m => forall k r, m !! k = Some (VRef r) -> is_Some (h !! r)
  | OTs d => exists r, d = Some r /\ is_Some (h !! r)
  | OColl xs | OCollTS xs => forall x, x ∈ xs -> exists r, x = Some r /\ is_Some (h !! r)
  end.
Lemma whole_sane h : whole h <-> forall l o, h !! l = Some o -> sane h o.
Proof.
  split.
  - intros (H1 & H2 & H3) l [m|d|xs|xs] E; cbn; [intros k r; by eapply H1|by eapply H2|..]; intros x; apply (H3 l); [by left|by right].
  - intros H. split_and!.
    + intros l m k r E. by apply (H l _ E).
    + intros l d E. by apply (H l _ E).
    + intros l xs x [E|E]; by apply (H l _ E).
Qed.
Lemma sane_kept h h' o : kept h h' -> sane h o -> sane h' o.
Proof.
  intros Hk. destruct o as [m|d|xs|xs]; cbn.
  - intros H k r E. by apply Hk, (H k).
  - intros (r & -> & H). exists r. auto.
  - intros H x Hx. destruct (H x Hx) as (r & -> & Hr). exists r. auto.
  - intros H x Hx. destruct (H x Hx) as (r & -> & Hr). exists r. auto.
Qed.
Lemma whole_insert h t o : whole h -> sane h o -> whole (<[t := o]> h).
Proof.
  rewrite !whole_sane. intros Hw Ho l o' E. apply (sane_kept h); [apply kept_insert|]. destruct (decide (l = t)) as [->|Hne].
  - rewrite lookup_insert in E. by injection E as <-.
  - rewrite lookup_insert_ne in E by done. by apply (Hw l).
Qed.
Lemma mindful_kept {A} (p : act A) h h' : kept h h' -> mindful h p -> mindful h' p.
Proof. destruct p as [a| | |w k]; cbn; try done. intros Hg H h1 Hs H1. apply H; [done|]. by eapply kept_trans. Qed.
Lemma mindful_bind {A C} (m : act A) (f : A -> act C) : forall h, mindful h m -> (forall a h', kept h h' -> mindful h' (f a)) -> mindful h (abind m f).
Proof.
  induction m as [a| | |w k IH]; intros h Hm Hf; cbn; try done; [apply Hf, kept_refl|]. intros h1 Hs Hg. destruct (Hm h1 Hs Hg) as (H1 & H2 & H3).
  split; [done|]. split; [done|]. apply IH; [done|]. intros a h' Hg'. apply Hf. eapply kept_trans; [exact Hg|]. by eapply kept_trans.
Qed.
Lemma mindful_write f h0 : (forall h h', whole h -> kept h0 h -> f h = Ok h' -> whole h' /\ kept h h') -> mindful h0 (write f).
Proof.
  intros H h Hs Hg. specialize (H h). destruct (f h) as [h1| |] eqn:E; cbn.
  - destruct (H h1 Hs Hg eq_refl). done.
  - split; [done|]. split; [apply kept_refl|done].
  - split; [done|]. split; [apply kept_refl|done].
Qed.
Lemma mindful_set h n d k v : (forall r, v = VRef r -> is_Some (h !! r)) -> mindful h (write (fun h => dset n h d k v)).
Proof.
  intros Hv. apply mindful_write. intros h1 h' Hw Hk E. apply dset_inside in E as (t & m & Hi & ->). split; [|apply kept_insert].
  apply whole_insert; [done|]. cbn. intros k' r Hr. destruct (decide (k' = k)) as [->|Hne].
  - rewrite lookup_insert in Hr. injection Hr as ->. by apply Hk, Hv.
  - rewrite lookup_insert_ne in Hr by done. destruct Hw as (H1 & _). eapply H1; [by eapply inside_at|exact Hr].
Qed.
Lemma mindful_del h n d k : mindful h (write (fun h => ddel n h d k)).
Proof.
  apply mindful_write. intros h1 h' Hw Hk E. apply ddel_inside in E as (t & m & Hi & ->). split; [|apply kept_insert].
  apply whole_insert; [done|]. cbn. intros k' r Hr. apply lookup_delete_Some in Hr as [_ Hr]. destruct Hw as (H1 & _). eapply H1; [by eapply inside_at|exact Hr].
Qed.
Lemma elements_whole h c xs ys : whole h -> elements h c = Some xs -> (forall x, x ∈ ys -> x ∈ xs \/ exists r, x = Some r /\ is_Some (h !! r)) ->
  whole (set_elements h c ys) /\ kept h (set_elements h c ys).
Proof.
  unfold elements, set_elements. intros Hw E Hy. assert (Hys : forall x, x ∈ ys -> exists r, x = Some r /\ is_Some (h !! r)).
  { intros x Hx. destruct (Hy x Hx) as [Hin|Hr]; [|done]. destruct Hw as (_ & _ & H3). apply (H3 c xs); [|done]. unfold collection_at. destruct (h !! c) as [[]|]; try done; injection E as ->; auto. }
  destruct (h !! c) as [[m|d|zs|zs]|] eqn:Ec; try done; (split; [by apply whole_insert|apply kept_insert]).
Qed.
Lemma mindful_push h c d : is_Some (h !! d) -> mindful h (write (fun h => cpush h c (Some d))).
Proof.
  intros Hd. apply mindful_write. intros h1 h' Hw Hk E. unfold cpush in E. destruct (elements h1 c) as [xs|] eqn:Ex; [|done]. injection E as <-.
  eapply elements_whole; [done|exact Ex|]. intros x [Hx|Hx]%elem_of_app; [by left|]. apply elem_of_list_singleton in Hx as ->. right. eauto.
Qed.
Lemma mindful_unshift h c d : is_Some (h !! d) -> mindful h (write (fun h => cunshift h c (Some d))).
Proof.
  intros Hd. apply mindful_write. intros h1 h' Hw Hk E. unfold cunshift in E. destruct (elements h1 c) as [xs|] eqn:Ex; [|done]. injection E as <-.
  eapply elements_whole; [done|exact Ex|]. intros x [->|Hx]%elem_of_cons; [|by left]. right. eauto.
Qed.
(** Shift and Pop; the dataset they return is not looked at. *)
Definition only_heap (r : outcome (heap * option loc)) : outcome heap := match r with Ok (h, _) => Ok h | Panic => Panic | NoFuel => NoFuel end.
Lemma mindful_shift h c : mindful h (write (fun h => only_heap (cshift h c))).
Proof.
  apply mindful_write. intros h1 h' Hw Hk E. unfold cshift in E. destruct (elements h1 c) as [xs|] eqn:Ex; [|done]. destruct (xs !! 0) as [x0|]; [|done]. injection E as <-.
  eapply elements_whole; [done|exact Ex|]. intros x Hx. left. rewrite <- (take_drop 1 xs). apply elem_of_app. by right.
Qed.
Lemma mindful_pop h c : mindful h (write (fun h => only_heap (cpop h c))).
Proof.
  apply mindful_write. intros h1 h' Hw Hk E. unfold cpop in E. destruct (elements h1 c) as [xs|] eqn:Ex; [|done]. cbv zeta in E. case_bool_decide; [done|].
  destruct (xs !! _) as [x0|]; [|done]. injection E as <-. eapply elements_whole; [done|exact Ex|]. intros x Hx. left. rewrite <- (take_drop (Z.to_nat (Z.of_nat (length xs) - 1)) xs). apply elem_of_app. by left.
Qed.
(** A new object with something that exists in it. *)
Lemma mindful_new (new : heap -> loc) o h : sane h o -> mindful h (Act (fun h => <[new h := o]> h) (fun h => Ret (new h))).
Proof. intros Ho h1 Hw Hk. cbn. split; [|split; [apply kept_insert|done]]. apply whole_insert; [done|]. by eapply sane_kept. Qed.

(** ** Clone does not panic *)
Fixpoint unharmed {A} (h0 : heap) (p : act A) : Prop :=
  match p with
  | Ret _ | Out => True
  | Fail => False
  | Act w k => forall h, whole h -> kept h0 h -> whole (w h) /\ kept h (w h) /\ unharmed (w h) (k h)
  end.
Lemma unharmed_mindful {A} (p : act A) : forall h, unharmed h p -> mindful h p.
Proof. induction p as [a| | |w k IH]; intros h; cbn; try done. intros H h1 Hs Hg. destruct (H h1 Hs Hg) as (? & ? & ?). auto. Qed.
Lemma unharmed_kept {A} (p : act A) h h' : kept h h' -> unharmed h p -> unharmed h' p.
Proof. destruct p as [a| | |w k]; cbn; try done. intros Hg H h1 Hs H1. apply H; [done|]. by eapply kept_trans. Qed.
Lemma unharmed_bind {A C} (m : act A) (f : A -> act C) : forall h, unharmed h m -> (forall a h', kept h h' -> unharmed h' (f a)) -> unharmed h (abind m f).
Proof.
  induction m as [a| | |w k IH]; intros h Hm Hf; cbn in *; try done; [apply Hf, kept_refl|]. intros h1 Hs Hg. destruct (Hm h1 Hs Hg) as (H1 & H2 & H3).
  split; [done|]. split; [done|]. apply IH; [done|]. intros a h' Hg'. apply Hf. eapply kept_trans; [exact Hg|]. by eapply kept_trans.
Qed.
Lemma unharmed_entries (f : loc -> act tree) : (forall h l, is_Some (h !! l) -> unharmed h (f l)) ->
  forall l h, (forall k r, (k, VRef r) ∈ l -> is_Some (h !! r)) -> unharmed h (p_entries f l).
Proof.
  intros Hf. induction l as [|[k v] l IH]; intros h Hl; cbn [p_entries]; [done|]. apply unharmed_bind.
  - assert (Hc : (exists r, v = VRef r) \/ forall d, v <> VRef d) by (destruct v; eauto; by right). destruct Hc as [[r ->]|Hv].
    + apply Hf, (Hl k). by left.
    + destruct v; try done. by destruct (Hv l0).
  - intros t h' Hk. apply unharmed_bind; [|done]. apply IH. intros k' r Hin. apply Hk, (Hl k'). by right.
Qed.
Lemma unharmed_elements (f : loc -> act tree) : (forall h l, is_Some (h !! l) -> unharmed h (f l)) ->
  forall xs h, (forall x, x ∈ xs -> exists r, x = Some r /\ is_Some (h !! r)) -> unharmed h (p_elements f xs).
Proof.
  intros Hf. induction xs as [|x xs IH]; intros h Hl; cbn [p_elements]; [done|]. destruct (Hl x) as (r & -> & Hr); [by left|]. apply unharmed_bind; [by apply Hf|].
  intros t h' Hk. apply unharmed_bind; [|done]. apply IH. intros x Hx. destruct (Hl x) as (r' & -> & Hr'); [by right|]. exists r'. auto.
Qed.
Lemma unharmed_copy ord n : order_ok ord -> forall h l, is_Some (h !! l) -> unharmed h (p_copy ord n l).
Proof.
  intros Hord. induction n as [|n IH]; intros h l Hl; [done|]. cbn [p_copy unharmed]. intros h1 Hw Hk. split; [done|]. split; [apply kept_refl|].
  destruct (Hk l Hl) as [o Ho]. pose proof (proj1 (whole_sane h1) Hw l o Ho) as Hs. rewrite Ho. destruct o as [m|d|xs|xs]; cbn in Hs.
  - apply unharmed_bind; [|done]. apply unharmed_entries; [done|]. intros k r Hin. rewrite (Hord h1 m) in Hin. apply elem_of_map_to_list in Hin. by apply (Hs k).
  - destruct Hs as (r & -> & Hr). apply unharmed_bind; [by apply IH|done].
  - apply unharmed_bind; [|done]. by apply unharmed_elements.
  - apply unharmed_bind; [|done]. by apply unharmed_elements.
Qed.
Lemma mindful_copy ord n h l : order_ok ord -> is_Some (h !! l) -> mindful h (p_copy ord n l).
Proof. intros. by apply unharmed_mindful, unharmed_copy. Qed.
Lemma unharmed_steps {A} i (s s' : heap * list (act A)) : rtc par_step s s' -> whole s.1 -> Forall (mindful s.1) s.2 ->
  (exists p, s.2 !! i = Some p /\ unharmed s.1 p) -> exists p, s'.2 !! i = Some p /\ unharmed s'.1 p.
Proof.
  induction 1 as [s|s1 s2 s3 Hst _ IH]; intros Hw Hps Hi; [done|]. destruct Hst as [h ps j w k E]. cbn [fst snd] in *. rewrite Forall_forall in Hps.
  assert (Hj : mindful h (Act w k)) by (apply Hps; by eapply elem_of_list_lookup_2). destruct (Hj h Hw (kept_refl h)) as (H1 & H2 & H3). apply IH; [done|..].
  - apply Forall_forall. intros p Hp. apply elem_of_list_lookup in Hp as [j' Hj']. destruct (decide (j = j')) as [<-|Hne].
    + rewrite list_lookup_insert in Hj' by (by eapply lookup_lt_Some). by injection Hj' as <-.
    + rewrite list_lookup_insert_ne in Hj' by done. eapply mindful_kept; [exact H2|]. apply Hps. by eapply elem_of_list_lookup_2.
  - destruct Hi as (p & Hp & Hn). destruct (decide (j = i)) as [->|Hne].
    + rewrite E in Hp. injection Hp as <-. exists (k h). rewrite list_lookup_insert by (by eapply lookup_lt_Some). split; [done|]. apply Hn; [done|apply kept_refl].
    + exists p. rewrite list_lookup_insert_ne by done. split; [done|]. by eapply unharmed_kept.
Qed.
Lemma copy_no_panic ord n l h0 (ps0 : list (act tree)) h ps i : order_ok ord -> whole h0 -> is_Some (h0 !! l) -> Forall (mindful h0) ps0 ->
  ps0 !! i = Some (p_copy ord n l) -> rtc par_step (h0, ps0) (h, ps) -> ps !! i <> Some Fail.
Proof.
  intros Hord Hw Hl Hps Hi Hst E. destruct (unharmed_steps i _ _ Hst Hw Hps) as (p & Hp & Hu); [eexists; split; [exact Hi|]; by apply unharmed_copy|].
  cbn [snd] in Hp. rewrite E in Hp. by injection Hp as <-.
Qed.

(** ** What the copy shows *)
Lemma entry_of_copy h l es : un_entries h l es -> forall k t, (k, t) ∈ es ->
  exists v, (k, v) ∈ l /\ ((t = Leaf v /\ forall d, v <> VRef d) \/ exists d, v = VRef d /\ unfolds h d t).
Proof.
  induction 1 as [|k v l es Hv _ IH|k d t l es Hd _ IH]; intros k' t' Hin; [by apply elem_of_nil in Hin|..].
  - apply elem_of_cons in Hin as [[= -> ->]|Hin]; [exists v; split; [by left|by left]|]. destruct (IH _ _ Hin) as (w & Hw & Hc). exists w. split; [by right|done].
  - apply elem_of_cons in Hin as [[= -> ->]|Hin]; [exists (VRef d); split; [by left|right; eauto]|]. destruct (IH _ _ Hin) as (w & Hw & Hc). exists w. split; [by right|done].
Qed.
Lemma leaf_path h t ks v : leaf t ks v -> forall l, unfolds h l t -> dataset_at h l /\ ks <> [] /\ at_path h l ks (Some v).
Proof.
  induction 1 as [t ks v _ IH|es k v Hin|es k t ks v Hin Hl IH]; intros l Hu.
  - inversion Hu as [|? d ? E Hd|]; subst. destruct (IH d Hd) as (H1 & H2 & H3). split; [right; eauto|]. split; [done|]. by eapply ap_wrap.
  - inversion Hu as [? m ents ? E Hp He| |]; subst. split; [left; eauto|]. split; [done|]. destruct (entry_of_copy _ _ _ He _ _ Hin) as (w & Hw & [[[= <-] _]|(d & _ & Hd)]); [|inversion Hd].
    rewrite Hp in Hw. apply elem_of_map_to_list in Hw. rewrite <- Hw. by eapply ap_last.
  - inversion Hu as [? m ents ? E Hp He| |]; subst. split; [left; eauto|]. split; [done|]. destruct (entry_of_copy _ _ _ He _ _ Hin) as (w & Hw & [[-> _]|(d & -> & Hd)]); [inversion Hl|].
    destruct (IH d Hd) as (H1 & H2 & H3). rewrite Hp in Hw. apply elem_of_map_to_list in Hw. by eapply ap_dataset.
Qed.

(** ** Two datasets, one after the other *)
Definition field (x : string) (v : value) : obj := ODs (list_to_map [(B x, v)]).
Definition two : heap := list_to_map
  [(1%positive, ODs (list_to_map [(B "a", VRef 2); (B "b", VRef 4)])); (2%positive, OTs (Some 3%positive)); (3%positive, field "x" (VInt KInt 0));
   (4%positive, OTs (Some 5%positive)); (5%positive, field "x" (VInt KInt 0))].
Definition first_b_then_a : act tree :=
  _ <~ write (fun h => dset 9 h 4%positive (B "x") (VInt KInt 1)); _ <~ write (fun h => dset 9 h 2%positive (B "x") (VInt KInt 1)); Ret (Leaf VNil).
Definition in_order (h : heap) (m : gmap bytes value) : list (bytes * value) := map_to_list m.
Lemma in_order_ok : order_ok in_order.
Proof. intros h m. reflexivity. Qed.
(** The schedule [sch] as a course. *)
Definition go {A} (s : heap * list (act A)) (i : nat) : heap * list (act A) :=
  match s.2 !! i with Some (Act w k) => (w s.1, <[i := k s.1]> s.2) | _ => s end.
Definition can {A} (s : heap * list (act A)) (i : nat) : bool := match s.2 !! i with Some (Act _ _) => true | _ => false end.
Fixpoint all_can {A} (sch : list nat) (s : heap * list (act A)) : bool := match sch with [] => true | i :: sch' => can s i && all_can sch' (go s i) end.
Definition by_now {A} (sch : list nat) (s : heap * list (act A)) (m : nat) : heap * list (act A) := foldl go s (take m sch).
Lemma go_step {A} (s : heap * list (act A)) i : can s i = true -> par_step s (go s i).
Proof. destruct s as [h ps]. unfold can, go. cbn [fst snd]. destruct (ps !! i) as [[| | |w k]|] eqn:E; try discriminate. intros _. exact (par_act h ps i w k E). Qed.
Lemma go_steps {A} sch : forall s : heap * list (act A), rtc par_step s (foldl go s sch).
Proof.
  induction sch as [|i sch IH]; intros s; cbn [foldl]; [constructor|]. destruct (can s i) eqn:E; [eapply rtc_l; [by apply go_step|apply IH]|].
  replace (go s i) with s; [apply IH|]. unfold can in E. unfold go. destruct (s.2 !! i) as [[]|]; [reflexivity|reflexivity|reflexivity|discriminate|reflexivity].
Qed.
Lemma ran {A} sch (s : heap * list (act A)) ps : (foldl go s sch).2 = ps -> exists h, rtc par_step s (h, ps).
Proof. intros <-. exists (foldl go s sch).1. rewrite <- surjective_pairing. apply go_steps. Qed.
Lemma by_now_course {A} sch : forall s : heap * list (act A), all_can sch s = true -> course (length sch) (by_now sch s).
Proof.
  induction sch as [|i sch IH]; intros s H m Hm; [cbn in Hm; lia|]. cbn [all_can] in H. apply andb_true_iff in H as [H1 H2]. destruct m as [|m].
  - by apply go_step.
  - apply (IH (go s i) H2 m). cbn in Hm. lia.
Qed.
Definition sch1 : list nat := [0; 0; 0; 1; 1; 0; 0].
Definition start1 : heap * list (act tree) := (two, [p_copy in_order 9 1%positive; first_b_then_a]).
Definition x_of (h : heap) (k : string) : option Z := match dget 9 h 1%positive (B k) with Ok (Some (VInt _ z)) => Some z | _ => None end.
Definition mixed (h : heap) : bool := match x_of h "a>x", x_of h "b>x" with Some a, Some b => (b =? 0)%Z && (a =? 1)%Z | _, _ => true end.
Definition seen1 : tree := Node [(B "b", Wrap (Node [(B "x", Leaf (VInt KInt 0))])); (B "a", Wrap (Node [(B "x", Leaf (VInt KInt 1))]))].
Lemma get_x h k z : mixed h = false -> gets h 1%positive (B k) (Some (VInt KInt z)) -> k = "a>x"%string \/ k = "b>x"%string -> x_of h k = Some z.
Proof.
  intros Hm Hg Hk. unfold mixed in Hm. destruct (x_of h "a>x") as [a|] eqn:Ea; [|done]. destruct (x_of h "b>x") as [b|] eqn:Eb; [|done].
  assert (Hx : exists z', x_of h k = Some z') by (destruct Hk as [->| ->]; eauto). destruct Hx as [z' Hx]. rewrite Hx. unfold x_of in Hx.
  destruct (dget 9 h 1%positive (B k)) as [[v|]| |] eqn:E; try done. assert (Hg' : gets h 1%positive (B k) (Some v)) by (by exists 9).
  pose proof (gets_det _ _ _ _ _ Hg Hg') as [= <-]. done.
Qed.
Lemma not_mixed m : m <= 7 -> mixed (by_now sch1 start1 m).1 = false.
Proof. intros Hm. assert (Hall : forallb (fun m => negb (mixed (by_now sch1 start1 m).1)) (seq 0 8) = true) by (vm_compute; reflexivity).
  rewrite forallb_forall in Hall. apply negb_true_iff, Hall, in_seq. lia.
Qed.
Lemma not_one_moment : exists (path : nat -> heap * list (act tree)) T, course T path /\ path 0 = (two, [p_copy in_order 9 1%positive; first_b_then_a]) /\
  (path T).2 !! 0 = Some (Ret seen1) /\ leaf seen1 [B "b"; B "x"] (VInt KInt 0) /\ leaf seen1 [B "a"; B "x"] (VInt KInt 1) /\ forall m, m <= T ->
    ~ (gets (path m).1 1%positive (B "b>x") (Some (VInt KInt 0)) /\ gets (path m).1 1%positive (B "a>x") (Some (VInt KInt 1))) /\ ~ unfolds (path m).1 1%positive seen1.
Proof.
  exists (by_now sch1 start1), 7. assert (H1 : leaf seen1 [B "b"; B "x"] (VInt KInt 0)).
  { eapply lf_below; [left|]. apply lf_wrap, lf_here. left. }
  assert (H2 : leaf seen1 [B "a"; B "x"] (VInt KInt 1)).
  { eapply lf_below; [right; left|]. apply lf_wrap, lf_here. left. }
  split; [apply (by_now_course sch1); vm_compute; reflexivity|]. split; [reflexivity|]. split; [vm_compute; reflexivity|]. split; [done|]. split; [done|].
  intros m Hm. apply not_mixed in Hm. remember (by_now sch1 start1 m).1 as h eqn:Eh. clear Eh.
  assert (Hno : ~ (gets h 1%positive (B "b>x") (Some (VInt KInt 0)) /\ gets h 1%positive (B "a>x") (Some (VInt KInt 1)))).
  { intros [Hb Ha]. pose proof (get_x h "b>x" _ Hm Hb (or_intror eq_refl)) as Eb. pose proof (get_x h "a>x" _ Hm Ha (or_introl eq_refl)) as Ea. unfold mixed in Hm. by rewrite Ea, Eb in Hm. }
  split; [done|]. intros Hu. apply Hno. split; apply gets_path.
  - by apply (leaf_path h _ _ _ H1).
  - by apply (leaf_path h _ _ _ H2).
Qed.

(** ** A list is copied while it grows *)
Definition people : heap := list_to_map
  [(1%positive, OTs (Some 2%positive)); (2%positive, field "list" (VRef 3)); (3%positive, OCollTS [Some 4%positive]); (4%positive, OTs (Some 5%positive));
   (5%positive, field "n" (VStr (B "x"))); (6%positive, OTs (Some 7%positive)); (7%positive, field "n" (VStr (B "y")))].
Definition push_and_set : act tree :=
  _ <~ write (fun h => cpush h 3%positive (Some 6%positive)); _ <~ write (fun h => dset 9 h 4%positive (B "n") (VStr (B "z"))); Ret (Leaf VNil).
Definition person (s : string) : tree := Wrap (Node [(B "n", Leaf (VStr (B s)))]).
Definition copied_list (l : list tree) : tree := Wrap (Node [(B "list", Coll true l)]).
Definition start2 : heap * list (act tree) := (people, [p_copy in_order 9 1%positive; push_and_set]).
Lemma sane_people : forall l o, people !! l = Some o -> sane people o.
Proof.
  intros l o E. apply elem_of_list_to_map_2 in E. repeat (apply elem_of_cons in E as [[= -> ->]|E]); try (by apply elem_of_nil in E).
  - exists 2%positive. split; [done|]. by eexists.
  - cbn. intros k r Hk. apply lookup_insert_Some in Hk as [[_ [= <-]]|[_ Hk]]; [by eexists|]. done.
  - cbn. intros x Hx. apply elem_of_list_singleton in Hx as ->. exists 4%positive. split; [done|]. by eexists.
  - exists 5%positive. split; [done|]. by eexists.
  - cbn. intros k r Hk. by apply lookup_insert_Some in Hk as [[_ [=]]|[_ Hk]].
  - exists 7%positive. split; [done|]. by eexists.
  - cbn. intros k r Hk. by apply lookup_insert_Some in Hk as [[_ [=]]|[_ Hk]].
Qed.
Lemma copy_case : whole people /\ Forall (mindful people) start2.2 /\
  (exists h, rtc par_step start2 (h, [Ret (copied_list [person "z"]); Ret (Leaf VNil)])) /\
  (exists h, rtc par_step start2 (h, [Ret (copied_list [person "x"; person "y"]); Ret (Leaf VNil)])) /\
  unfolds people 1%positive (copied_list [person "x"]).
Proof.
  assert (Hw : whole people) by (apply whole_sane, sane_people). split; [done|]. split; [|split_and!].
  - cbn [snd start2]. constructor; [apply mindful_copy; [apply in_order_ok|by eexists]|]. constructor; [|done]. unfold push_and_set.
    apply mindful_bind; [apply mindful_push; by eexists|]. intros _ h' _. apply mindful_bind; [by apply mindful_set|done].
  - apply (ran [0; 0; 0; 1; 1; 0; 0] start2). vm_compute. reflexivity.
  - apply (ran [1; 0; 0; 0; 0; 0; 0; 0; 1] start2). vm_compute. reflexivity.
  - eapply un_ts; [reflexivity|]. eapply (un_ds _ _ _ [(B "list", VRef 3)]); [reflexivity|reflexivity|]. apply ue_ref; [|constructor].
    eapply (un_coll _ _ true); [reflexivity|]. apply ul_cons; [|constructor]. eapply un_ts; [reflexivity|].
    eapply (un_ds _ _ _ [(B "n", VStr (B "x"))]); [reflexivity|reflexivity|]. apply ue_leaf; [done|constructor].
Qed.
