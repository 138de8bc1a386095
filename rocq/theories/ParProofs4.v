(** * Executions at the same time: the two ways not to notice the others (C112). *)
From Verif Require Import GoBase GoStrings GoStringsProofs DatasetModel LangModel DatasetSpec DatasetProofs2 DatasetProofs3 TemplateModel TemplateSpec TemplateProofs5 RenderSpec RenderProofs HoleSpec ParModel ParProofs ParProofs2 ParSpec ParProofs3.
From Verif Require SameSpec SameProofs.
Local Open Scope Z_scope.

Section Jobs.
  Context (F : golib) (ord : heap -> gmap bytes value -> list (bytes * value)) (Ho : order_ok ord) (langs : nat -> option lang) (th : theap) (Hth : compiled th) (h0 : heap).
  (** What the execution [j] writes: counters of the members; nothing if it has no loop. *)
  Definition writes (j : job) (h h' : heap) : Prop := forall x, h' !! x = h !! x \/ member h0 j.2 x /\ ~ loop_free th j.1.
  Lemma reaches_next t n x name y : reaches th t x -> get_template n th x name = Ok (Some y) -> reaches th t y.
  Proof. intros H Hg. eapply rtc_r; [exact H|]. exists name. apply get_template_visible. by exists n. Qed.
  Lemma reaches_loop_free t x T l s : loop_free th t -> reaches th t x -> th !! x = Some T -> t_root T = Some (map stored l) -> TRange s ∉ l.
  Proof.
    intros (S & Ht & Hn & Hno) Hx. apply Hno. clear -Ht Hn Hx. induction Hx as [x|x y z [n Hv] _ IH]; [done|]. apply IH. by eapply Hn.
  Qed.
  Section Job.
    Context (j : job).
    Notation G := (region h0 j.2).
    Lemma region_child x y : G x -> child h0 x y -> G y.
    Proof. intros (d & Hd & Hr) Hc. exists d. split; [done|]. by eapply rtc_r. Qed.
    Definition EL (e : loc) : Prop := exists c xs, G c /\ collection_at h0 c xs /\ Some e ∈ xs.
    Lemma cget_elem h c i d : ticks h0 h -> G c -> cget h c i = Ok (Some (Some d)) -> G d /\ EL d.
    Proof.
      intros H Hc Hg. rewrite (ticks_cget h0) in Hg by done. unfold cget in Hg. destruct (elements h0 c) as [xs|] eqn:Ex; [|done].
      destruct (bool_decide (i < 0) || bool_decide (Z.of_nat (length xs) <= i)); [done|]. destruct (xs !! Z.to_nat i) as [e|] eqn:Ei; [|done]. injection Hg as ->.
      assert (Hcoll : collection_at h0 c xs) by (unfold elements in Ex; destruct (h0 !! c) as [[]|] eqn:E0; try done; injection Ex as ->; [by left|by right]).
      assert (Some d ∈ xs) by (by eapply elem_of_list_lookup_2). split; [|by exists c, xs]. eapply region_child; [exact Hc|]. by eapply child_coll.
    Qed.
    Lemma set_writes n h d z h1 : ticks h0 h -> EL d -> ~ loop_free th j.1 -> dset n h d (B ".counter") (VInt KInt z) = Ok h1 -> ticks h0 h1 /\ writes j h h1.
    Proof.
      intros H (c & xs & Hc & Hx & He) Hra Hs. apply dset_inside in Hs as (x & m & Hi & ->). split; [apply tick_write; [done|by eapply inside_at]|].
      intros y. destruct (decide (y = x)) as [->|Hne]; [|left; by rewrite lookup_insert_ne]. right. split; [|done].
      destruct (ticks_inside h0 h d x m H Hi) as [m0 Hi0]. by exists c, xs, d, m0.
    Qed.
    Lemma writes_refl h : ticks h0 h -> writes j h h.
    Proof. intros _. by left. Qed.
    (** A value found in data that only counters have changed. *)
    Lemma ticks_child h x y : ticks h0 h -> child h x y -> child h0 x y.
    Proof.
      intros H Hc. pose proof (H x) as Hx. inversion Hc as [l m k d E1 E2|l d E1|l xs d E1 E2]; subst.
      - destruct Hx as [E|(m0 & z & E0 & E)]; [eapply child_ds; [by rewrite <- E|done]|]. rewrite E in E1. injection E1 as <-.
        destruct (decide (k = B ".counter")) as [->|Hk]; [by rewrite lookup_insert in E2|]. rewrite lookup_insert_ne in E2 by done. by eapply child_ds.
      - destruct Hx as [E|(m0 & z & E0 & E)]; [apply child_ts; congruence|congruence].
      - destruct Hx as [E|(m0 & z & E0 & E)]; [|destruct E1; congruence]. eapply child_coll; [|done]. unfold collection_at in *. by rewrite <- E.
    Qed.
    Lemma get_vok n : forall h d s v, ticks h0 h -> G d -> dget n h d s = Ok (Some v) -> vok G v.
    Proof.
      induction n as [|n IH]; intros h d s v H Hd Hg; [done|]. cbn [dget] in Hg. destruct (h !! d) as [[m|[w|]|xs|xs]|] eqn:E; try done.
      - assert (Hval : forall k w, m !! k = Some w -> vok G w).
        { intros k w Hk l ->. eapply region_child; [exact Hd|]. eapply ticks_child; [done|]. by eapply child_ds. }
        destruct (split_on gt s) as [|x0 [|x1 rest]]; [injection Hg as Hg; by eapply Hval..|]. destruct (m !! x0) as [sub|] eqn:E0; [|done].
        destruct (as_dataset h sub) as [ds|] eqn:Eds.
        { eapply IH; [done| |exact Hg]. apply (Hval x0 sub E0). destruct sub; try done. cbn in Eds. destruct (h !! l) as [[]|]; try done; by injection Eds as ->. }
        destruct (as_collection h sub) as [dsc|] eqn:Ecl; [|injection Hg as Hg; by eapply Hval]. destruct (atoi x1) as [entry|]; [|done].
        assert (Hdc : G dsc).
        { apply (Hval x0 sub E0). destruct sub; try done. cbn in Ecl. destruct (h !! l) as [[]|]; try done; by injection Ecl as ->. }
        destruct (cget h dsc entry) as [[[e|]|]| |] eqn:Ec; try done. cbn [obind] in Hg. destruct (cget_elem h dsc entry e H Hdc Ec) as [He _].
        destruct rest as [|x2 rest]; [injection Hg as <-; by intros l [= <-]|by eapply IH].
      - eapply IH; [done| |exact Hg]. eapply region_child; [exact Hd|]. eapply ticks_child; [done|]. by apply child_ts.
    Qed.

    (** ** Nobody counts what it reads *)
    Definition agree (h h' : heap) : Prop := forall x, G x -> h !! x = h' !! x.
    Lemma agree_ds h h' v : vok G v -> agree h h' -> as_dataset h v = as_dataset h' v.
    Proof. intros Hv Ha. destruct v; try done. cbn. by rewrite (Ha l) by (by apply Hv). Qed.
    Lemma agree_cl h h' v : vok G v -> agree h h' -> as_collection h v = as_collection h' v.
    Proof. intros Hv Ha. destruct v; try done. cbn. by rewrite (Ha l) by (by apply Hv). Qed.
    Lemma agree_get n : forall h h' d s, ticks h0 h -> ticks h0 h' -> agree h h' -> G d -> dget n h d s = dget n h' d s.
    Proof.
      induction n as [|n IH]; intros h h' d s H H' Ha Hd; [done|]. cbn [dget]. rewrite <- (Ha d Hd). destruct (h !! d) as [[m|[w|]|xs|xs]|] eqn:E; try done.
      - assert (Hval : forall k w, m !! k = Some w -> vok G w).
        { intros k w Hk l ->. eapply region_child; [exact Hd|]. eapply ticks_child; [exact H|]. by eapply child_ds. }
        destruct (split_on gt s) as [|x0 [|x1 rest]]; [done..|]. destruct (m !! x0) as [sub|] eqn:E0; [|done]. pose proof (Hval x0 sub E0) as Hv.
        rewrite <- (agree_ds h h' sub Hv Ha), <- (agree_cl h h' sub Hv Ha). destruct (as_dataset h sub) as [ds|] eqn:Eds.
        { apply IH; try done. apply Hv. destruct sub; try done. cbn in Eds. destruct (h !! l) as [[]|]; try done; by injection Eds as ->. }
        destruct (as_collection h sub) as [dsc|] eqn:Ecl; [|done]. destruct (atoi x1) as [entry|]; [|done].
        assert (Hdc : G dsc).
        { apply Hv. destruct sub; try done. cbn in Ecl. destruct (h !! l) as [[]|]; try done; by injection Ecl as ->. }
        rewrite (ticks_cget h0 h' dsc), <- (ticks_cget h0 h dsc) by done.
        destruct (cget h dsc entry) as [[[e|]|]| |] eqn:Ec; cbn [obind]; try done. destruct (cget_elem h dsc entry e H Hdc Ec) as [He _].
        destruct rest as [|x2 rest]; [done|by apply IH].
      - apply IH; try done. eapply region_child; [exact Hd|]. eapply ticks_child; [exact H|]. by apply child_ts.
    Qed.
    Lemma agree_show n h h' go d : ticks h0 h -> agree h h' -> G d -> show F ord n h go d = show F ord n h' go d.
    Proof.
      intros H Ha Hd. apply (SameProofs.alike_show (fun x y => x = y /\ G x)); [|done..]. intros l l' [<- Hl]. rewrite <- (Ha l Hl).
      assert (Hch : forall y, child h l y -> G y) by (intros y Hy; eapply region_child; [exact Hl|by eapply ticks_child]).
      assert (Hxs : forall xs, collection_at h l xs -> Forall2 (option_Forall2 (fun x y => x = y /\ G x)) xs xs).
      { intros xs Hxs. apply Forall_Forall2_diag. apply Forall_forall. intros [e|] He; constructor. split; [done|]. apply Hch. by eapply child_coll. }
      destruct (h !! l) as [[m|w|xs|xs]|] eqn:E; constructor.
      - intros k. destruct (m !! k) as [v|] eqn:Ek; constructor. destruct v as [| | | | | | | | | | | |e|]; try (left; done). right. exists e, e. split; [done|]. split; [done|]. split; [done|].
        apply Hch. by eapply child_ds.
      - destruct w as [e|]; constructor. split; [done|]. apply Hch. by apply child_ts.
      - apply Hxs. by left.
      - apply Hxs. by right.
    Qed.
    Lemma agree_sprint n h h' v : ticks h0 h -> agree h h' -> vok G v -> sprint F ord n h v = sprint F ord n h' v.
    Proof. intros H Ha Hv. unfold sprint. destruct v; try done. cbn. by rewrite (agree_show n h h') by (try done; by apply Hv). Qed.
    Lemma fair_private n : fair (ticks h0) agree (writes j) (fun _ => True) (p_execute F ord langs th n j.1 j.2).
    Proof.
      apply (fair_execute (ticks h0) agree (writes j) writes_refl F ord langs th G EL (fun _ => True) (fun _ => True) (fun _ => True) True (~ loop_free th j.1) (fun _ _ => True)) with (S := reaches th j.1).
      - intros. by apply agree_get.
      - intros n1 h d s v H Hd _ Hg. split; [by eapply get_vok|done].
      - intros h h' v H H' _. by rewrite (ticks_ds h0 h), (ticks_ds h0 h').
      - intros h h' v H H' _. by rewrite (ticks_cl h0 h), (ticks_cl h0 h').
      - intros h h' c H H' _ _. by rewrite (ticks_count h0 h), (ticks_count h0 h').
      - intros h h' c i H H' _ _. by rewrite (ticks_cget h0 h), (ticks_cget h0 h').
      - intros. by eapply cget_elem.
      - intros n1 h h' d i H H' Ha Hd _ _. pose proof (ticks_on h0 n1 h h' d i H H') as Hs. unfold both.
        destruct (dset n1 h d _ _) as [h1| |], (dset n1 h' d _ _) as [h1'| |]; try done. destruct Hs as (x & m & m' & I1 & I2 & -> & ->).
        intros y Hy. destruct (decide (y = x)) as [->|Hne]; [|rewrite !lookup_insert_ne by done; by apply Ha]. rewrite !lookup_insert.
        apply inside_at in I1, I2. pose proof (Ha x Hy) as Hx. rewrite I1, I2 in Hx. by injection Hx as ->.
      - intros n1 h d i h1 H _ He Hra Hs. by eapply set_writes.
      - intros n1 h h' s v H H' Ha _ _ Hv. by apply agree_sprint.
      - intros n1 h h' s v H H' Ha _ _ Hv. by rewrite (agree_sprint n1 h h') by done.
      - intros. by apply agree_show.
      - done.
      - intros x T ps Hx HT Hr. destruct (Hth x T ps HT Hr) as (l & -> & _). apply Forall_forall. intros p Hp. apply elem_of_list_fmap in Hp as (k & -> & Hk).
        split; [done|]. split; [by intros _; destruct (split_on _ _) as [|? [|? [|? [|? ?]]]]|]. split; [|done].
        intros Ht. split; [done|]. intros Hlf. destruct k as [| | | | | |s| | |]; try done. by eapply (reaches_loop_free j.1 x T l s).
      - intros n1 x name y. apply reaches_next.
      - apply rtc_refl.
      - intros d Hd. exists d. split; [done|apply rtc_refl].
    Qed.

    (** ** It looks at no counter *)
    Definition N (s : bytes) : Prop := B ".counter" ∉ split_on gt s.
    Definition leafy (s : bytes) : Prop := forall d l, G d -> ~ answers h0 d s (Some (VRef l)).
    Definition no_coll (s : bytes) : Prop := forall x c xs, G x -> answers h0 x s (Some (VRef c)) -> ~ collection_at h0 c xs.
    Definition Val (s : bytes) (v : value) : Prop := exists d, G d /\ answers h0 d s (Some v).
    Lemma no_counter_N s : no_counter s -> N s.
    Proof. intros H. unfold N. destruct (split_on gt s) as [|w ws] eqn:E; [set_solver|]. apply H. by apply separated_split. Qed.
    Lemma quiet_pok x T ps : quiet th h0 j -> reaches th j.1 x -> th !! x = Some T -> t_root T = Some ps -> Forall (pok N leafy no_coll False (~ loop_free th j.1)) ps.
    Proof.
      intros [Hq _] Hx HT Hr. destruct (Hth x T ps HT Hr) as (l & -> & _). specialize (Hq x T l Hx HT Hr). apply Forall_forall. intros p Hp.
      apply elem_of_list_fmap in Hp as (k & -> & Hk). rewrite Forall_forall in Hq. specialize (Hq k Hk). unfold pok.
      destruct Hq as [s|s|s|s Hd1 Hd2|s Hn Hl|s H1 H2|s Hn|s Hn]; cbn [stored p_type TemplateModel.p_data]; repeat split; try done.
      - intros _ [?|?]; done.
      - by apply no_counter_N.
      - intros _. destruct (split_on ":"%char s) as [|a [|f [|p [|e ws]]]] eqn:E; try done.
        + apply no_counter_N. apply (H1 a f). by apply separated_split.
        + destruct (H2 a f p) as [? ?]; [by apply separated_split|]. split; [by apply no_counter_N|done].
      - destruct (two_ids s) as [d b] eqn:E. apply no_counter_N. apply (Hn d b). by apply two_ids_spec.
      - intros Hlf. by eapply (reaches_loop_free j.1 x T l s).
      - destruct (two_ids s) as [d b] eqn:E. apply no_counter_N. apply (Hn d b). by apply two_ids_spec.
      - destruct (two_ids s) as [d b] eqn:E. apply two_ids_spec in E. exact (proj2 (Hn d b E)).
    Qed.
    Lemma show_nonempty n h go d s : as_dataset h0 (VRef d) <> None -> ticks h0 h -> forall d', as_dataset h (VRef d) = Some d' -> show F ord n h go d = Ok s -> s <> [].
    Proof.
      revert h go d s. induction n as [|n IH]; intros h go d s Hd H d' Hd' Hs; [done|]. cbn [show] in Hs. cbn in Hd'. destruct (h !! d) as [[m|[w|]|xs|xs]|] eqn:E; try done.
      - destruct (show_entries _ _) as [u| |]; try done. injection Hs as <-. by destruct go.
      - clear IH Hd Hd'. revert w E Hs. revert d. induction n as [|n IHn]; intros d w E Hs; [done|]. cbn [show] in Hs. destruct (h !! w) as [[m|[w'|]|xs|xs]|] eqn:Ew; try done.
        + destruct (show_entries _ _) as [u| |]; try done. injection Hs as <-. by destruct go.
        + by eapply (IHn w w').
        + destruct (show_elements _ _ _) as [u| |]; try done. by injection Hs as <-.
        + destruct (show_elements _ _ _) as [u| |]; try done. by injection Hs as <-.
    Qed.
    Lemma quiet_test n h h' s v : quiet th h0 j -> ticks h0 h -> ticks h0 h' -> no_coll s -> Val s v -> vok G v ->
      emptiness (sprint F ord n h v) = emptiness (sprint F ord n h' v) /\ (as_dataset h v = None -> sprint F ord n h v = sprint F ord n h' v).
    Proof.
      intros [_ Hcalm] H H' Hs (d & Hd & Ha) Hv. destruct v as [| | | | | | | | | | | |c|]; try done.
      assert (Hc : G c) by (by apply Hv). unfold sprint. cbn [show_value].
      destruct (as_dataset h0 (VRef c)) as [e|] eqn:Ed.
      - assert (Hne : forall g, ticks h0 g -> forall s, show F ord n g false c = Ok s -> s <> []).
        { intros g Hg s1 Hs1. eapply (show_nonempty n g false c s1); [by rewrite Ed|done|rewrite (ticks_ds h0); [exact Ed|done]|done]. }
        split; [|rewrite (ticks_ds h0 h) by done; congruence]. pose proof (Hne h H) as N1. pose proof (Hne h' H') as N2.
        destruct (show_same_end F ord Ho h0 G region_child Hcalm n h h' false c H H' Hc) as [A1 A2].
        destruct (show_same_end F ord Ho h0 G region_child Hcalm n h' h false c H' H Hc) as [B1 B2].
        destruct (show F ord n h false c) as [u| |]; destruct (show F ord n h' false c) as [u'| |]; try done.
        1: cbn; specialize (N1 u eq_refl); specialize (N2 u' eq_refl); by destruct u, u'.
        all: naive_solver.
      - assert (Hnone : h0 !! c = None).
        { destruct (h0 !! c) as [[m|w|xs|xs]|] eqn:E; try done; [cbn in Ed; by rewrite E in Ed..| |].
          - destruct (Hs d c xs Hd Ha). by left.
          - destruct (Hs d c xs Hd Ha). by right. }
        assert (show F ord n h false c = show F ord n h' false c) as ->; [|done].
        pose proof (ticks_obj h0 h c H) as E1. pose proof (ticks_obj h0 h' c H') as E2. rewrite Hnone in E1, E2. destruct n; [done|]. cbn. by rewrite E1, E2.
    Qed.
    Lemma fair_quiet n : quiet th h0 j -> fair (ticks h0) (fun _ _ => True) (writes j) (fun _ => True) (p_execute F ord langs th n j.1 j.2).
    Proof.
      intros Hq.
      apply (fair_execute (ticks h0) (fun _ _ => True) (writes j) writes_refl F ord langs th G EL N leafy no_coll False (~ loop_free th j.1) Val) with (S := reaches th j.1).
      - intros n1 h h' d s H H' _ _ Hs. by rewrite (ticks_get h0 n1 h), (ticks_get h0 n1 h').
      - intros n1 h d s v H Hd Hs Hg. split; [by eapply get_vok|]. exists d. split; [done|]. apply answers_gets. exists n1. by rewrite <- (ticks_get h0 n1 h).
      - intros h h' v H H' _. by rewrite (ticks_ds h0 h), (ticks_ds h0 h').
      - intros h h' v H H' _. by rewrite (ticks_cl h0 h), (ticks_cl h0 h').
      - intros h h' c H H' _ _. by rewrite (ticks_count h0 h), (ticks_count h0 h').
      - intros h h' c i H H' _ _. by rewrite (ticks_cget h0 h), (ticks_cget h0 h').
      - intros. by eapply cget_elem.
      - intros n1 h h' d i H H' _ Hd _ _. pose proof (ticks_on h0 n1 h h' d i H H') as Hs. unfold both.
        by destruct (dset n1 h d _ _) as [h1| |], (dset n1 h' d _ _) as [h1'| |].
      - intros n1 h d i h1 H _ He Hra Hs. by eapply set_writes.
      - intros n1 h h' s v H H' _ Hp (d & Hd & Ha) Hv. destruct v; try done. by destruct (Hp d l Hd).
      - intros n1 h h' s v H H' _ Hs HV Hv. by eapply quiet_test.
      - done.
      - unfold N. vm_compute. intros Hx. by inversion Hx as [|? ? ? Hx']; inversion Hx'.
      - intros x T ps Hx HT Hr. by eapply quiet_pok.
      - intros n1 x name y. apply reaches_next.
      - apply rtc_refl.
      - intros d Hd. exists d. split; [done|apply rtc_refl].
    Qed.
  End Job.

  (** ** All together *)
  Context (jobs : list job) (n : nat).
  Definition W (i : nat) (h h' : heap) : Prop := match jobs !! i with Some j => writes j h h' | None => False end.
  Lemma jobs_safe : safe (ticks h0) W (started F ord langs th n jobs).
  Proof.
    intros i p Hp. unfold started in Hp. apply list_lookup_fmap_Some in Hp as (j & Hj & ->). pose proof (fair_blind _ _ _ _ _ (fair_private j n)) as Hf.
    assert (W i = writes j) as -> by (unfold W; by rewrite Hj). done.
  Qed.
  Lemma par_counters h ps : rtc par_step (h0, started F ord langs th n jobs) (h, ps) -> forall x, h !! x = h0 !! x \/
    exists m z i j, h0 !! x = Some (ODs m) /\ h !! x = Some (ODs (<[B ".counter" := VInt KInt z]> m)) /\ jobs !! i = Some j /\ member h0 j.2 x /\ ~ loop_free th j.1.
  Proof.
    assert (forall s, rtc par_step (h0, started F ord langs th n jobs) s -> ticks h0 s.1 /\ safe (ticks h0) W s.2 /\
      forall x, s.1 !! x = h0 !! x \/ exists i j, jobs !! i = Some j /\ member h0 j.2 x /\ ~ loop_free th j.1) as Hall.
    { apply rtc_ind_r; [split; [apply ticks_refl|]; split; [apply jobs_safe|by left]|]. intros [g qs] z _ Hs (Hi & Hsf & IH). cbn [fst snd] in *.
      destruct (safe_step _ _ _ _ _ Hi Hsf Hs) as (Hi' & Hsf' & _ & i & w & k & Hk & -> & Hw). cbn [fst snd] in *. split; [done|]. split; [done|].
      unfold W in Hw. destruct (jobs !! i) as [j|] eqn:Ej; [|done]. intros x. destruct (IH x) as [Hx|Hx]; [|by right].
      destruct (Hw x) as [Hx'|Hm]; [left; congruence|]. right. by exists i, j. }
    intros H x. destruct (Hall _ H) as (Hi & _ & Hx). cbn [fst] in *. destruct (Hi x) as [He|(m & z & E1 & E2)]; [by left|].
    destruct (Hx x) as [He|(i & j & Hj & Hm & Hl)]; [by left|]. right. by exists m, z, i, j.
  Qed.
  Lemma unnoticed_job i j h ps (E : heap -> heap -> Prop) : jobs !! i = Some j -> (forall a b c, E a b -> E b c -> E a c) -> E h0 h0 ->
    (forall k h h', k <> i -> ticks h0 h -> ticks h0 h' -> W k h h' -> E h h') ->
    fair (ticks h0) E (writes j) (fun _ => True) (p_execute F ord langs th n j.1 j.2) ->
    rtc par_step (h0, started F ord langs th n jobs) (h, ps) ->
    exists p, ps !! i = Some p /\ forall o, p = lift o -> o = said (execute F ord langs th n h0 j.1 j.2).
  Proof.
    intros Hj Et E0 Hother Hf H. destruct (unnoticed (ticks h0) W i E Et Hother h0 _ (p_execute F ord langs th n j.1 j.2) (h, ps) (ticks_refl h0) E0 jobs_safe) as (_ & _ & p & hi & Hp & _ & _ & _ & Hal).
    - unfold started. by rewrite list_lookup_fmap, Hj.
    - assert (W i = writes j) as -> by (unfold W; by rewrite Hj). done.
    - done.
    - exists p. split; [done|]. intros o ->. rewrite alone_execute in Hal. rewrite <- Hal. by destruct o.
  Qed.
  Lemma par_quiet i j h ps : jobs !! i = Some j -> quiet th h0 j -> rtc par_step (h0, started F ord langs th n jobs) (h, ps) ->
    exists p, ps !! i = Some p /\ forall o, p = lift o -> o = said (execute F ord langs th n h0 j.1 j.2).
  Proof. intros Hj Hq. apply (unnoticed_job i j h ps (fun _ _ => True)); try done. by apply fair_quiet. Qed.
  Lemma par_private i j h ps : jobs !! i = Some j -> (forall k other, k <> i -> jobs !! k = Some other -> apart th h0 j other) ->
    rtc par_step (h0, started F ord langs th n jobs) (h, ps) ->
    exists p, ps !! i = Some p /\ forall o, p = lift o -> o = said (execute F ord langs th n h0 j.1 j.2).
  Proof.
    intros Hj Hap. apply (unnoticed_job i j h ps (agree j)); try done.
    - intros a b c H1 H2 x Hx. rewrite (H1 x Hx). by apply H2.
    - intros k g g' Hk _ _ Hw. unfold W in Hw. destruct (jobs !! k) as [other|] eqn:Eo; [|done]. 
      intros x Hx. destruct (Hw x) as [->|[Hm Hn]]; [done|]. destruct (Hap k other Hk Eo) as [Hl|Hd]; [done|]. by destruct (Hd x Hm).
    - apply fair_private.
  Qed.
End Jobs.
