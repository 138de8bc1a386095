(** * Executions at the same time: heaps that differ in counters (C112). *)
From Verif Require Import GoBase GoStrings GoStringsProofs DatasetModel LangModel DatasetSpec DatasetProofs2 DatasetProofs3 TemplateModel TemplateSpec TemplateProofs5 RenderSpec RenderProofs HoleSpec ParModel ParProofs ParProofs2 ParSpec.
From Verif Require SameSpec SameProofs.
Local Open Scope Z_scope.

Section Ticks.
  Context (h0 : heap).
  Definition ticks (h : heap) : Prop := forall x, ticked h0 h x.
  Lemma ticks_refl : ticks h0. Proof. intros x. by left. Qed.
  (** The same kind of object; the same object unless it is a dataset. *)
  Lemma ticks_obj h x : ticks h -> match h0 !! x with
    | Some (ODs m) => exists m', h !! x = Some (ODs m') /\ forall k, k <> B ".counter" -> m' !! k = m !! k
    | o => h !! x = o end.
  Proof.
    intros H. destruct (H x) as [->|(m & z & -> & ->)].
    - destruct (h0 !! x) as [[]|]; try done. eauto.
    - eexists. split; [done|]. intros k Hk. by rewrite lookup_insert_ne.
  Qed.
  Ltac obj H x := let E := fresh "E" in let o := fresh "o" in pose proof (ticks_obj _ x H) as E; destruct (h0 !! x) as [[?m|?w|?xs|?xs]|] eqn:?; [destruct E as (?m' & E & ?)|..].
  Lemma ticks_ds h v : ticks h -> as_dataset h v = as_dataset h0 v.
  Proof. intros H. destruct v; try done. cbn. obj H l; rewrite E; done. Qed.
  Lemma ticks_cl h v : ticks h -> as_collection h v = as_collection h0 v.
  Proof. intros H. destruct v; try done. cbn. obj H l; rewrite E; done. Qed.
  Lemma ticks_elements h c : ticks h -> elements h c = elements h0 c.
  Proof. intros H. unfold elements. obj H c; rewrite E; done. Qed.
  Lemma ticks_count h c : ticks h -> ccount h c = ccount h0 c.
  Proof. intros H. unfold ccount. by rewrite ticks_elements. Qed.
  Lemma ticks_cget h c i : ticks h -> cget h c i = cget h0 c i.
  Proof. intros H. unfold cget. by rewrite ticks_elements. Qed.
  Lemma ticks_get n : forall h d s, ticks h -> B ".counter" ∉ split_on gt s -> dget n h d s = dget n h0 d s.
  Proof.
    induction n as [|n IH]; intros h d s H Hs; [done|]. cbn [dget]. obj H d; rewrite E; try done.
    - assert (Hlit : m' !! s = m !! s).
      { apply H0. intros ->. apply Hs. vm_compute. by left. }
      destruct (split_on gt s) as [|x0 [|x1 rest]] eqn:Es; [by rewrite Hlit..|]. rewrite Hlit, H0 by (intros ->; apply Hs; by left).
      assert (Hj : forall p a ws, split_on gt s = p ++ a :: ws -> B ".counter" ∉ split_on gt (join [gt] (a :: ws))).
      { intros p a ws Ep. rewrite split_join; [|done|]; [rewrite Es in Ep; rewrite Ep in Hs; set_solver|]. pose proof (split_on_pieces gt s) as Hp. rewrite Ep in Hp. by apply Forall_app in Hp as [_ ?]. }
      destruct (m !! x0) as [subset|]; [|done]. rewrite ticks_ds, ticks_cl by done. destruct (as_dataset h0 subset); [apply IH; [done|by apply (Hj [x0])]|].
      destruct (as_collection h0 subset) as [dsc|]; [|done]. destruct (atoi x1) as [entry|]; [|done]. rewrite ticks_cget by done. destruct (cget h0 dsc entry) as [[[e|]|]| |]; cbn [obind]; try done.
      destruct rest as [|x2 rest]; [done|]. apply IH; [done|by apply (Hj [x0; x1])].
    - destruct w; [by apply IH|done].
  Qed.
  (** Setting a counter. *)
  Lemma tick_write h x m z : ticks h -> h !! x = Some (ODs m) -> ticks (<[x := ODs (<[B ".counter" := VInt KInt z]> m)]> h).
  Proof.
    intros H Hx y. unfold ticked. destruct (decide (y = x)) as [->|Hne]; [|rewrite lookup_insert_ne by done; apply H]. rewrite lookup_insert. right.
    destruct (H x) as [E|(m0 & z0 & E1 & E2)].
    - exists m, z. by rewrite <- E.
    - rewrite Hx in E2. injection E2 as ->. exists m0, z. by rewrite insert_insert.
  Qed.
  Lemma ticks_inside h d x m : ticks h -> inside h d x m -> exists m0, inside h0 d x m0.
  Proof.
    intros H. induction 1 as [l m Hl|l d t m Hl _ [m0 IH]].
    - obj H l; try congruence. eexists. by constructor.
    - obj H l; try congruence. exists m0. econstructor; [|done]. rewrite Heqo. congruence.
  Qed.
  Lemma ticks_on n : forall h h' d z, ticks h -> ticks h' ->
    match dset n h d (B ".counter") (VInt KInt z), dset n h' d (B ".counter") (VInt KInt z) with
    | Ok h1, Ok h1' => exists x m m', inside h d x m /\ inside h' d x m' /\ h1 = <[x := ODs (<[B ".counter" := VInt KInt z]> m)]> h /\ h1' = <[x := ODs (<[B ".counter" := VInt KInt z]> m')]> h'
    | Panic, Panic | NoFuel, NoFuel => True
    | _, _ => False
    end.
  Proof.
    unfold dset. induction n as [|n IH]; intros h h' d z H H'; [done|]. cbn [on_dataset]. pose proof (ticks_obj _ d H') as E'. obj H d; [destruct E' as (m2 & E' & _)|..].
    - rewrite E, E'. exists d, m', m2. split; [by constructor|]. split; [by constructor|]. done.
    - rewrite E, E'. destruct w as [w|]; [|done]. specialize (IH h h' w z H H'). destruct (on_dataset n h w _) as [h1| |], (on_dataset n h' w _) as [h1'| |]; try done.
      destruct IH as (x & m & m' & I1 & I2 & -> & ->). exists x, m, m'. split; [by econstructor|]. split; [by econstructor|]. done.
    - by rewrite E, E'.
    - by rewrite E, E'.
    - by rewrite E, E'.
  Qed.
End Ticks.

(** Printing a dataset comes to the same end, whatever the counters are. *)
Section Prints.
  Context (F : golib) (ord : heap -> gmap bytes value -> list (bytes * value)) (Ho : order_ok ord).
  Lemma entries_nofuel (f : value -> outcome bytes) l : (forall v, f v <> Panic) -> show_entries f l = NoFuel <-> exists k v, (k, v) ∈ l /\ f v = NoFuel.
  Proof.
    intros Hf. induction l as [|[k v] l IH]; cbn [show_entries]; [split; [done|]; intros (k & v & H & _); set_solver|].
    destruct (f v) as [t| |] eqn:Ev; cbn [obind]; [|by destruct (Hf v)|].
    - destruct (show_entries f l) as [ts| |] eqn:Es; cbn [obind].
      + split; [done|]. intros (k1 & v1 & Hin & H1). apply elem_of_cons in Hin as [Hin|Hin]; [injection Hin as -> ->; congruence|].
        assert (Ok ts = NoFuel) by (apply IH; eauto). done.
      + split; [done|]. intros (k1 & v1 & Hin & H1). apply elem_of_cons in Hin as [Hin|Hin]; [injection Hin as -> ->; congruence|].
        assert (@Panic (list bytes) = NoFuel) by (apply IH; eauto). done.
      + split; [|done]. intros _. destruct (proj1 IH eq_refl) as (k1 & v1 & Hin & H1). exists k1, v1. split; [by right|done].
    - split; [|done]. intros _. exists k, v. split; [by left|done].
  Qed.
  Definition elem_value (x : option loc) : value := match x with Some l => VRef l | None => VNil end.
  Lemma elements_nofuel (f : value -> outcome bytes) xs : (forall v, f v <> Panic) -> forall i, show_elements f i xs = NoFuel <-> exists x, x ∈ xs /\ f (elem_value x) = NoFuel.
  Proof.
    intros Hf. induction xs as [|x xs IH]; intros i; cbn [show_elements]; [split; [done|]; intros (x & H & _); set_solver|]. fold (elem_value x).
    destruct (f (elem_value x)) as [t| |] eqn:Ev; cbn [obind]; [|by destruct (Hf (elem_value x))|].
    - destruct (show_elements f (i + 1) xs) as [ts| |] eqn:Es; cbn [obind].
      + split; [done|]. intros (x1 & Hin & H1). apply elem_of_cons in Hin as [->|Hin]; [congruence|].
        assert (show_elements f (i + 1) xs = NoFuel) by (apply IH; eauto). congruence.
      + split; [done|]. intros (x1 & Hin & H1). apply elem_of_cons in Hin as [->|Hin]; [congruence|].
        assert (show_elements f (i + 1) xs = NoFuel) by (apply IH; eauto). congruence.
      + split; [|done]. intros _. destruct (proj1 (IH _) Es) as (x1 & Hin & H1). exists x1. split; [by right|done].
    - split; [|done]. intros _. exists x. split; [by left|done].
  Qed.
  Lemma elements_panic (f : value -> outcome bytes) xs : (forall v, f v <> Panic) -> forall i, show_elements f i xs <> Panic.
  Proof.
    intros Hf. induction xs as [|x xs IH]; intros i; cbn [show_elements]; [done|]. fold (elem_value x).
    destruct (f (elem_value x)) as [t| |] eqn:Ev; cbn [obind]; [|by destruct (Hf (elem_value x))|done].
    specialize (IH (i + 1)). by destruct (show_elements f (i + 1) xs).
  Qed.
  Lemma entries_panic (f : value -> outcome bytes) l : (forall v, f v <> Panic) -> show_entries f l <> Panic.
  Proof.
    intros Hf. induction l as [|[k v] l IH]; cbn [show_entries]; [done|]. destruct (f v) as [t| |] eqn:Ev; cbn [obind]; [|by destruct (Hf v)|done].
    by destruct (show_entries f l).
  Qed.
  Context (h0 : heap) (G : loc -> Prop) (Gc : forall x y, G x -> child h0 x y -> G y)
    (Hcalm : forall x m l, G x -> h0 !! x = Some (ODs m) -> m !! B ".counter" <> Some (VRef l)).
  Lemma show_same_end n : forall h h' go l, ticks h0 h -> ticks h0 h' -> G l ->
    (show F ord n h go l = NoFuel -> show F ord n h' go l = NoFuel) /\ (show F ord n h go l = Panic -> show F ord n h' go l = Panic).
  Proof.
    induction n as [|n IH]; intros h h' go l H H' Hl; [done|].
    assert (Hcoll : forall xs (a b : bytes), collection_at h0 l xs ->
      (show_elements (show_value F (show F ord n h) false) 0 xs = NoFuel -> show_elements (show_value F (show F ord n h') false) 0 xs = NoFuel)).
    { intros xs a b Hc E. apply elements_nofuel in E as (x & Hx & E); [|apply show_value_no_panic]. apply elements_nofuel; [apply show_value_no_panic|].
      exists x. split; [done|]. destruct x as [d|]; [|done]. cbn in *. assert (G d) by (eapply Gc; [exact Hl|]; by eapply child_coll).
      destruct (IH h h' false d H H') as [I1 I2]; [done|]. destruct (show F ord n h false d) eqn:Es; try done. by rewrite I1. }
    cbn [show]. pose proof (ticks_obj h0 h l H) as E1. pose proof (ticks_obj h0 h' l H') as E2. destruct (h0 !! l) as [[m0|w|xs|xs]|] eqn:E0.
    - assert (Hex : forall g, ticks h0 g -> exists ma, g !! l = Some (ODs ma) /\ forall k d, ma !! k = Some (VRef d) <-> m0 !! k = Some (VRef d)).
      { intros g Hg. destruct (Hg l) as [Em|(m1 & z1 & Em0 & Em)]; [exists m0; by rewrite Em|]. rewrite E0 in Em0. injection Em0 as <-.
        eexists. split; [exact Em|]. intros k d. destruct (decide (k = B ".counter")) as [->|Hk]; [|by rewrite lookup_insert_ne]. rewrite lookup_insert.
        pose proof (Hcalm l m0 d Hl E0). split; [done|]. by intros ?. }
      destruct (Hex h H) as (ma & -> & Ha). destruct (Hex h' H') as (mb & -> & Hb).
      split; [|intros Ex; pose proof (entries_panic (show_value F (show F ord n h) go) (ord h ma) (show_value_no_panic F _ _)); by destruct (show_entries _ (ord h ma))].
      intros Ex. destruct (show_entries _ (ord h ma)) as [u| |] eqn:Eu; try done. clear Ex.
      apply entries_nofuel in Eu as (k & v & Hin & Ev); [|apply show_value_no_panic].
      rewrite (Ho h ma) in Hin. apply elem_of_map_to_list in Hin. destruct v as [| | | | | | | | | | | |d|]; try done.
      apply Ha in Hin. assert (Hd : G d) by (eapply Gc; [exact Hl|]; by eapply child_ds).
      assert (show_entries (show_value F (show F ord n h') go) (ord h' mb) = NoFuel) as ->; [|done].
      apply entries_nofuel; [apply show_value_no_panic|]. exists k, (VRef d). split; [rewrite (Ho h' mb); apply elem_of_map_to_list; by apply Hb|].
      cbn in *. destruct (IH h h' go d H H' Hd) as [I1 I2]. destruct (show F ord n h go d) eqn:Es; try done. by rewrite I1.
    - rewrite E1, E2. destruct w as [d|]; [|done]. apply IH; [done..|]. eapply Gc; [exact Hl|]. by apply child_ts.
    - rewrite E1, E2. split.
      + intros Ex. destruct (show_elements _ 0 xs) eqn:Eu in Ex; try done. rewrite Hcoll; [done|exact []|exact []|by left|done].
      + intros Ex. pose proof (elements_panic (show_value F (show F ord n h) false) xs (show_value_no_panic F _ _) 0). by destruct (show_elements _ 0 xs) in *.
    - rewrite E1, E2. split.
      + intros Ex. destruct (show_elements _ 0 xs) eqn:Eu in Ex; try done. rewrite Hcoll; [done|exact []|exact []|by right|done].
      + intros Ex. pose proof (elements_panic (show_value F (show F ord n h) false) xs (show_value_no_panic F _ _) 0). by destruct (show_elements _ 0 xs) in *.
    - by rewrite E1, E2.
  Qed.
End Prints.
