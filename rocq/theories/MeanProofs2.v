(** * Executions among goroutines that change what the template does not look at (C116). *)
From Verif Require Import GoBase GoStrings GoStringsProofs Regex DatasetModel LangModel DatasetSpec DatasetProofs DatasetProofs2 DatasetProofs3
  TemplateModel TemplateSpec TemplateProofs5 RenderSpec RenderProofs RenderProofs2 HoleSpec ParModel MeanSpec MeanProofs.
Local Open Scope nat_scope.

Lemma during_le {A} H (p : act A) : forall i j a, during H p i j a -> i <= j.
Proof. induction p as [b| | |w k IH]; cbn; intros i j a; try done; [intros [-> _]; done|]. intros (t & Ht & _ & D). apply IH in D. lia. Qed.
Lemma execute_mean F ord langs th n t d (path : nat -> heap * list (act bytes)) T i out : compiled th -> course T path ->
  (path 0).2 !! i = Some (p_execute F ord langs th n t (Some d)) -> (path T).2 !! i = Some (Ret out) ->
  exists m lg j, m < j /\ j <= T /\ language_of langs (path m).1 d lg /\ shows F ord th lg (fun m => (path m).1) (S m) [d] t j out.
Proof.
  intros Hc Hp Hs He. destruct (course_during path T i out _ 0 Hp He ltac:(lia) Hs) as (j & Hj & D). cbn [p_execute] in D.
  apply during_bind in D as (u & r & Dr & D). apply during_read in Dr as (m & Hm & Hr & ->).
  apply during_bind in D as (u & [sc o] & D1 & D2). destruct D2 as [-> <-]. pose proof (during_le _ _ _ _ _ D1) as Hle.
  apply (mean_injector F ord th _ _ n Hc) in D1 as [-> D1]; [|done]. eexists m, _, u. split; [exact Hle|split; [exact Hj|split; [|exact D1]]].
  exists r. split; [apply answers_gets; by exists n|]. destruct r as [[]|]; try (right; split; [done|done]). left. by eexists.
Qed.

Lemma choose_app th t l1 l2 r : choose th t l1 None -> choose th t l2 r -> choose th t (l1 ++ l2) r.
Proof. intros Hc. remember None as o eqn:Eo. induction Hc as [| |n ns q Hv _ IH]; intros Hr; [done|done|]. cbn. apply ch_next; [done|]. by apply IH. Qed.
Lemma choose_found th t l1 l2 y : choose th t l1 (Some y) -> choose th t (l1 ++ l2) (Some y).
Proof. intros Hc. remember (Some y) as o eqn:Eo. induction Hc as [|n ns x Hv|n ns q Hv _ IH]; [done|by constructor|]. cbn. apply ch_next; [done|]. by apply IH. Qed.
Lemma picks_names th H i t b n c q j xs : (forall m ys, collection_at (H m) c ys -> ys = xs) -> picks th H i t b n c q j -> choose th t (element_names b n (length xs)) q.
Proof.
  intros Hx Hp. revert Hx. destruct Hp as [? ? ? ? ? y Hy|? ? ? ? ? m ys r H1 _ Hy H2]; intros Hx; unfold element_names; rewrite app_assoc; [by apply choose_found|].
  rewrite (Hx _ _ Hy) in H2. by apply choose_app.
Qed.

Section Unseen.
  Context (F : golib) (ord : heap -> gmap bytes value -> list (bytes * value)) (th : theap) (lg : option lang) (H : nat -> heap).
  Context (W : bytes -> Prop) (h0 : heap) (d0 : loc) (t0 : loc).
  Context (Wplain : forall k, W k -> ">"%char ∉ k) (Wcounter : W (B ".counter")).
  Context (HH : forall m, untouched W h0 d0 (H m)).
  Context (Hbl : forall x T l, reaches th t0 x -> th !! x = Some T -> t_root T = Some (map stored l) -> Forall (blind W h0 d0) l).
  Notation agrees := (untouched W h0 d0).
  Notation sn := (seen W h0 d0).
  Ltac obj A x Hx := let E := fresh "E" in pose proof (A x Hx) as E; destruct (h0 !! x) as [[?m|?w|?xs|?xs]|] eqn:?; [destruct E as (?m' & E & ?)|..].
  Lemma ag_dataset h x : agrees h -> sn x -> dataset_at h x <-> dataset_at h0 x.
  Proof. intros A Hx. unfold dataset_at. obj A x Hx; rewrite E; naive_solver. Qed.
  Lemma ag_collection h x xs : agrees h -> sn x -> collection_at h x xs <-> collection_at h0 x xs.
  Proof. intros A Hx. unfold collection_at. obj A x Hx; rewrite E; naive_solver. Qed.
  Lemma sn_step x y : sn x -> shown W h0 x y -> sn y.
  Proof. intros Hx Hs. by eapply rtc_r. Qed.
  (** The map of a dataset in [h0] and in [h]. *)
  Lemma ag_map h x m : agrees h -> sn x -> h !! x = Some (ODs m) -> exists m0, h0 !! x = Some (ODs m0) /\ forall k, ~ W k -> m !! k = m0 !! k.
  Proof. intros A Hx Hm. obj A x Hx; try congruence. rewrite Hm in E. injection E as ->. eauto. Qed.
  Lemma ag_wrap h x d : agrees h -> sn x -> h !! x = Some (OTs (Some d)) -> h0 !! x = Some (OTs (Some d)).
  Proof. intros A Hx Hm. obj A x Hx; congruence. Qed.
  Lemma ag_back h x m0 : agrees h -> sn x -> h0 !! x = Some (ODs m0) -> exists m, h !! x = Some (ODs m) /\ forall k, ~ W k -> m !! k = m0 !! k.
  Proof. intros A Hx Hm. pose proof (A x Hx) as E. rewrite Hm in E. exact E. Qed.
  Lemma ag_wrap_back h x d : agrees h -> sn x -> h0 !! x = Some (OTs (Some d)) -> h !! x = Some (OTs (Some d)).
  Proof. intros A Hx Hm. pose proof (A x Hx) as E. by rewrite Hm in E. Qed.
  Lemma literal_free k p : p <> [] -> ~ W (k ++ concat (map (cons ">"%char) p)).
  Proof. intros Hp Hw. apply Wplain in Hw. apply Hw. destruct p as [|a p]; [done|]. cbn. apply elem_of_app. right. by left. Qed.
  Lemma ag_path h1 h2 d p r : agrees h1 -> agrees h2 -> at_path h1 d p r -> sn d -> Forall (fun k => ~ W k) p ->
    at_path h2 d p r /\ forall l, r = Some (VRef l) -> sn l.
  Proof.
    intros A1 A2. induction 1 as [l d p r Hl _ IH|l m k Hl|l m k p Hl Hk Hp|l m k d p r Hl Hk Hd Hp _ IH|l m k c xs s p Hl Hk Hc Hno|l m k c xs s i d Hl Hk Hc Hs Hi|l m k c xs s i d p r Hl Hk Hc Hs Hi Hp _ IH|l m k p v Hl Hk Hpl Hp];
      intros Hsn Hw.
    - apply (ag_wrap h1) in Hl; [|done..]. destruct IH as [IH1 IH2]; [eapply sn_step; [done|by constructor]|done|]. split; [|done]. eapply ap_wrap; [by apply ag_wrap_back|done].
    - apply (ag_map h1) in Hl as (m0 & Hl & Em); [|done..]. destruct (ag_back h2 l m0 A2 Hsn Hl) as (m2 & Hl2 & Em2). inversion Hw as [|? ? Hk _]; subst.
      rewrite Em, <- Em2 by done. split; [by apply ap_last|]. intros l' El. eapply sn_step; [done|]. eapply sn_ds; [done|exact Hk|]. by rewrite <- Em2.
    - apply (ag_map h1) in Hl as (m0 & Hl & Em); [|done..]. destruct (ag_back h2 l m0 A2 Hsn Hl) as (m2 & Hl2 & Em2). inversion Hw as [|? ? Hk' _]; subst.
      rewrite Em, <- Em2 in Hk by done. split; [|done]. by eapply ap_missing.
    - apply (ag_map h1) in Hl as (m0 & Hl & Em); [|done..]. destruct (ag_back h2 l m0 A2 Hsn Hl) as (m2 & Hl2 & Em2). inversion Hw as [|? ? Hk' Hw']; subst.
      rewrite Em in Hk by done. assert (Hd' : sn d) by (eapply sn_step; [done|by eapply sn_ds]). rewrite <- Em2 in Hk by done. destruct (IH Hd' Hw') as [IH1 IH2]. split; [|done].
      eapply ap_dataset; [done|done| |done|done]. apply (ag_dataset h2); [done|done|]. by apply (ag_dataset h1).
    - apply (ag_map h1) in Hl as (m0 & Hl & Em); [|done..]. destruct (ag_back h2 l m0 A2 Hsn Hl) as (m2 & Hl2 & Em2). inversion Hw as [|? ? Hk' Hw']; subst.
      rewrite Em in Hk by done. assert (Hd' : sn c) by (eapply sn_step; [done|by eapply sn_ds]). rewrite <- Em2 in Hk by done. split; [|done].
      eapply ap_no_index; [done|done| |done]. apply (ag_collection h2); [done|done|]. by apply (ag_collection h1).
    - apply (ag_map h1) in Hl as (m0 & Hl & Em); [|done..]. destruct (ag_back h2 l m0 A2 Hsn Hl) as (m2 & Hl2 & Em2). inversion Hw as [|? ? Hk' Hw']; subst.
      rewrite Em in Hk by done. assert (Hc' : sn c) by (eapply sn_step; [done|by eapply sn_ds]). rewrite <- Em2 in Hk by done. apply (ag_collection h1) in Hc; [|done..]. split.
      + eapply ap_element; [done|done| |done|done]. by apply (ag_collection h2).
      + intros l' [= <-]. eapply sn_step; [exact Hc'|]. eapply sn_coll; [done|]. by eapply elem_of_list_lookup_2.
    - apply (ag_map h1) in Hl as (m0 & Hl & Em); [|done..]. destruct (ag_back h2 l m0 A2 Hsn Hl) as (m2 & Hl2 & Em2). inversion Hw as [|? ? Hk' Hw']; subst. inversion Hw' as [|? ? _ Hw'']; subst.
      rewrite Em in Hk by done. assert (Hc' : sn c) by (eapply sn_step; [done|by eapply sn_ds]). rewrite <- Em2 in Hk by done. apply (ag_collection h1) in Hc; [|done..].
      assert (Hd' : sn d). { eapply sn_step; [exact Hc'|]. eapply sn_coll; [done|]. by eapply elem_of_list_lookup_2. }
      destruct (IH Hd' Hw'') as [IH1 IH2]. split; [|done]. eapply ap_in_element; [done|done| |done|done|done|done]. by apply (ag_collection h2).
    - apply (ag_map h1) in Hl as (m0 & Hl & Em); [|done..]. destruct (ag_back h2 l m0 A2 Hsn Hl) as (m2 & Hl2 & Em2). inversion Hw as [|? ? Hk' Hw']; subst.
      pose proof (literal_free k p Hp) as Hlit. rewrite Em in Hk by done.
      assert (Elit : m !! (k ++ concat (map (cons ">"%char) p)) = m2 !! (k ++ concat (map (cons ">"%char) p))) by exact (eq_trans (Em _ Hlit) (eq_sym (Em2 _ Hlit))).
      rewrite Elit. split.
      + eapply ap_literal; [exact Hl2|rewrite Em2 by done; exact Hk| |exact Hp].
        assert (Hv : forall x, v = VRef x -> sn x) by (intros x ->; eapply sn_step; [exact Hsn|]; eapply sn_ds; [exact Hl|exact Hk'|exact Hk]). destruct Hpl as [P1 P2]. split.
        * intros d Ed Hd. apply (P1 d Ed). apply (ag_dataset h1); [done|by apply Hv|]. apply (ag_dataset h2) in Hd; [done|done|by apply Hv].
        * intros c xs Ec Hc. apply (P2 c xs Ec). apply (ag_collection h1); [done|by apply Hv|]. apply (ag_collection h2) in Hc; [done|done|by apply Hv].
      + intros l' El. eapply sn_step; [done|]. eapply sn_ds; [exact Hl|exact Hlit|]. exact (eq_trans (eq_sym (Em2 _ Hlit)) El).
  Qed.
  Lemma ag_answers h1 h2 d key r : agrees h1 -> agrees h2 -> sn d -> avoids W key -> answers h1 d key r -> answers h2 d key r /\ forall l, r = Some (VRef l) -> sn l.
  Proof.
    intros A1 A2 Hd Hk (w & ws & Hs & Hp). destruct (ag_path h1 h2 d _ r A1 A2 Hp Hd (Hk _ _ Hs)) as [P1 P2]. split; [|done]. by exists w, ws.
  Qed.
  Lemma ag_finds h i sc key r j : agrees h -> Forall sn sc -> avoids W key -> finds H i sc key r j -> found h sc key r /\ forall l, r = Some (VRef l) -> sn l.
  Proof.
    intros A Hsc Hk Hf. induction Hf as [|i m d sc key v _ Ha|i m d sc key r j _ Ha _ IH]; [split; [constructor|done]|..].
    - inversion Hsc as [|? ? Hd _]; subst. apply (ag_answers (H m) h) in Ha as [Ha Hl]; [|done..]. split; [by constructor|done].
    - inversion Hsc as [|? ? Hd Hsc']; subst. apply (ag_answers (H m) h) in Ha as [Ha _]; [|done..]. destruct (IH Hsc' Hk) as [IH1 IH2]. split; [by constructor|done].
  Qed.
  Lemma untouched_refl : agrees h0.
  Proof. intros x _. destruct (h0 !! x) as [[m|w|xs|xs]|]; try done. by exists m. Qed.
  Lemma found_plain h sc key l : agrees h -> Forall sn sc -> avoids W key -> (forall d l, sn d -> ~ answers h0 d key (Some (VRef l))) -> ~ found h sc key (Some (VRef l)).
  Proof.
    intros A Hsc Hk Hno Hf. remember (Some (VRef l)) as r eqn:Er. induction Hf as [|d sc key v Ha|d sc key r Ha _ IH]; [done|..].
    - injection Er as ->. inversion Hsc as [|? ? Hd _]; subst. apply (ag_answers h h0) in Ha as [Ha _]; [|done|apply untouched_refl|done..]. by destruct (Hno d l).
    - inversion Hsc; subst. by apply IH.
  Qed.
  Lemma prints_plain h h' v s : (forall l, v <> VRef l) -> prints F ord h v s -> prints F ord h' v s.
  Proof. intros Hv [n Hn]. exists n. by eapply plain_sprint. Qed.
  Lemma ag_says h i sc key s j : agrees h -> Forall sn sc -> avoids W key -> (forall d l, sn d -> ~ answers h0 d key (Some (VRef l))) ->
    says_field F ord H i sc key s j -> field_text F ord h sc key s.
  Proof.
    intros A Hsc Hk Hno Hs. revert Hsc Hk Hno. destruct Hs as [? ? ? ? Hf|? ? ? ? Hf|? ? ? v ? ? m Hf Hv _ Hp]; intros Hsc Hk Hno; destruct (ag_finds h _ _ _ _ _ A Hsc Hk Hf) as [Hf' _]; [by apply ft_missing|by apply ft_nil|].
    eapply ft_value; [exact Hf'|done|]. eapply prints_plain; [|exact Hp]. intros l ->. by eapply found_plain.
  Qed.
  Lemma ag_count h x m z : agrees h -> sn x -> h !! x = Some (ODs m) -> agrees (<[x := ODs (<[B ".counter" := z]> m)]> h).
  Proof.
    intros A Hx Hm y Hy. destruct (decide (y = x)) as [->|Hne]; [|pose proof (A y Hy) as E; by rewrite lookup_insert_ne].
    destruct (ag_map h x m A Hx Hm) as (m0 & -> & Em). rewrite lookup_insert. eexists. split; [done|]. intros k Hk. rewrite lookup_insert_ne by (intros <-; done). by apply Em.
  Qed.
  Lemma ag_inside h1 h2 d x m : agrees h1 -> agrees h2 -> inside h1 d x m -> sn d -> sn x /\ exists m2, inside h2 d x m2.
  Proof.
    intros A1 A2. induction 1 as [l m Hl|l d t m Hl _ IH]; intros Hs.
    - split; [done|]. apply (ag_map h1) in Hl as (m0 & Hl & _); [|done..]. destruct (ag_back h2 l m0 A2 Hs Hl) as (m2 & Hl2 & _). exists m2. by constructor.
    - apply (ag_wrap h1) in Hl; [|done..]. destruct IH as (Ht & m2 & IH); [eapply sn_step; [done|by constructor]|]. split; [done|]. exists m2. econstructor; [by apply ag_wrap_back|done].
  Qed.
  Lemma ag_counts h m d n h' : agrees h -> sn d -> counts (H m) d n h' -> exists h1, counts h d n h1 /\ agrees h1.
  Proof.
    intros A Hd (x & mm & Hi & _). destruct (ag_inside (H m) h d x mm) as (Hx & m2 & Hi2); [done..|]. eexists. split; [by exists x, m2|].
    apply ag_count; [done|done|]. by eapply inside_at.
  Qed.
  Lemma ag_language langs h h' g : agrees h -> agrees h' -> ~ W (B "#") -> language_of langs h d0 g -> language_of langs h' d0 g.
  Proof.
    intros A A' Hw (r & Ha & Hr). exists r. split; [|done]. destruct (ag_answers h h' d0 (B "#") r) as [Ha' _]; try done.
    intros w ws Hsep. apply separated_split in Hsep. vm_compute in Hsep. injection Hsep as <- <-. by repeat constructor.
  Qed.
  Lemma reach_visible t n x : reaches th t0 t -> visible th t n (Some x) -> reaches th t0 x.
  Proof. intros Hr Hv. eapply rtc_r; [exact Hr|]. by exists n. Qed.
  Lemma reach_choose t ns x : reaches th t0 t -> choose th t ns (Some x) -> reaches th t0 x.
  Proof. intros Hr Hc. remember (Some x) as q eqn:Eq. induction Hc as [|n ns y Hv|n ns q Hv _ IH]; [done| |by apply IH]. injection Eq as ->. eapply reach_visible; [|eassumption]; eassumption. Qed.
  Lemma reach_else t n q x : reaches th t0 t -> visible th t n q -> reaches th t0 x -> reaches th t0 (or_else q x).
  Proof. intros Hr Hv Hx. destruct q as [y|]; [eapply reach_visible; [|eassumption]; eassumption|done]. Qed.
  Lemma shows_unseen :
    (forall i sc t j out, shows F ord th lg H i sc t j out -> forall h, agrees h -> Forall sn sc -> reaches th t0 t ->
       exists h', renders F ord th lg h sc t h' out /\ agrees h') /\
    (forall i sc t l j out, shows_all F ord th lg H i sc t l j out -> forall h, agrees h -> Forall sn sc -> reaches th t0 t -> Forall (blind W h0 d0) l ->
       exists h', renders_all F ord th lg h sc t l h' out /\ agrees h') /\
    (forall i sc t j out, shows_opt F ord th lg H i sc t j out -> forall h, agrees h -> Forall sn sc -> (forall x, t = Some x -> reaches th t0 x) ->
       exists h', renders_opt F ord th lg h sc t h' out /\ agrees h') /\
    (forall i sc t k j out, shows_one F ord th lg H i sc t k j out -> forall h, agrees h -> Forall sn sc -> reaches th t0 t -> blind W h0 d0 k ->
       exists h', renders_one F ord th lg h sc t k h' out /\ agrees h') /\
    (forall i sc t b x n c j out, passes F ord th lg H i sc t b x n c j out -> forall h xs, agrees h -> Forall sn sc -> reaches th t0 t -> reaches th t0 x ->
       sn c -> collection_at h0 c xs -> exists h', loops F ord th lg h sc t b x n (length xs) (drop n xs) h' out /\ agrees h').
  Proof.
    assert (Hcol : forall c xs m ys, sn c -> collection_at h0 c xs -> collection_at (H m) c ys -> ys = xs).
    { intros c xs m ys Hc Hx Hy. apply (ag_collection (H m)) in Hy; [|done..]. by eapply collection_det. }
    apply shows_mutind.
    - intros i sc t T l j out HT Hr _ IH h A Hsc Ht. destruct (IH h A Hsc Ht (Hbl t T l Ht HT Hr)) as (h' & R & A'). exists h'. split; [by eapply rd_root|done].
    - intros i sc t T HT Hr h A Hsc Ht. exists h. split; [by eapply rd_not_compiled|done].
    - intros i sc t h A _ _ _. exists h. split; [constructor|done].
    - intros i sc t k l i1 j a b _ IH1 _ IH2 h A Hsc Ht Hl. inversion Hl as [|? ? Hk Hl']; subst.
      destruct (IH1 h A Hsc Ht Hk) as (h1 & R1 & A1). destruct (IH2 h1 A1 Hsc Ht Hl') as (h2 & R2 & A2). exists h2. split; [by eapply ra_cons|done].
    - intros i sc h A _ _. exists h. split; [constructor|done].
    - intros i sc t j out _ IH h A Hsc Ht. destruct (IH h A Hsc (Ht t eq_refl)) as (h' & R & A'). exists h'. split; [by constructor|done].
    - intros i sc t s h A _ _ _. exists h. split; [constructor|done].
    - intros i sc t s h A _ _ _. exists h. split; [constructor|done].
    - intros i sc t s g v Hg Hv h A _ _ _. exists h. split; [by eapply ro_lang|done].
    - intros i sc t s Hg h A _ _ _. exists h. split; [by apply ro_lang_missing|done].
    - intros i sc t s j out Hs h A Hsc _ Hk. inversion Hk; subst. exists h. split; [|done]. apply ro_var. by eapply ag_says.
    - intros i sc d t s m out Hs _ _ h _ _ _ Hk. inversion Hk; subst. by destruct Hs.
    - intros i sc t s H1 H2 h A _ _ _. exists h. split; [by apply ro_dump_other|done].
    - intros i sc t s a field prefix v r i1 j out Hs Hv Hc _ IH h A Hsc Ht Hk. inversion Hk as [| | | | |? _ Hk2| |]; subst. destruct (Hk2 _ _ _ Hs) as [K1 K2].
      apply (ag_says h) in Hv; [|done..]. destruct (IH h A Hsc) as (h' & R & A'); [intros x ->; eapply reach_choose; [|eassumption]; eassumption|]. exists h'. split; [by eapply ro_ref_select|done].
    - intros i sc t s a field x d i1 m j out Hs Hx Hf _ Hd _ IH h A Hsc Ht Hk. inversion Hk as [| | | | |? Hk1 _| |]; subst.
      apply (ag_finds h) in Hf as [Hf Hl]; [|done|done|by eapply Hk1]. specialize (Hl d eq_refl). destruct (IH h A) as (h' & R & A'); [by constructor|eapply reach_visible; [|eassumption]; eassumption|].
      exists h'. split; [|done]. eapply ro_ref_narrow; [done|done|done| |done]. apply ag_dataset; [done|done|]. by apply (ag_dataset (H m)).
    - intros i sc t s a field x r i1 m j out Hs Hx Hf _ Hd _ IH h A Hsc Ht Hk. inversion Hk as [| | | | |? Hk1 _| |]; subst.
      apply (ag_finds h) in Hf as [Hf Hl]; [|done|done|by eapply Hk1]. destruct (IH h A) as (h' & R & A'); [done|eapply reach_visible; [|eassumption]; eassumption|].
      exists h'. split; [|done]. eapply ro_ref_keep; [done|done|done| |done]. intros d Ed Hd'. apply (Hd d Ed). apply (ag_dataset (H m)); [done|by apply Hl|].
      apply (ag_dataset h) in Hd'; [done|done|by apply Hl].
    - intros i sc t s a ws x j out Hs L1 L2 Hx _ IH h A Hsc Ht _. destruct (IH h A Hsc) as (h' & R & A'); [eapply reach_visible; [|eassumption]; eassumption|]. exists h'. split; [by eapply ro_ref|done].
    - intros i sc t s a ws Hs L2 Hx h A _ _ _. exists h. split; [by eapply ro_ref_unknown|done].
    - intros i sc t s d b x c i1 m1 m2 xs1 xs j out Hs Hx Hf _ Hc1 _ Hc Hne _ IH h A Hsc Ht Hk. inversion Hk as [| | | | | |? Hk1|]; subst.
      apply (ag_finds h) in Hf as [Hf Hl]; [|done|done|by eapply Hk1]. specialize (Hl c eq_refl). apply (ag_collection (H m2)) in Hc; [|done..].
      destruct (IH h xs A Hsc Ht) as (h' & R & A'); [eapply reach_visible; [|eassumption]; eassumption|done|done|]. exists h'. split; [|done].
      eapply ro_range; [done|done|done| |done|exact R]. by apply ag_collection.
    - intros i sc t s d b x c i1 m1 m2 xs1 q j out Hs Hx Hf _ Hc1 _ Hc Hq _ IH h A Hsc Ht Hk. inversion Hk as [| | | | | |? Hk1|]; subst.
      apply (ag_finds h) in Hf as [Hf Hl]; [|done|done|by eapply Hk1]. specialize (Hl c eq_refl). apply (ag_collection (H m2)) in Hc; [|done..].
      destruct (IH h A Hsc) as (h' & R & A'); [eapply reach_else; [done|done|eapply reach_visible; [|eassumption]; eassumption]|]. exists h'. split; [|done].
      eapply ro_range_none; [done|done|done| |done|exact R]. intros c' xs' [= <-] Hc'. apply (ag_collection h) in Hc'; [|done..]. by eapply collection_det.
    - intros i sc t s d b x r i1 m q j out Hs Hx Hf _ Hno Hq _ IH h A Hsc Ht Hk. inversion Hk as [| | | | | |? Hk1|]; subst.
      apply (ag_finds h) in Hf as [Hf Hl]; [|done|done|by eapply Hk1].
      destruct (IH h A Hsc) as (h' & R & A'); [eapply reach_else; [done|done|eapply reach_visible; [|eassumption]; eassumption]|]. exists h'. split; [|done].
      eapply ro_range_none; [done|done|done| |done|exact R]. intros c' xs' Er Hc'. exfalso. apply (ag_collection h) in Hc'; [|done|by apply Hl].
      apply (Hno c' xs' Er). apply ag_collection; [done|by apply Hl|done].
    - intros i sc t s d b Hs Hx h A _ _ _. exists h. split; [by eapply ro_range_unknown|done].
    - intros i sc t s d b x v q i1 m i2 m2 out u Hs Hx Hf _ Hd Hq _ IH _ Hp h A Hsc Ht Hk. inversion Hk as [| | | | | | |? Hk1]; subst. destruct (Hk1 _ _ Hs) as [K1 K2].
      apply (ag_finds h) in Hf as [Hf _]; [|done..]. by destruct (found_plain h sc d v A Hsc K1 K2).
    - intros i sc t s d b x v w q i1 m m1 i2 m2 out u Hs Hx Hf Hn _ Hd _ Hw Hwn Hq _ IH _ Hp h A Hsc Ht Hk. inversion Hk as [| | | | | | |? Hk1]; subst. destruct (Hk1 _ _ Hs) as [K1 K2].
      apply (ag_finds h) in Hf as [Hf _]; [|done..]. assert (Hv : forall l, v <> VRef l) by (intros l ->; by destruct (found_plain h sc d l A Hsc K1 K2)).
      destruct (IH h A Hsc) as (h' & R & A'); [eapply reach_else; [done|done|eapply reach_visible; [|eassumption]; eassumption]|]. exists h'. split; [|done].
      eapply ro_cond_value; [done|done|done|done| |exact (prints_plain _ h v w Hv Hw)|done|exact Hq|exact R|exact (prints_plain _ h' v u Hv Hp)]. intros l ->. by destruct (Hv l).
    - intros i sc t s d b v w i1 m Hs Hx Hf Hn _ Hw Hwn h A Hsc Ht Hk. inversion Hk as [| | | | | | |? Hk1]; subst. destruct (Hk1 _ _ Hs) as [K1 K2].
      apply (ag_finds h) in Hf as [Hf _]; [|done..]. assert (Hv : forall l, v <> VRef l) by (intros l ->; by destruct (found_plain h sc d l A Hsc K1 K2)).
      exists h. split; [|done]. eapply ro_cond_unknown; [done|done|done|done|by eapply prints_plain|done].
    - intros i sc t s d b r p q i1 j out Hs Hx Hf Hr Hq _ IH h A Hsc Ht Hk. inversion Hk as [| | | | | | |? Hk1]; subst. destruct (Hk1 _ _ Hs) as [K1 K2].
      apply (ag_finds h) in Hf as [Hf _]; [|done..]. destruct (IH h A Hsc) as (h' & R & A').
      { intros y Ey. destruct q as [y'|]; [injection Ey as ->; eapply reach_visible; [|eassumption]; eassumption|]. subst p. eapply reach_visible; [|eassumption]; eassumption. }
      exists h'. split; [|done]. eapply ro_cond_blank; [done|done|done| |done|exact R]. destruct Hr as [-> | ->]; constructor.
    - intros i sc t s d b v p q i1 m j out Hs Hx Hf Hn _ Hp Hq _ IH h A Hsc Ht Hk. inversion Hk as [| | | | | | |? Hk1]; subst. destruct (Hk1 _ _ Hs) as [K1 K2].
      apply (ag_finds h) in Hf as [Hf _]; [|done..]. assert (Hv : forall l, v <> VRef l) by (intros l ->; by destruct (found_plain h sc d l A Hsc K1 K2)).
      destruct (IH h A Hsc) as (h' & R & A').
      { intros y Ey. destruct q as [y'|]; [injection Ey as ->; eapply reach_visible; [|eassumption]; eassumption|]. subst p. eapply reach_visible; [|eassumption]; eassumption. }
      exists h'. split; [|done]. eapply ro_cond_blank; [done|done|done| |done|exact R]. apply bl_empty; [done|by eapply prints_plain].
    - intros i sc t b x n c m ys _ Hy Hlen h xs A _ _ _ Hc Hxs. rewrite (Hcol c xs m ys Hc Hxs Hy) in Hlen. exists h. split; [|done]. rewrite drop_ge by done. constructor.
    - intros i sc t b x n c m zs q i1 m1 ys d m2 i2 j o1 o2 _ Hz Hlt Hp _ Hy Hd _ Hcnt _ IH1 _ IH2 h xs A Hsc Ht Hx Hc Hxs.
      rewrite (Hcol c xs m1 ys Hc Hxs Hy) in Hd. assert (Hsd : sn d) by (eapply sn_step; [exact Hc|]; eapply sn_coll; [exact Hxs|]; by eapply elem_of_list_lookup_2).
      destruct (ag_counts h m2 d n _ A Hsd Hcnt) as (h1 & C1 & A1).
      apply (picks_names th H _ t b n c q _ xs) in Hp; [|intros m' ys' Hy'; exact (Hcol c xs m' ys' Hc Hxs Hy')].
      destruct (IH1 h1 A1) as (h2 & R1 & A2); [by constructor|destruct q; [eapply reach_choose; [|eassumption]; eassumption|done]|].
      destruct (IH2 h2 xs A2 Hsc Ht Hx Hc Hxs) as (h3 & R2 & A3). exists h3. split; [|done]. rewrite (drop_S xs (Some d) n Hd). by eapply lp_next.
  Qed.
End Unseen.

Lemma execute_unseen F ord langs th n t d (W : bytes -> Prop) (path : nat -> heap * list (act bytes)) T i out : compiled th -> course T path ->
  (path 0).2 !! i = Some (p_execute F ord langs th n t (Some d)) -> (path T).2 !! i = Some (Ret out) ->
  (forall k, W k -> ">"%char ∉ k) -> W (B ".counter") -> ~ W (B "#") ->
  (forall m, m <= T -> untouched W (path 0).1 d (path m).1) ->
  (forall x Tx l, reaches th t x -> th !! x = Some Tx -> t_root Tx = Some (map stored l) -> Forall (blind W (path 0).1 d) l) ->
  exists h', executes F ord langs th (path 0).1 t d h' out.
Proof.
  intros Hc Hp Hs He W1 W2 W3 HU Hb.
  assert (Hp' : course T (fun m => path (min m T))).
  { intros m Hm. rewrite !Nat.min_l by lia. by apply Hp. }
  destruct (execute_mean F ord langs th n t d (fun m => path (min m T)) T i out Hc Hp') as (m & lg & j & _ & _ & Hl & Hsh); [done|by rewrite Nat.min_id|].
  cbn beta in Hl. assert (HU' : forall m, untouched W (path 0).1 d (path (min m T)).1) by (intros m'; apply HU; lia).
  pose proof (shows_unseen F ord th lg _ W _ d t W1 W2 HU' Hb) as (Hren & _).
  destruct (Hren _ _ _ _ _ Hsh (path 0).1) as (h' & R & _); [apply untouched_refl|by repeat constructor|done|]. exists h', lg. split; [|exact R].
  eapply (ag_language ord W (path 0).1 d W1); [apply HU'|apply untouched_refl|exact W3|exact Hl].
Qed.
