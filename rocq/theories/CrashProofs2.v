(** * What the relation describes panics; when nothing panics. *)
From Verif Require Import GoBase GoStrings GoStringsProofs Regex DatasetModel LangModel DatasetSpec DatasetProofs DatasetProofs2 DatasetProofs3
  DatasetProofs5 TemplateModel TemplateSpec TemplateProofs2 TemplateProofs3 TemplateProofs4 TemplateProofs5 TemplateProofs6
  RenderSpec RenderProofs RenderProofs2 RenderProofs3 RenderProofs4 RenderProofs5 RenderProofs6 RenderProofs7 RenderProofs10 BuildSpec BuildProofs CrashSpec CrashProofs.
Local Open Scope Z_scope.

Section Crash.
  Context (F : golib) (ord : heap -> gmap bytes value -> list (bytes * value)) (th : theap) (lg : option lang).
  Notation run n := (injector F ord th n lg).
  Notation crashes := (crashes F ord th lg).
  Notation calls := (calls F ord th).
  Definition breaks (h : heap) (sc : list loc) (t : loc) : Prop := ev (fun n => run n (h, Some (reverse sc)) t = Panic).
  Definition part_breaks (h : heap) (sc : list loc) (t : loc) (k : token) : Prop :=
    ev (fun n => do_param F ord th n lg (run n) (h, Some (reverse sc)) t (stored k) = Panic).
  Lemma inner_breaks {A} h d sc t (k : heap * option (list loc) -> bytes -> option (list loc) -> outcome A) n :
    run n (h, Some (reverse (d :: sc))) t = Panic ->
    (sc1 <-! spush (Some (reverse sc)) d; '(st2, o) <-! run n (h, sc1) t; sc3 <-! spop st2.2; k st2 o sc3) = Panic.
  Proof. rewrite reverse_cons. intros H. cbn [spush non_nil obind]. by rewrite H. Qed.
  Lemma call_breaks h sc t k sc' x : calls h sc t k sc' x -> breaks h sc' x -> part_breaks h sc t k.
  Proof.
    unfold breaks, part_breaks. intros Hc Hb.
    destruct Hc as [s a field prefix v x Hs Hf Hc|s a field x d Hs Hv Hf Hd|s a field x r Hs Hv Hf Hno|s a ws x Hs L1 L2 Hv|
      s d b x r q Hs Hv Hf Hno Hq|s d b x v q Hs Hv Hf Hd Hq|s d b x v w q Hs Hv Hf Hnn Hno Hw Hwn Hq|s d b r p q x Hs Hv Hf Hbl Hq Hx].
    - apply field_text_ev in Hf. apply choose_ev in Hc.
      pose proof (ev_and _ _ Hf (ev_and _ _ Hc Hb)) as Ha. revert Ha. apply ev_imp. intros n (H1 & H2 & H3). apply separated_split in Hs.
      change (do_reference F ord th n (run n) (h, Some (reverse sc)) t (split_on ":"%char s) = Panic).
      rewrite Hs. cbn [do_reference fst snd non_nil]. rewrite H1. cbn [obind]. rewrite H2. cbn [obind run_opt]. unfold run_on. by rewrite H3.
    - apply visible_ev in Hv. apply found_ev in Hf.
      pose proof (ev_and _ _ Hv (ev_and _ _ Hf Hb)) as Ha. revert Ha. apply ev_imp. intros n (H1 & H2 & H3). apply separated_split in Hs.
      change (do_reference F ord th n (run n) (h, Some (reverse sc)) t (split_on ":"%char s) = Panic).
      rewrite Hs. cbn [do_reference]. rewrite H1. cbn [obind fst snd non_nil]. rewrite H2. cbn [obind mbind option_bind].
      rewrite (dataset_as _ _ Hd). by rewrite (inner_breaks h d sc x (fun st2 o sc3 => Ok ((st2.1, sc3), [o]))).
    - apply visible_ev in Hv. apply found_ev in Hf.
      pose proof (ev_and _ _ Hv (ev_and _ _ Hf Hb)) as Ha. revert Ha. apply ev_imp. intros n (H1 & H2 & H3). apply separated_split in Hs.
      change (do_reference F ord th n (run n) (h, Some (reverse sc)) t (split_on ":"%char s) = Panic).
      rewrite Hs. cbn [do_reference]. rewrite H1. cbn [obind fst snd non_nil]. rewrite H2. cbn [obind].
      assert (E : (r ≫= as_dataset h) = None) by (destruct r as [v|]; [|done]; apply no_dataset_as; intros l ->; by apply Hno).
      rewrite E. unfold run_on. by rewrite H3.
    - apply visible_ev in Hv. pose proof (ev_and _ _ Hv Hb) as Ha. revert Ha. apply ev_imp. intros n (H1 & H3). apply separated_split in Hs.
      change (do_reference F ord th n (run n) (h, Some (reverse sc)) t (split_on ":"%char s) = Panic).
      rewrite Hs. destruct ws as [|w1 [|w2 [|w3 ws]]]; try done; cbn [do_reference]; rewrite H1; cbn [obind]; unfold run_on; by rewrite H3.
    - apply visible_ev in Hv, Hq. apply found_ev in Hf.
      pose proof (ev_and _ _ Hv (ev_and _ _ Hq (ev_and _ _ Hf Hb))) as Ha. revert Ha. apply ev_imp. intros n (H1 & H2 & H3 & H4).
      change (do_range th n (run n) (h, Some (reverse sc)) t s = Panic).
      unfold do_range. rewrite (proj2 (two_ids_spec s d b) Hs). rewrite H1. cbn [obind fst snd]. unfold stack_collection. rewrite H3. cbn [obind].
      assert (Hr : (tmp <-! try_names th n t [dot b (B "none")]; run_on (run n) (h, Some (reverse sc)) (match tmp with Some x => x | None => x end)) = Panic).
      { cbn [try_names]. change (dot b (B "none")) with (dotted b (B "none")). rewrite H2. cbn [obind]. unfold run_on. destruct q; cbn [obind or_else] in *; by rewrite H4. }
      destruct (r ≫= as_collection h) as [l|] eqn:El; cbn [obind]; [|exact Hr].
      destruct r as [v|]; [|done]. simpl in El. apply as_collection_some in El as [-> [cs Hcs]].
      unfold ccount. rewrite (proj2 (elements_some h l cs) Hcs). cbn [obind]. rewrite (Hno l cs eq_refl Hcs). simpl. exact Hr.
    - apply visible_ev in Hv, Hq. apply found_ev in Hf.
      pose proof (ev_and _ _ Hv (ev_and _ _ Hq (ev_and _ _ Hf Hb))) as Ha. revert Ha. apply ev_imp. intros n (H1 & H2 & H3 & H4).
      change (do_condition F ord th n (run n) (h, Some (reverse sc)) t s = Panic).
      unfold do_condition. rewrite (proj2 (two_ids_spec s d b) Hs). rewrite H1. cbn [obind fst snd]. rewrite H3. cbn [obind is_nil].
      rewrite (dataset_as _ _ Hd). cbn [spush non_nil obind]. change (dot b (B "array")) with (dotted b (B "array")). rewrite H2. cbn [obind].
      rewrite reverse_cons in H4. unfold or_else in H4. by rewrite H4.
    - apply visible_ev in Hv, Hq. apply found_ev in Hf. apply prints_ev in Hw.
      pose proof (ev_and _ _ Hv (ev_and _ _ Hq (ev_and _ _ Hf (ev_and _ _ Hb Hw)))) as Ha. revert Ha. apply ev_imp. intros n (H1 & H2 & H3 & H4 & H5).
      change (do_condition F ord th n (run n) (h, Some (reverse sc)) t s = Panic).
      unfold do_condition. rewrite (proj2 (two_ids_spec s d b) Hs). rewrite H1. cbn [obind fst snd]. rewrite H3. cbn [obind].
      assert (En : is_nil v = false) by (by destruct v). rewrite En, (no_dataset_as _ _ Hno), H5. cbn [obind].
      destruct w as [|c w]; [done|]. change (dot b (c :: w)) with (dotted b (c :: w)). rewrite H2. cbn [obind].
      unfold or_else in H4. by rewrite H4.
    - apply visible_ev in Hv, Hq. apply found_ev in Hf.
      assert (Hbv : ev (fun n => r = None \/ r = Some VNil \/ exists v, r = Some v /\ v <> VNil /\ sprint F ord n h v = Ok [])).
      { destruct Hbl as [| |v Hv' Hp]; [by apply ev_all; left|by apply ev_all; right; left|]. apply prints_ev in Hp. revert Hp. apply ev_imp.
        intros n Hn. right. right. by exists v. }
      pose proof (ev_and _ _ Hv (ev_and _ _ Hq (ev_and _ _ Hf (ev_and _ _ Hb Hbv)))) as Hall. revert Hall. apply ev_imp.
      intros n (H1 & H2 & H3 & H4' & H6).
      assert (H4 : run_opt (run n) (h, Some (reverse sc)) (match q with Some y => Some y | None => p end) = Panic).
      { rewrite Hx. cbn [run_opt]. unfold run_on. by rewrite H4'. }
      change (do_condition F ord th n (run n) (h, Some (reverse sc)) t s = Panic).
      unfold do_condition. rewrite (proj2 (two_ids_spec s d b) Hs). rewrite H1. cbn [obind fst snd]. rewrite H3. cbn [obind].
      change (dot b (B "none")) with (dotted b (B "none")).
      destruct H6 as [->|[->|(v & -> & Hnn & H6)]].
      + cbn [is_nil]. destruct p; cbn [obind]; rewrite H2; cbn [obind]; rewrite H4; done.
      + cbn [is_nil]. destruct p; cbn [obind]; rewrite H2; cbn [obind]; rewrite H4; done.
      + assert (En : is_nil v = false) by (by destruct v). rewrite En.
        destruct p as [y|].
        * destruct (as_dataset h v) as [l|] eqn:Ed.
          { apply as_dataset_some in Ed as [-> _]. by destruct (object_text F ord _ _ _ _ H6). }
          rewrite H6. cbn [obind fst]. rewrite H6. cbn [obind]. rewrite H2; cbn [obind]; rewrite H4; done.
        * cbn [obind fst]. rewrite H6. cbn [obind]. rewrite H2; cbn [obind]; rewrite H4; done.
  Qed.
  Lemma loop_prefix sc t b x cl cs ds : forall i h h' out, loops F ord th lg h sc t b x i (length cs) ds h' out -> collection_at h cl cs ->
    take (length ds) (drop i cs) = ds ->
    counted h h' /\
    ev (fun m => forall k, do_loop th m (run m) k (Z.of_nat (i + length ds)) (h', Some (reverse sc)) t b x cl = Panic ->
      do_loop th m (run m) (length ds + k) (Z.of_nat i) (h, Some (reverse sc)) t b x cl = Panic).
  Proof.
    induction ds as [|e ds IH]; intros i h h' out Hl Hc Hd.
    - inversion Hl; subst. split; [apply counted_refl|]. apply ev_all. intros m k. by rewrite Nat.add_0_r.
    - inversion Hl as [|? ? ? ? ? ? ? d ? q h1 h2 ? o1 o2 Hq Hcnt Hr Hrest]; subst.
      assert (Hi : cs !! i = Some (Some d)).
      { destruct (drop i cs) as [|y ys] eqn:Ed; [done|]. cbn [take length] in Hd. injection Hd as -> _.
        replace i with (i + 0)%nat by lia. by rewrite <- lookup_drop, Ed. }
      assert (Hds : take (length ds) (drop (S i) cs) = ds).
      { rewrite (drop_S cs (Some d) i Hi) in Hd. cbn [take length] in Hd. by injection Hd. }
      assert (C1 : counted h h1) by (by eapply counts_counted).
      assert (C2 : counted h h2) by (eapply counted_trans; [exact C1|]; exact (proj1 (renders_counted _ _ _ _) _ _ _ _ _ Hr)).
      destruct (IH _ _ _ _ Hrest (proj1 (counted_collection h h2 cl cs C2) Hc) Hds) as [C3 H4].
      split; [by eapply counted_trans|].
      apply choose_ev in Hq. apply counts_ev in Hcnt. apply renders_ends in Hr.
      pose proof (ev_and _ _ Hq (ev_and _ _ Hcnt (ev_and _ _ Hr H4))) as Hall. revert Hall. apply ev_imp.
      intros m (H1 & H2 & H3 & H5) k Hk. cbn [length]. rewrite Nat.add_succ_l. cbn [do_loop fst]. unfold ccount at 1.
      rewrite (proj2 (elements_some h cl cs) Hc). cbn [obind].
      pose proof (lookup_lt_Some _ _ _ Hi) as Hlt. rewrite bool_decide_eq_true_2 by lia.
      rewrite element_names_eq by lia. rewrite Nat2Z.id, H1. cbn [obind].
      assert (Hg : cget h cl (Z.of_nat i) = Ok (Some (Some d))).
      { unfold cget. rewrite (proj2 (elements_some h cl cs) Hc). rewrite bool_decide_eq_false_2 by lia. cbn [orb].
        rewrite bool_decide_eq_false_2 by lia. by rewrite Nat2Z.id, Hi. }
      rewrite Hg. cbn [obind]. rewrite H2. cbn [obind snd]. unfold or_else in H3.
      rewrite (ends_inner F ord th lg h1 d sc _ h2 o1 (fun st2 out sc3 => '(st4, outs) <-! do_loop th m (run m) (length ds + k) (Z.of_nat i + 1) (st2.1, sc3) t b x cl; Ok (st4, out :: outs))) by exact H3.
      cbn [fst]. replace (Z.of_nat i + 1) with (Z.of_nat (S i)) by lia. rewrite H5; [done|].
      cbn [length] in Hk. by rewrite Nat.add_succ_r in Hk.
  Qed.
  (** The step of the loop that panics. *)
  Lemma loop_breaks h sc t k b x cs i h2 o2 q : loop_at th h sc t k b x cs ->
    loops F ord th lg h sc t b x 0 (length cs) (take i cs) h2 o2 -> choose th t (element_names b i (length cs)) q ->
    (cs !! i = Some None \/ exists e h3, cs !! i = Some (Some e) /\ counts h2 e i h3 /\ breaks h3 (e :: sc) (or_else q x)) ->
    part_breaks h sc t k.
  Proof.
    intros (s & d & c & -> & Hs & Hv & Hf & Hc) Hl Hq Hcase.
    assert (Hlt : (i < length cs)%nat) by (destruct Hcase as [E|(e & h3 & E & _)]; by apply lookup_lt_Some in E).
    assert (Hti : length (take i cs) = i) by (rewrite take_length; lia).
    destruct (loop_prefix sc t b x c cs (take i cs) 0 h h2 o2 Hl Hc) as [C1 Hp]; [by rewrite drop_0, Hti|].
    rewrite Hti in Hp. apply visible_ev in Hv. apply found_ev in Hf. apply choose_ev in Hq.
    assert (Hc2 : collection_at h2 c cs) by (by apply (counted_collection h h2)).
    assert (Hlast : ev (fun m => forall k, (0 < k)%nat -> do_loop th m (run m) k (Z.of_nat i) (h2, Some (reverse sc)) t b x c = Panic)).
    { assert (Hstep : ev (fun m => match cs !! i with Some (Some e) => exists h3, dset m h2 e (B ".counter") (VInt KInt (Z.of_nat i + 1)) = Ok h3 /\
        run m (h3, Some (reverse (e :: sc))) (or_else q x) = Panic | _ => True end)).
      { destruct Hcase as [E|(e & h3 & E & Hcnt & Hb)]; rewrite E; [by apply ev_all|]. apply counts_ev in Hcnt.
        pose proof (ev_and _ _ Hcnt Hb) as Ha. revert Ha. apply ev_imp. intros m [H1 H2]. by exists h3. }
      pose proof (ev_and _ _ Hq Hstep) as Ha. revert Ha. apply ev_imp. intros m [H1 H2] k Hk. destruct k as [|k]; [lia|].
      cbn [do_loop fst]. unfold ccount at 1. rewrite (proj2 (elements_some h2 c cs) Hc2). cbn [obind].
      rewrite bool_decide_eq_true_2 by lia. rewrite element_names_eq by lia. rewrite Nat2Z.id, H1. cbn [obind].
      assert (Hg : forall e, cs !! i = Some e -> cget h2 c (Z.of_nat i) = Ok (Some e)).
      { intros e E. unfold cget. rewrite (proj2 (elements_some h2 c cs) Hc2). rewrite bool_decide_eq_false_2 by lia. cbn [orb].
        rewrite bool_decide_eq_false_2 by lia. by rewrite Nat2Z.id, E. }
      destruct (cs !! i) as [[e|]|] eqn:E; [| |by destruct Hcase as [?|(? & ? & ? & _)]].
      - rewrite (Hg _ eq_refl). cbn [obind]. destruct H2 as (h3 & H2 & H3). rewrite H2. cbn [obind snd]. unfold or_else in H3.
        by rewrite (inner_breaks h3 e sc _ (fun st2 out sc3 => '(st4, outs) <-! do_loop th m (run m) k (Z.of_nat i + 1) (st2.1, sc3) t b x c; Ok (st4, out :: outs))) by exact H3.
      - by rewrite (Hg _ eq_refl). }
    pose proof (ev_and _ _ Hv (ev_and _ _ Hf (ev_and _ _ Hp Hlast))) as [n0 Hb]. exists (n0 `max` S i)%nat. intros n Hn.
    destruct (Hb n) as (H1 & H2 & H3 & H4); [lia|].
    change (do_range th n (run n) (h, Some (reverse sc)) t s = Panic).
    unfold do_range. rewrite (proj2 (two_ids_spec s d b) Hs). rewrite H1. cbn [obind fst snd]. unfold stack_collection. rewrite H2.
    cbn [obind mbind option_bind]. rewrite (proj2 (as_collection_some h (VRef c) c)) by eauto.
    assert (Hcc : ccount h c = Ok (Z.of_nat (length cs))) by (unfold ccount; by rewrite (proj2 (elements_some h c cs) Hc)).
    rewrite Hcc. cbn [obind]. rewrite bool_decide_eq_true_2 by lia.
    specialize (H3 (n - i)%nat). replace (i + (n - i))%nat with n in H3 by lia. apply H3. rewrite Nat.add_0_l. apply H4. lia.
  Qed.
  Lemma root_breaks h sc t T l1 k l2 h1 o : th !! t = Some T -> t_root T = Some (map stored (l1 ++ k :: l2)) ->
    renders_all F ord th lg h sc t l1 h1 o -> part_breaks h1 sc t k -> breaks h sc t.
  Proof.
    intros HT Hr Hl Hk. apply (proj1 (proj2 (renders_complete F ord th lg))) in Hl. pose proof (ev_and _ _ Hl Hk) as [n0 Ha].
    exists (S n0). intros n Hn. destruct n as [|n]; [lia|]. destruct (Ha n) as [(outs & H1 & _) H2]; [lia|].
    cbn [injector]. rewrite HT, Hr.
    assert (E : do_params F ord th n lg (run n) (h, Some (reverse sc)) t (map stored (l1 ++ k :: l2)) = Panic); [|by rewrite E].
    clear Hl Hk Ha Hr. revert H1. generalize (h, Some (reverse sc)). revert outs. induction l1 as [|k1 l1 IH]; intros outs st H1.
    - cbn [map do_params] in H1. injection H1 as -> _. cbn [map app do_params]. by rewrite H2.
    - cbn [map app do_params] in H1 |- *. apply obind_ok in H1 as ([st1 a] & H3 & H4). apply obind_ok in H4 as ([st2 b] & H4 & [= -> _]).
      rewrite H3. cbn [obind]. by rewrite (IH b st1 H4).
  Qed.
  Lemma crashes_breaks h sc t : crashes h sc t -> breaks h sc t.
  Proof.
    induction 1 as [h sc t T l1 k l2 h1 o sc' x HT Hr Hl Hc _ IH|h sc t T l1 k l2 h1 o b x xs i e q h2 o2 h3 HT Hr Hl Ha Hp He Hq Hcnt _ IH|
      h sc t T l1 k l2 h1 o b x xs i q h2 o2 HT Hr Hl Ha Hp He Hq]; eapply root_breaks; try done.
    - by eapply call_breaks.
    - eapply loop_breaks; [done..|]. right. by exists e, h3.
    - eapply loop_breaks; [done..|]. by left.
  Qed.
  (** ** No holes *)
  Definition whole (h : heap) (sc : list loc) : Prop := Forall (no_holes h) sc.
  Lemma whole_counted h h' sc : counted h h' -> whole h sc -> whole h' sc.
  Proof.
    intros Hc Hw. eapply Forall_impl; [exact Hw|]. intros d Hn c xs Hr Hx. eapply Hn; [by eapply counted_reach|]. by apply (counted_collection h h').
  Qed.
  Lemma whole_found h sc key d : whole h sc -> found h sc key (Some (VRef d)) -> no_holes h d.
  Proof.
    intros Hw Hf. apply found_reach in Hf as (x & Hx & Hr). unfold whole in Hw. rewrite Forall_forall in Hw. intros c xs Hc. apply (Hw x Hx).
    by etrans.
  Qed.
  Lemma whole_crash h sc t : crashes h sc t -> ~ whole h sc.
  Proof.
    assert (Hall : forall h sc t l h1 o, renders_all F ord th lg h sc t l h1 o -> whole h sc -> whole h1 sc).
    { intros h0 sc0 t0 l h1 o Hl. apply whole_counted. by apply (proj1 (proj2 (renders_counted F ord th lg)) _ _ _ _ _ _ Hl). }
    induction 1 as [h sc t T l1 k l2 h1 o sc' x HT Hr Hl Hc _ IH|h sc t T l1 k l2 h1 o b x xs i e q h2 o2 h3 HT Hr Hl Ha Hp He Hq Hcnt _ IH|
      h sc t T l1 k l2 h1 o b x xs i q h2 o2 HT Hr Hl Ha Hp He Hq]; intros Hw; apply (Hall _ _ _ _ _ _ Hl) in Hw.
    - apply IH. destruct Hc; try done; constructor; try done; by eapply whole_found.
    - destruct Ha as (s & d & c & -> & Hs & Hv & Hf & Hc). apply IH.
      assert (Hlt : (i < length xs)%nat) by (by apply lookup_lt_Some in He).
      assert (Hti : length (take i xs) = i) by (rewrite take_length; lia).
      destruct (loop_prefix sc t b x c xs (take i xs) 0 h1 h2 o2 Hp Hc) as [C1 _]; [by rewrite drop_0, Hti|].
      assert (C2 : counted h1 h3). { eapply counted_trans; [exact C1|]. eapply counts_counted; [exact Hcnt| |exact He]. by apply (counted_collection h1 h2). }
      constructor; [|by eapply whole_counted].
      assert (Hn : no_holes h1 e).
      { intros c' xs' Hr' Hc'. eapply (whole_found _ _ _ _ Hw Hf); [|done]. eapply rtc_l; [|exact Hr']. eapply child_coll; [done|]. by eapply elem_of_list_lookup_2. }
      intros c' xs' Hr' Hc'. eapply Hn; [by eapply counted_reach|]. by apply (counted_collection h1 h3).
    - destruct Ha as (s & d & c & -> & Hs & Hv & Hf & Hc). eapply (whole_found _ _ _ _ Hw Hf); [apply rtc_refl|done|]. by eapply elem_of_list_lookup_2.
  Qed.
End Crash.

(** ** Execute *)
Lemma language_got langs n h d r : dget n h d (B "#") = Ok r -> language_of langs h d (match r with Some (VOther k) => langs k | _ => None end).
Proof.
  intros Hr. exists r. split; [apply answers_gets; by exists n|].
  destruct (other_or_not r) as [[k ->]|D]; [left; eauto|]. right. split; [done|]. destruct r as [v|]; [|done]. destruct v; try done. exfalso; by eapply D.
Qed.
Lemma execute_panics F ord langs th h t d : compiled th -> closed th -> is_Some (th !! t) -> wf h -> dataset_at h d ->
  (exists n, execute F ord langs th n h t (Some d) = Panic) <-> execute_crashes F ord langs th h t d.
Proof.
  intros Hc Hcl Ht Hw Hd. split.
  - intros [n H]. unfold execute in H. apply obind_panic in H as [H|(r & Hr & H)]; [by apply get_no_panic in H|].
    apply obind_panic in H as [H|([st o] & _ & H)]; [|done].
    apply injector_crash in H; [|done|done| |done].
    + exists (match r with Some (VOther k) => langs k | _ => None end). split; [by eapply language_got|exact H].
    + split; [done|]. split; [done|]. by apply Forall_singleton.
  - intros (lg & (r & [n1 Hr]%answers_gets & Hl) & [n2 H]%crashes_breaks). exists (n1 `max` n2)%nat. unfold execute.
    rewrite (dget_mono n1 (n1 `max` n2) h d _ _ ltac:(lia) Hr) by done. cbn [obind].
    assert (E : match r with Some (VOther k) => langs k | _ => None end = lg).
    { destruct Hl as [(k & -> & ->)|[Hn ->]]; [done|]. destruct r as [v|]; [|done]. destruct v; try done. exfalso; by eapply Hn. }
    rewrite E. change (Some [d]) with (Some (reverse [d])). by rewrite H by lia.
Qed.
Lemma execute_crashes_stays F ord langs th h t d : execute_crashes F ord langs th h t d ->
  exists n0, forall n, (n0 <= n)%nat -> execute F ord langs th n h t (Some d) = Panic.
Proof.
  intros (lg & (r & [n1 Hr]%answers_gets & Hl) & [n2 H]%crashes_breaks). exists (n1 `max` n2)%nat. intros n Hn. unfold execute.
  rewrite (dget_mono n1 n h d _ _ ltac:(lia) Hr) by done. cbn [obind].
  assert (E : match r with Some (VOther k) => langs k | _ => None end = lg).
  { destruct Hl as [(k & -> & ->)|[Hn' ->]]; [done|]. destruct r as [v|]; [|done]. destruct v; try done. exfalso; by eapply Hn'. }
  rewrite E. change (Some [d]) with (Some (reverse [d])). by rewrite H by lia.
Qed.
Lemma crash_or_text F ord langs th h t d h' out : execute_crashes F ord langs th h t d -> ~ executes F ord langs th h t d h' out.
Proof.
  intros (lg & L1 & [n1 H1]%crashes_breaks) (lg' & L2 & [n2 H2]%renders_ends). rewrite (language_unique _ _ _ _ _ L2 L1) in H2.
  specialize (H1 (n1 `max` n2)%nat ltac:(lia)). specialize (H2 (n1 `max` n2)%nat ltac:(lia)). congruence.
Qed.
Lemma crash_always F ord langs th h t d : execute_crashes F ord langs th h t d ->
  (exists n0, forall n, (n0 <= n)%nat -> execute F ord langs th n h t (Some d) = Panic) /\ forall h' out, ~ executes F ord langs th h t d h' out.
Proof. intros H. split; [by apply execute_crashes_stays|]. intros h' out. by apply crash_or_text. Qed.
Lemma no_hole_no_panic F ord langs th n h t d : compiled th -> closed th -> is_Some (th !! t) -> wf h -> dataset_at h d -> no_holes h d ->
  execute F ord langs th n h t (Some d) <> Panic.
Proof.
  intros Hc Hcl Ht Hw Hd Hn H. assert (He : execute_crashes F ord langs th h t d) by (apply execute_panics; try done; by exists n).
  destruct He as (lg & _ & He). apply whole_crash in He. apply He. by apply Forall_singleton.
Qed.
(** ** A loop that meets a hole gives no text *)
Lemma stored_same : Inj (=) (=) stored.
Proof. intros a b H. destruct a, b; simpl in H; try discriminate H; try reflexivity; by injection H as ->. Qed.
Lemma renders_all_unique F ord th lg h sc t l h1 o1 h2 o2 : renders_all F ord th lg h sc t l h1 o1 -> renders_all F ord th lg h sc t l h2 o2 -> h1 = h2.
Proof.
  intros H1 H2. apply (proj1 (proj2 (renders_complete F ord th lg))) in H1, H2. pose proof (ev_and _ _ H1 H2) as [n Hn].
  destruct (Hn n (le_n n)) as [(a & E1 & _) (b & E2 & _)]. rewrite E1 in E2. by injection E2.
Qed.
Lemma renders_all_app F ord th lg h sc t l1 l2 h' o : renders_all F ord th lg h sc t (l1 ++ l2) h' o ->
  exists h1 o1 o2, renders_all F ord th lg h sc t l1 h1 o1 /\ renders_all F ord th lg h1 sc t l2 h' o2.
Proof.
  revert h o. induction l1 as [|k l1 IH]; intros h o H; [exists h, [], o; split; [constructor|done]|].
  cbn [app] in H. inversion H as [|? ? ? ? ? h1 ? a b H1 H2]; subst. apply IH in H2 as (h2 & o1 & o2 & H2 & H3).
  exists h2, (a ++ o1), o2. split; [by eapply ra_cons|done].
Qed.
Lemma loops_elements F ord th lg h sc t b x i n ds h' out : loops F ord th lg h sc t b x i n ds h' out -> None ∉ ds.
Proof.
  revert i h out. induction ds as [|e ds IH]; intros i h out H; [apply not_elem_of_nil|].
  inversion H; subst. apply not_elem_of_cons. split; [done|]. by eapply IH.
Qed.
Lemma hole_no_text F ord langs th h t d T l1 k l2 lg h1 o b x xs : compiled th -> th !! t = Some T -> t_root T = Some (map stored (l1 ++ k :: l2)) ->
  language_of langs h d lg -> renders_all F ord th lg h [d] t l1 h1 o -> loop_at th h1 [d] t k b x xs -> None ∈ xs ->
  forall n r, execute F ord langs th n h t (Some d) <> Ok r.
Proof.
  intros Hcomp HT Hr HL Hl (s & key & c & -> & Hs & Hv & Hf & Hc) Hnone n [h' out] H.
  assert (He : executes F ord langs th h t d h' out) by (apply execute_meaning; [done|by exists n]).
  destruct He as (lg' & L2 & He). rewrite (language_unique _ _ _ _ _ L2 HL) in He. clear L2 lg'.
  inversion He as [? ? ? T' l ? ? HT' Hr' Ha|? ? ? T' HT' Hr']; subst; [|congruence].
  rewrite HT in HT'. injection HT' as <-. rewrite Hr in Hr'. injection Hr' as Hr'.
  assert (El : l1 ++ TRange s :: l2 = l) by (pose proof stored_same as Hinj; by apply (inj (fmap stored)) in Hr'). subst l.
  apply renders_all_app in Ha as (h2 & o1 & o2 & H1 & H2). rewrite (renders_all_unique _ _ _ _ _ _ _ _ _ _ _ _ H1 Hl) in H2.
  inversion H2 as [|? ? ? ? ? h3 ? a b' H3 H4]; subst.
  inversion H3; subst;
    repeat match goal with
    | A : data_template ?s _ _, C : data_template ?s _ _ |- _ => destruct (data_template_unique _ _ _ _ _ A C); clear A; subst
    | A : found ?h ?sc ?d _, C : found ?h ?sc ?d _ |- _ => pose proof (found_unique _ _ _ _ _ A C); clear A; simplify_eq
    | A : visible ?th ?t ?n _, C : visible ?th ?t ?n _ |- _ => pose proof (visible_unique _ _ _ _ _ A C); clear A; simplify_eq end.
  - match goal with A : collection_at _ _ ?ys, L : loops _ _ _ _ _ _ _ _ _ _ _ ?ys _ _ |- _ =>
      rewrite (collection_det _ _ _ _ A Hc) in L; by apply loops_elements in L end.
  - match goal with A : forall c xs, _ -> _ -> xs = [] |- _ => rewrite (A _ _ eq_refl Hc) in Hnone; by apply not_elem_of_nil in Hnone end.
Qed.
(** ** Templates and data made with the functions of the package *)
Lemma made_no_panic F ord langs th n h t d : RenderSpec.built th -> BuildSpec.built false h -> is_Some (th !! t) -> dataset_at h d ->
  execute F ord langs th n h t (Some d) <> Panic.
Proof.
  intros (H1 & H2 & _)%built_ok Hh Ht Hd. apply no_hole_no_panic; try done; [by eapply built_wf|].
  assert (Hc : complete h d) by (apply built_complete; [done|]; destruct Hd as [[m ->]|[w ->]]; by eexists).
  intros c xs Hr Hx. destruct (Hc c Hr) as (_ & _ & Hn). by apply Hn.
Qed.
