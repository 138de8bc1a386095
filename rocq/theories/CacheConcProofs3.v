(** * The concurrent cache refines an atomic map, and the sequential cache. *)
From Verif Require Import GoBase CacheModel CacheProofs CacheSpec CacheConc CacheConcProofs CacheConcSpec CacheConcProofs2.
From Coq Require Import Lia ZifyBool ZifyNat.
Local Open Scope Z_scope.

Section AtomicMap.
  Context {D : Type} (dnil : D).
  Implicit Types (k : bytes) (d : D) (s : shared D) (g : config D) (t : nat) (x : positive) (a : action D).
  Notation atomic_run := (atomic_run dnil).

  Lemma atomic_run_app (m : gmap bytes D) l1 l2 :
    atomic_run m (l1 ++ l2) = ((atomic_run (atomic_run m l1).1 l2).1, (atomic_run m l1).2 ++ (atomic_run (atomic_run m l1).1 l2).2).
  Proof.
    revert m. induction l1 as [|[t c] l1 IH]; intros m; simpl; [by destruct (atomic_run m l2)|].
    destruct (atomic dnil m c) as [m1 r]. rewrite IH. destruct (atomic_run m1 l1) as [m2 rs]. simpl.
    by destruct (atomic_run m2 l2).
  Qed.
  Lemma answers_app t (r1 r2 : list (nat * result D)) : answers_of t (r1 ++ r2) = answers_of t r1 ++ answers_of t r2.
  Proof. unfold answers_of. by rewrite filter_app, map_app. Qed.
  Lemma received_app t (r1 r2 : list (label D * shared D)) : received t (r1 ++ r2) = received t r1 ++ received t r2.
  Proof. unfold received. by rewrite flat_map_app. Qed.

  (** The map the shared state stands for. *)
  Definition holds s (m : gmap bytes D) : Prop :=
    forall k, m !! k = (h_items s !! k) ≫= (fun x => e_data <$> h_heap s !! x).
  Definition no_ttl s : Prop := forall x e, h_heap s !! x = Some e -> e_ttl e = 0.

  (** What thread [t] still has to receive. *)
  Definition owed s (ts : tstate (D:=D)) (l : list (result D)) : Prop :=
    match ts with
    | None => l = []
    | Some (c, p) =>
        match p with
        | Start => l = [] /\ map_call c
        | GTtl x | GVal x | GExp x | GRtime x | GTouch x =>
            exists k e, c = CGet k None /\ h_heap s !! x = Some e /\ l = [RGet (e_data e) false]
        | Exit r => l = [r]
        | _ => False
        end
    end.
  Definition ainv acts g (tr : list (label D * shared D)) : Prop :=
    let s := g_shared g in let m := (atomic_run ∅ (firsts acts)).1 in
    allocated s /\ no_ttl s /\ h_max s = 0 /\ h_expire s = 0 /\ holds s m /\
    forall t, exists l, owed s (g_threads g t) l /\ answers_of t (atomic_run ∅ (firsts acts)).2 = received t tr ++ l.

  Lemma holds_size s m : allocated s -> holds s m -> size (h_items s) = size m.
  Proof.
    intros Ha Hh. rewrite <- !size_dom. f_equal. apply set_eq. intros k. rewrite !elem_of_dom, (Hh k).
    destruct (h_items s !! k) as [x|] eqn:E; simpl; [|split; intros [? ?]; done].
    destruct (Ha _ _ E) as [e He]. rewrite He. simpl. split; eauto.
  Qed.
  Lemma owed_grows s s' ts l : grows (h_heap s) (h_heap s') -> owed s ts l -> owed s' ts l.
  Proof.
    intros Hg. destruct ts as [[c p]|]; [|done]. destruct p; simpl; try done;
      intros (k & e & -> & He & ->); destruct (Hg _ _ He) as (e' & He' & Hd & _); exists k, e'; rewrite Hd; done.
  Qed.

  (** One step of a call: the first step commits, the others deliver. *)
  Lemma map_step s c p i s' p' m l :
    tstep dnil s c p i = Some (s', p') -> in_mid i = None -> allocated s -> no_ttl s -> h_max s = 0 -> h_expire s = 0 -> holds s m ->
    owed s (Some (c, p)) l ->
    let '(m', r) := match p with Start => ((atomic dnil m c).1, [(atomic dnil m c).2]) | _ => (m, []) end in
    no_ttl s' /\ h_max s' = 0 /\ h_expire s' = 0 /\ holds s' m' /\ owed s' (Some (c, p')) (l ++ r).
  Proof.
    intros Hs Hmid Ha Hn Hm He Hh Ho. destruct p.
    - destruct Ho as [-> Hc]. destruct c as [k d| |k v|k| | | |]; try done; simpl in Hs |- *.
      + destruct (h_heap s !! in_loc i) eqn:El; [done|]. unfold cset in Hs. simpl in Hs.
        unfold reads in Hs. rewrite Hmid in Hs. simpl in Hs. rewrite bool_decide_eq_false_2 in Hs by lia. simplify_eq. simpl. split_and!; try done.
        * intros x e. simpl. destruct (decide (x = in_loc i)) as [->|]; [rewrite lookup_insert; by intros [= <-]|].
          rewrite lookup_insert_ne by done. apply Hn.
        * intros k'. simpl. destruct (decide (k' = k)) as [->|]; [by rewrite !lookup_insert; simpl; rewrite lookup_insert|].
          rewrite !lookup_insert_ne, (Hh k') by done. destruct (h_items s !! k') as [x|] eqn:Ex; [|done]. simpl.
          destruct (Ha _ _ Ex) as [e Hx]. by rewrite lookup_insert_ne by congruence.
      + simpl in Hc. subst v. rewrite (Hh k). destruct (h_items s !! k) as [x|] eqn:Ex; simplify_eq; simpl; split_and!; try done.
        destruct (Ha _ _ Ex) as [e Hx]. exists k, e. by rewrite Hx.
      + simplify_eq. simpl. split_and!; try done. intros k'. simpl. destruct (decide (k' = k)) as [->|]; [by rewrite !lookup_delete|].
        by rewrite !lookup_delete_ne, (Hh k') by done.
      + simplify_eq. simpl. split_and!; try done. by rewrite (holds_size _ _ Ha Hh).
      + simplify_eq. simpl. split_and!; try done.
    - destruct Ho as (k & e & -> & Hx & ->). simpl in Hs. rewrite Hx in Hs. simplify_eq.
      rewrite decide_True by (by eapply Hn). rewrite app_nil_r. simpl. eauto 10.
    - done.
    - destruct Ho as (k & e & -> & Hx & ->). simpl in Hs. rewrite Hx in Hs. simplify_eq.
      rewrite app_nil_r. simpl. eauto 10.
    - destruct Ho as (k & e & -> & Hx & ->). simpl in Hs. rewrite Hx in Hs. simplify_eq.
      rewrite decide_True by done. rewrite app_nil_r. simpl. eauto 10.
    - done.
    - done.
    - destruct Ho as (k & e & -> & Hx & ->). simpl in Hs. simplify_eq.
      rewrite app_nil_r. simpl. split_and!; try done.
      + intros y e'. simpl. rewrite lookup_alter_Some. intros [(-> & e2 & H2 & ->)|[_ H2]]; [simpl|]; by eapply Hn.
      + intros k'. simpl. rewrite (Hh k'). destruct (h_items s !! k') as [y|]; [|done]. simpl.
        destruct (decide (y = x)) as [->|]; [|by rewrite lookup_alter_ne]. rewrite lookup_alter, Hx. done.
      + rewrite lookup_alter, Hx. simpl. eexists _, _. split_and!; done.
    - destruct Ho as (k & e & -> & Hx & ->). simpl in Hs. rewrite Hx in Hs. simplify_eq.
      rewrite app_nil_r. simpl. done.
    - done.
    - done.
    - done.
    - done.
    - by destruct c.
  Qed.

  Lemma atomic_inv acts g tr :
    exec dnil (cinit 0 0) acts = Some (g, tr) -> Forall map_action acts -> ainv acts g tr.
  Proof.
    revert acts g tr. apply (exec_ind dnil (fun acts g tr => Forall map_action acts -> ainv acts g tr)).
    - intros _. unfold ainv. split_and!; [intros k x; simpl; by rewrite lookup_empty|intros x e; simpl; by rewrite lookup_empty|done|done| |].
      + intros k. simpl. by rewrite !lookup_empty.
      + intros t. exists []. done.
    - intros acts g tr a g' l He IH Hs Hf. apply Forall_app in Hf as [Hf Hfa]. inversion Hfa as [|? ? Hma _]; subst.
      destruct (IH Hf) as (Ha & Hn & Hm & Hex & Hh & Ho). pose proof (exec_tracks _ _ _ _ _ _ He) as Ht.
      unfold ainv, firsts in *. rewrite firsts_snoc. destruct a as [t c|t i|t|mx'|ex']; simpl in Hs |- *; [| | |done..].
      + destruct (g_threads g t) eqn:E; [done|]. simplify_eq. simpl. split_and!; try done. intros t'. rewrite received_app. simpl. rewrite app_nil_r.
        unfold upd. destruct (decide (t' = t)) as [->|]; [|apply Ho]. destruct (Ho t) as (l & Hl & Hal). rewrite E in Hl. simpl in Hl. subst l.
        exists []. done.
      + destruct (g_threads g t) as [[c p]|] eqn:E; [|done]. destruct (tstep _ _ _ _ _) as [[s' p']|] eqn:E2; [|done]. simplify_eq. simpl.
        destruct (tstep_grows _ _ _ _ _ _ _ Ha E2) as [Ha' Hg]. pose proof (Ht t) as Htt. rewrite E in Htt.
        destruct (Ho t) as (l & Hl & Hal). rewrite E in Hl.
        pose proof (map_step _ _ _ _ _ _ _ _ E2 Hma Ha Hn Hm Hex Hh Hl) as Hstep.
        assert (Hcase : match p with Start => f_pending (firsts_from acts) t = Some c | _ => f_pending (firsts_from acts) t = None end) by (by destruct p).
        destruct (f_pending (firsts_from acts) t) as [c0|] eqn:Ep.
        * assert (p = Start) as -> by (by destruct p). simplify_eq. simpl. rewrite atomic_run_app. simpl.
          destruct (atomic dnil (atomic_run ∅ (f_calls (firsts_from acts))).1 c) as [m' r] eqn:Eat. simpl in Hstep |- *.
          destruct Hstep as (Hn' & Hm' & Hex' & Hh' & Ho'). split_and!; try done.
          intros t'. rewrite received_app, answers_app. simpl. rewrite app_nil_r. unfold upd.
          destruct (decide (t' = t)) as [->|Hne].
          -- eexists. split; [exact Ho'|]. rewrite Hal, <- app_assoc. f_equal. f_equal. unfold answers_of. rewrite filter_cons_True; done.
          -- destruct (Ho t') as (l' & Hl' & Hal'). exists l'. split; [by eapply owed_grows|]. unfold answers_of at 2.
             rewrite filter_cons_False by (simpl; congruence). simpl. by rewrite app_nil_r.
        * assert (Hstep' : no_ttl s' /\ h_max s' = 0 /\ h_expire s' = 0 /\ holds s' (atomic_run ∅ (f_calls (firsts_from acts))).1 /\ owed s' (Some (c, p')) l)
            by (destruct p; try done; by rewrite app_nil_r in Hstep).
          destruct Hstep' as (Hn' & Hm' & Hex' & Hh' & Ho'). split_and!; try done.
          intros t'. rewrite received_app. simpl. rewrite app_nil_r. unfold upd.
          destruct (decide (t' = t)) as [->|Hne]; [by exists l|].
          destruct (Ho t') as (l' & Hl' & Hal'). exists l'. split; [by eapply owed_grows|done].
      + destruct (g_threads g t) as [[c [| | | | | | | | | | | | |r]]|] eqn:E; simplify_eq. simpl. split_and!; try done.
        intros t'. rewrite received_app. simpl. unfold upd. destruct (Ho t') as (l & Hl & Hal).
        destruct (decide (t = t')) as [->|Hne].
        * rewrite decide_True by done. exists []. split; [done|]. rewrite E in Hl. rewrite Hal, app_nil_r. simpl in Hl. by subst l.
        * rewrite decide_False by congruence. exists l. by rewrite app_nil_r.
  Qed.

  Lemma atomic_map acts g tr :
    exec dnil (cinit 0 0) acts = Some (g, tr) -> Forall map_action acts ->
    forall t, received t tr `prefix_of` answers_of t (atomic_run ∅ (firsts acts)).2 /\
      (g_threads g t = None -> received t tr = answers_of t (atomic_run ∅ (firsts acts)).2).
  Proof.
    intros He Hf t. destruct (atomic_inv _ _ _ He Hf) as (_ & _ & _ & _ & _ & Ho). destruct (Ho t) as (l & Hl & Hal). split.
    - exists l. done.
    - intros E. rewrite E in Hl. simpl in Hl. subst l. by rewrite app_nil_r in Hal.
  Qed.
  Lemma atomic_map_contents acts g tr :
    exec dnil (cinit 0 0) acts = Some (g, tr) -> Forall map_action acts ->
    forall k d, current (g_shared g) k d <-> (atomic_run ∅ (firsts acts)).1 !! k = Some d.
  Proof.
    intros He Hf k d. destruct (atomic_inv _ _ _ He Hf) as (_ & _ & _ & _ & Hh & _). rewrite (Hh k). unfold current.
    rewrite bind_Some. setoid_rewrite fmap_Some. naive_solver.
  Qed.
End AtomicMap.

Section Apart.
  Context {D : Type} (dnil : D).
  Implicit Types (k : bytes) (d : D) (s : shared D) (g : config D) (t : nat) (x : positive).

  (** The sequential cache a shared state stands for. *)
  Definition seen s : cache D := Cache (h_max s) (h_expire s) (omap (fun x => h_heap s !! x) (h_items s)) (h_pile s).
  Definition wfs s : Prop := allocated s /\ forall k1 k2 x, h_items s !! k1 = Some x -> h_items s !! k2 = Some x -> k1 = k2.

  Lemma seen_lookup s k : c_items (seen s) !! k = (h_items s !! k) ≫= (fun x => h_heap s !! x).
  Proof. simpl. by rewrite lookup_omap. Qed.
  Lemma omap_size (h : gmap positive (entry D)) (m : gmap bytes positive) :
    (forall k x, m !! k = Some x -> is_Some (h !! x)) -> size (omap (fun x => h !! x) m) = size m.
  Proof.
    intros Ha. rewrite <- !size_dom. f_equal. apply set_eq. intros k. rewrite !elem_of_dom, lookup_omap.
    destruct (m !! k) as [x|] eqn:E; simpl; [|split; intros [? ?]; done]. destruct (Ha _ _ E) as [e He]. rewrite He. split; eauto.
  Qed.
  Lemma evict_omap (h : gmap positive (entry D)) (n : nat) (pile : list bytes) (m : gmap bytes positive) :
    let '(p, m', r) := evict n pile m in
    evict n pile (omap (fun x => h !! x) m) = (p, omap (fun x => h !! x) m', r) /\ m' ⊆ m.
  Proof.
    revert pile m. induction n as [|n IH]; intros pile m; simpl; [done|]. destruct pile as [|k pile]; [done|].
    specialize (IH pile (delete k m)). destruct (evict n pile (delete k m)) as [[p m'] r]. destruct IH as [IH Hs].
    split; [|etrans; [exact Hs|apply delete_subseteq]].
    rewrite <- IH. f_equal. apply map_eq. intros k'. rewrite lookup_omap. destruct (decide (k' = k)) as [->|].
    - by rewrite !lookup_delete.
    - by rewrite !lookup_delete_ne, lookup_omap by done.
  Qed.
  Definition steady s : readings := Readings (h_max s) (h_max s) (h_expire s) (fun _ => h_expire s).
  Lemma reads_steady s i : in_mid i = None -> reads s i = steady s.
  Proof. unfold reads. by intros ->. Qed.
  Lemma cclean_seen s perc now : wfs s ->
    mclean (seen s) perc now = (seen (cclean s perc now (steady s)).1, (cclean s perc now (steady s)).2) /\ wfs (cclean s perc now (steady s)).1.
  Proof.
    intros [Ha Hi]. unfold cclean, mclean. simpl.
    set (items1 := if decide (h_expire s = 0) then h_items s else _).
    assert (Hsub : items1 ⊆ h_items s) by (unfold items1; case_decide; [done|apply map_filter_subseteq]).
    assert (Hp : purge (h_expire s) now (omap (fun x => h_heap s !! x) (h_items s)) = omap (fun x => h_heap s !! x) items1).
    { unfold purge, items1. case_decide; [done|]. apply map_eq. intros k. rewrite lookup_omap.
      apply option_eq. intros e. rewrite map_filter_lookup_Some, lookup_omap. rewrite !bind_Some.
      setoid_rewrite map_filter_lookup_Some. simpl. unfold ctime_of. split.
      - intros [(x & H1 & H2) H3]. exists x. rewrite H2. done.
      - intros (x & [H1 H3] & H2). rewrite H2 in H3. eauto. }
    rewrite Hp, omap_size by (intros k x Hx; eapply Ha, lookup_weaken; done).
    pose proof (evict_omap (h_heap s) (Z.to_nat (quota (Z.of_nat (size items1)) perc)) (h_pile s) items1) as Hev.
    destruct (evict _ _ items1) as [[p m'] r]. destruct Hev as [-> Hs]. 
    assert (Hw : forall pile, wfs (Shared (h_max s) (h_expire s) (h_heap s) m' pile (h_gone s))).
    { intros pile. split; [intros k x Hx|intros k1 k2 x H1 H2]; simpl in *.
      - eapply Ha, lookup_weaken; [|exact Hsub]. by eapply lookup_weaken.
      - eapply Hi; (eapply lookup_weaken; [|exact Hsub]); by eapply lookup_weaken. }
    destruct p; simpl; split; try done; apply Hw.
  Qed.
  Lemma cdel_seen s k : wfs s -> seen (cdel s k) = del (seen s) k /\ wfs (cdel s k).
  Proof.
    intros [Ha Hi]. split.
    - unfold seen, cdel, del. simpl. f_equal. apply map_eq. intros k'. rewrite lookup_omap. destruct (decide (k' = k)) as [->|].
      + by rewrite !lookup_delete.
      + by rewrite !lookup_delete_ne, lookup_omap by done.
    - split; [intros k' x Hx|intros k1 k2 x H1 H2]; simpl in *.
      + apply lookup_delete_Some in Hx as [_ Hx]. by eapply Ha.
      + apply lookup_delete_Some in H1 as [_ H1], H2 as [_ H2]. by eapply Hi.
  Qed.
  Lemma cset_seen s k d i : wfs s -> in_mid i = None -> h_heap s !! in_loc i = None ->
    set (seen s) k d (in_t1 i) (in_t2 i) (in_now i) = (seen (cset s k d i).1, (cset s k d i).2) /\ wfs (cset s k d i).1.
  Proof.
    intros [Ha Hi] Hmid Hn. unfold cset, set. rewrite (reads_steady _ _ Hmid). simpl.
    set (s1 := Shared (h_max s) (h_expire s) (<[in_loc i := _]> (h_heap s)) (<[k := in_loc i]> (h_items s)) _ _).
    assert (Hne : forall k' x, h_items s !! k' = Some x -> x <> in_loc i).
    { intros k' x Hx ->. destruct (Ha _ _ Hx) as [e He]. congruence. }
    assert (Hitems : <[k := Entry (in_t1 i) (in_t2 i) 0 d]> (omap (fun x => h_heap s !! x) (h_items s)) = omap (fun x => h_heap s1 !! x) (h_items s1)).
    { apply map_eq. intros k'. rewrite lookup_omap. simpl. destruct (decide (k' = k)) as [->|].
      - rewrite !lookup_insert. simpl. by rewrite lookup_insert.
      - rewrite !lookup_insert_ne, lookup_omap by done. destruct (h_items s !! k') as [x|] eqn:Ex; [|done]. simpl.
        by rewrite lookup_insert_ne by (apply not_eq_sym; by eapply Hne). }
    assert (Hw : wfs s1).
    { split; [intros k' x|intros k1 k2 x]; simpl.
      - rewrite lookup_insert_Some. intros [[<- <-]|[_ Hx]]; [rewrite lookup_insert; eauto|]. 
        rewrite lookup_insert_ne by (apply not_eq_sym; by eapply Hne). by eapply Ha.
      - rewrite !lookup_insert_Some. intros [[<- <-]|[H1 H1']] [[<- H2]|[H2 H2']]; try done.
        + by destruct (Hne _ _ H2').
        + subst x. by destruct (Hne _ _ H1').
        + by eapply Hi. }
    rewrite Hitems, (omap_size (h_heap s1) (h_items s1)) by apply Hw.
    assert (Hpres : bool_decide (is_Some (omap (fun x => h_heap s !! x) (h_items s) !! k)) = bool_decide (is_Some (h_items s !! k))).
    { apply bool_decide_ext. rewrite lookup_omap. destruct (h_items s !! k) as [x|] eqn:Ex; simpl; [|split; intros [? ?]; done].
      destruct (Ha _ _ Ex) as [e He]. rewrite He. split; eauto. }
    rewrite Hpres. change (Cache (h_max s) (h_expire s) (omap (fun x => h_heap s1 !! x) (h_items s1)) (h_pile s1)) with (seen s1).
    change (h_items s1) with (<[k := in_loc i]> (h_items s)). clear Hpres. destruct (bool_decide (h_max s > 0 /\ _)); [|split; [reflexivity|exact Hw]].
    destruct (cclean_seen s1 10 (in_now i) Hw) as [Hc Hw2].
    change (Cache (h_max s) (h_expire s) (omap (fun x => h_heap s1 !! x) (<[k := in_loc i]> (h_items s))) 
      ((if bool_decide (is_Some (h_items s !! k)) then remove_first k (h_pile s) else h_pile s) ++ [k])) with (seen s1).
    rewrite Hc. change (steady s) with (steady s1). destruct (cclean s1 10 (in_now i) (steady s1)) as [s2 r2]. simpl in *. destruct r2; done.
  Qed.
  Lemma alter_seen s k x f : wfs s -> h_items s !! k = Some x ->
    let s' := Shared (h_max s) (h_expire s) (alter f x (h_heap s)) (h_items s) (h_pile s) (h_gone s) in
    wfs s' /\ c_items (seen s') = alter f k (c_items (seen s)).
  Proof.
    intros [Ha Hi] Hx s'. split.
    - split; [|exact Hi]. intros k' y Hy. simpl in *. destruct (Ha _ _ Hy) as [e He].
      destruct (decide (y = x)) as [->|]; [rewrite lookup_alter, He|rewrite lookup_alter_ne, He by done]; simpl; eauto.
    - apply map_eq. intros k'. simpl. rewrite lookup_omap. destruct (decide (k' = k)) as [->|Hne].
      + rewrite lookup_alter, lookup_omap, Hx. simpl. by rewrite lookup_alter.
      + rewrite lookup_alter_ne, lookup_omap by done. destruct (h_items s !! k') as [y|] eqn:Ey; [|done]. simpl.
        rewrite lookup_alter_ne; [done|]. intros <-. by destruct (Hne (Hi _ _ _ Ey Hx)).
  Qed.

  (** The steps of one call that nothing interrupts. *)
  Fixpoint psteps s (c : call D) (p : pc D) (ins : list input) : option (shared D * result D) :=
    match ins with
    | [] => match p with Exit r => Some (s, r) | _ => None end
    | i :: ins' => match tstep dnil s c p i with Some (s', p') => psteps s' c p' ins' | None => None end
    end.
  Lemma exec_psteps t c ins g p g' tr :
    g_threads g t = Some (c, p) -> exec dnil g (map (AStep t) ins ++ [ARet t]) = Some (g', tr) ->
    exists r, psteps (g_shared g) c p ins = Some (g_shared g', r) /\ all_received tr = [r].
  Proof.
    revert g p g' tr. induction ins as [|i ins IH]; intros g p g' tr Ht He; simpl in He; rewrite Ht in He.
    - destruct p; simplify_eq. simpl. eauto.
    - simpl. destruct (tstep dnil (g_shared g) c p i) as [[s1 p1]|] eqn:E; [|done].
      destruct (exec dnil _ (map (AStep t) ins ++ [ARet t])) as [[g2 tr2]|] eqn:E2; [|done]. simplify_eq.
      eapply IH in E2; [|simpl; apply upd_same]. simpl in E2. simpl. done.
  Qed.
  Lemma psteps_exit s c r ins s' r' : psteps s c (Exit r) ins = Some (s', r') -> s' = s /\ r' = r.
  Proof. destruct ins as [|i ins]; simpl; [by intros; simplify_eq|]. by destruct c. Qed.

  Definition elapsed (ctime dur now : Z) : bool := negb (bool_decide (dur = 0)) && before_now ctime dur now.
  Definition fin s k (e : entry D) (b : bool) (ins : list input) s' (r : result D) : Prop :=
    wfs s' /\
    if b then seen s' = del (seen s) k /\ r = RGet dnil true
    else exists (t3 : Z), t3 ∈ map in_t1 ins /\ r = RGet (e_data e) false /\
      seen s' = Cache (h_max s) (h_expire s) (<[k := Entry (e_ctime e) t3 (e_ttl e) (e_data e)]> (c_items (seen s))) (remove_first k (h_pile s) ++ [k]).
  Lemma fin_mono s k e b i ins s' r : fin s k e b ins s' r -> fin s k e b (i :: ins) s' r.
  Proof.
    intros [Hw H]. split; [done|]. destruct b; [done|]. destruct H as (t3 & H1 & H2). exists t3. split; [|done]. simpl. by right.
  Qed.

  Section Get.
    Context s k x (e : entry D) (Hw : wfs s) (Hx : h_items s !! k = Some x) (He : h_heap s !! x = Some e).
    Lemma get_del (v : validator) ins s' r : psteps s (CGet k v) GDel ins = Some (s', r) -> fin s k e true ins s' r.
    Proof.
      destruct ins as [|i ins]; simpl; [done|]. intros H. apply psteps_exit in H as [-> ->]. destruct (cdel_seen s k Hw). by split.
    Qed.
    Lemma get_rtime (v : validator) ins s' r : psteps s (CGet k v) (GRtime x) ins = Some (s', r) -> fin s k e false ins s' r.
    Proof.
      destruct ins as [|i ins]; simpl; [done|]. destruct ins as [|j ins]; simpl; [done|]. rewrite lookup_alter, He. simpl.
      intros H. apply psteps_exit in H as [-> ->].
      destruct (alter_seen s k x (fun e => Entry (e_ctime e) (in_t1 i) (e_ttl e) (e_data e)) Hw Hx) as [[Ha' Hi'] Hs']. split.
      - split; [exact Ha'|exact Hi'].
      - exists (in_t1 i). split; [left|]. split; [done|]. unfold seen at 1. simpl. f_equal. etrans; [exact Hs'|].
        apply map_eq. intros k'. destruct (decide (k' = k)) as [->|].
        + rewrite lookup_alter, lookup_insert, seen_lookup, Hx. simpl. by rewrite He.
        + by rewrite lookup_alter_ne, lookup_insert_ne by done.
    Qed.
    Lemma get_exp (v : validator) ins s' r : psteps s (CGet k v) (GExp x) ins = Some (s', r) ->
      exists (t2 : Z), t2 ∈ map in_t1 ins /\ fin s k e (elapsed (e_ctime e) (h_expire s) t2) ins s' r.
    Proof.
      destruct ins as [|i ins]; cbn [psteps tstep]; [done|]. rewrite He. intros H. unfold elapsed. case_decide as Hd.
      - exists (in_t1 i). split; [left|]. apply fin_mono. rewrite bool_decide_eq_true_2 by done. simpl. by eapply get_rtime.
      - destruct ins as [|j ins]; cbn [psteps tstep] in H; [done|]. rewrite He in H. exists (in_t1 j). split; [right; left|].
        apply fin_mono, fin_mono. rewrite bool_decide_eq_false_2 by done. simpl. destruct (before_now _ _ _); [by eapply get_del|by eapply get_rtime].
    Qed.
    Lemma get_val (v : validator) ins s' r : Forall (fun i => in_says i = None) ins -> psteps s (CGet k v) (GVal x) ins = Some (s', r) ->
      exists (t2 : Z), t2 ∈ map in_t1 ins /\
        fin s k e (match v with Some f => negb (f k (e_ctime e)) | None => false end || elapsed (e_ctime e) (h_expire s) t2) ins s' r.
    Proof.
      destruct ins as [|i ins]; cbn [psteps tstep]; [done|]. rewrite He. intros Hq H. inversion Hq as [|? ? Hi0 _]; subst.
      assert (Hexp : psteps s (CGet k v) (GExp x) ins = Some (s', r) -> exists (t2 : Z), t2 ∈ map in_t1 (i :: ins) /\ fin s k e (elapsed (e_ctime e) (h_expire s) t2) (i :: ins) s' r).
      { intros H'. apply get_exp in H' as (t2 & H1 & H2). exists t2. split; [by right|by apply fin_mono]. }
      destruct v as [f|]; [|by apply Hexp]. unfold ruling in H. rewrite Hi0 in H. destruct (f k (e_ctime e)); simpl; [by apply Hexp|].
      exists (in_t1 i). split; [left|]. apply fin_mono. by eapply get_del.
    Qed.
    Lemma get_ttl (v : validator) ins s' r : Forall (fun i => in_says i = None) ins -> psteps s (CGet k v) (GTtl x) ins = Some (s', r) ->
      exists (t1 t2 : Z), t1 ∈ map in_t1 ins /\ t2 ∈ map in_t1 ins /\ fin s k e (rejected (h_expire s) v k e t1 t2) ins s' r.
    Proof.
      destruct ins as [|i ins]; cbn [psteps tstep]; [done|]. rewrite He. intros Hq H. inversion Hq as [|? ? _ Hq']; subst.
      change (rejected (h_expire s) v k e) with (fun (t1 t2 : Z) => elapsed (e_ctime e) (e_ttl e) t1
        || match v with Some f => negb (f k (e_ctime e)) | None => false end || elapsed (e_ctime e) (h_expire s) t2). cbn beta.
      case_decide as Hd.
      - apply get_val in H as (t2 & H1 & H2); [|done]. exists (in_t1 i), t2. split; [left|]. split; [by right|]. apply fin_mono.
        unfold elapsed at 1. rewrite bool_decide_eq_true_2 by done. done.
      - destruct ins as [|j ins]; cbn [psteps tstep] in H; [done|]. rewrite He in H.
        destruct (before_now (e_ctime e) (e_ttl e) (in_t1 j)) eqn:Eb.
        + exists (in_t1 j), (in_t1 i). split; [right; left|]. split; [left|]. apply fin_mono, fin_mono.
          unfold elapsed at 1. rewrite bool_decide_eq_false_2, Eb by done. simpl. by eapply get_del.
        + inversion Hq' as [|? ? _ Hq'']; subst. apply get_val in H as (t2 & H1 & H2); [|done]. exists (in_t1 j), t2. split; [right; left|]. split; [right; by right|].
          apply fin_mono, fin_mono. unfold elapsed at 1. rewrite Eb, andb_false_r. done.
    Qed.
  End Get.

  (** The loop of Verify: the entries of the map not visited yet, each once. *)
  Definition unvisited s (visited : gmap bytes positive) (k : bytes) : Prop :=
    exists x, h_items s !! k = Some x /\ visited !! k <> Some x.
  Lemma verify_loop_apart f m start ins visited n s s' r :
    Forall (fun i => in_says i = None) ins -> wfs s -> h_items s ⊆ start -> m = length (h_gone s) -> psteps s (CVerify (Some f)) (VLoop m start visited n) ins = Some (s', r) ->
    wfs s' /\ exists order n', NoDup order /\ (forall k, k ∈ order <-> unvisited s visited k) /\
      verify_loop f order (seen s) n = (seen s', n') /\ r = RInt n'.
  Proof.
    remember (length ins) as len eqn:Hlen. revert ins Hlen visited n s. induction len as [len IH] using lt_wf_ind.
    intros ins -> visited n s Hq Hw Hst Hm H. destruct ins as [|i ins]; cbn [psteps tstep] in H; [done|].
    assert (Hmap : map_no s m = h_items s) by (unfold map_no; by rewrite decide_True). rewrite Hmap in H.
    destruct (in_key i) as [k|].
    - destruct (h_items s !! k) as [x|] eqn:Ex; [|done]. case_decide as Hv; [done|].
      destruct ins as [|i2 ins]; cbn [psteps tstep] in H; [done|]. inversion Hq as [|? ? _ Hq1]; subst. inversion Hq1 as [|? ? Hi2 Hq2]; subst.
      destruct (h_heap s !! x) as [e|] eqn:Ee; [|done].
      assert (Hseen : c_items (seen s) !! k = Some e) by (rewrite seen_lookup, Ex; done).
      unfold ruling in H. rewrite Hi2 in H. destruct (f k (e_ctime e)) eqn:Ef.
      + destruct (IH (length ins) ltac:(simpl; lia) ins eq_refl _ _ _ Hq2 Hw Hst eq_refl H) as (Hw' & order & n' & Hnd & Ho & Hl & ->).
        split; [done|]. exists (k :: order), n'. split_and!; [| | |done].
        * constructor; [|done]. intros Hk. apply Ho in Hk as (y & Hy & Hne). rewrite lookup_insert in Hne. congruence.
        * intros k'. rewrite elem_of_cons, Ho. unfold unvisited. destruct (decide (k' = k)) as [->|Hne].
          -- split; [intros _; by exists x|by left].
          -- split; [intros [?|(y & Hy & Hn)]; [done|]|intros (y & Hy & Hn); right]; exists y; (split; [done|]);
               [by rewrite lookup_insert_ne in Hn by done|by rewrite lookup_insert_ne by done].
        * cbn [verify_loop]. by rewrite Hseen, Ef.
      + destruct ins as [|i3 ins]; cbn [psteps tstep] in H; [done|]. inversion Hq2 as [|? ? _ Hq3]; subst. destruct (cdel_seen s k Hw) as [Hds Hdw].
        assert (Hst' : h_items (cdel s k) ⊆ start) by (simpl; etrans; [apply delete_subseteq|done]).
        destruct (IH (length ins) ltac:(simpl; lia) ins eq_refl _ _ _ Hq3 Hdw Hst' eq_refl H) as (Hw' & order & n' & Hnd & Ho & Hl & ->).
        split; [done|]. exists (k :: order), n'. split_and!; [| | |done].
        * constructor; [|done]. intros Hk. apply Ho in Hk as (y & Hy & _). simpl in Hy. by rewrite lookup_delete in Hy.
        * intros k'. rewrite elem_of_cons, Ho. unfold unvisited. simpl. destruct (decide (k' = k)) as [->|Hne].
          -- split; [intros _; by exists x|by left].
          -- rewrite lookup_delete_ne by done.
             split; [intros [?|(y & Hy & Hn)]; [done|]|intros (y & Hy & Hn); right]; exists y; (split; [done|]);
               [by rewrite lookup_insert_ne in Hn by done|by rewrite lookup_insert_ne by done].
        * cbn [verify_loop]. rewrite Hseen, Ef, <- Hds. done.
    - case_decide as Hall; [|done]. apply psteps_exit in H as [-> ->]. split; [done|]. exists [], n. split_and!; try done; [constructor|].
      intros k. rewrite elem_of_nil. split; [done|]. intros (x & Hx & Hn). apply Hn, (Hall k x); [by eapply lookup_weaken|done].
  Qed.
  (** A list of the keys of one map as an iteration order. *)
  Lemma order_with (m : gmap bytes (entry D)) (order : list bytes) : NoDup order -> (forall k, k ∈ order <-> is_Some (m !! k)) ->
    exists ord, iter_order ord /\ ord m = order.
  Proof.
    intros Hnd Ho. exists (fun m' => if decide (dom m' = (list_to_set order : gset bytes)) then order else (map_to_list m').*1).
    assert (Hdom : dom m = (list_to_set order : gset bytes)).
    { apply set_eq. intros k. by rewrite elem_of_dom, elem_of_list_to_set, Ho. }
    split; [|by rewrite decide_True]. intros m'. case_decide as Hd; [|done].
    apply NoDup_Permutation; [done|apply NoDup_fst_map_to_list|]. intros k. rewrite <- (elem_of_list_to_set (C:=gset bytes)), <- Hd, elem_of_dom.
    rewrite elem_of_list_fmap. split.
    - intros [e He]. exists (k, e). split; [done|]. by apply elem_of_map_to_list.
    - intros ([k' e] & -> & He). apply elem_of_map_to_list in He. by exists e.
  Qed.

  Lemma call_apart t c ins s s' r :
    wfs s -> Forall (fun i => in_mid i = None /\ in_says i = None) ins -> psteps s c Start ins = Some (s', r) ->
    wfs s' /\ exists o, same_call (t, c, ins) o /\ step dnil (seen s) o = (seen s', r).
  Proof.
    intros Hw Hmid H. destruct ins as [|i ins]; [done|]. inversion Hmid as [|? ? [Hi0 _] Hmid']; subst.
    assert (Hq : Forall (fun i => in_says i = None) ins) by (eapply Forall_impl; [exact Hmid'|]; by intros ? [_ ?]).
    assert (Hrd := reads_steady s i Hi0). destruct c as [k d|k dur|k v|k| |perc|v|]; cbn [psteps tstep] in H.
    - destruct (h_heap s !! in_loc i) eqn:El; [done|]. destruct (cset_seen s k d i Hw Hi0 El) as [Hs Hw'].
      destruct (cset s k d i) as [s1 r1]. simpl in *. apply psteps_exit in H as [-> ->]. split; [done|].
      exists (OSet k d (in_t1 i) (in_t2 i) (in_now i)). split; [|done]. split_and!; try done. exists i. split_and!; try done. left.
    - destruct (h_items s !! k) as [x|] eqn:Ex; apply psteps_exit in H as [-> ->].
      + destruct (alter_seen s k x (fun e => Entry (e_ctime e) (e_rtime e) dur (e_data e)) Hw Ex) as [Hw' Hs']. split; [done|].
        exists (OSetTTL k dur). split; [done|]. simpl. f_equal. unfold set_ttl. rewrite seen_lookup, Ex. simpl.
        destruct Hw as [Ha _]. destruct (Ha _ _ Ex) as [e He]. rewrite He. unfold seen. simpl. f_equal. simpl in Hs'. rewrite Hs'.
        apply map_eq. intros k'. destruct (decide (k' = k)) as [->|].
        * rewrite lookup_alter, lookup_insert, lookup_omap, Ex. simpl. by rewrite He.
        * by rewrite lookup_alter_ne, lookup_insert_ne by done.
      + split; [done|]. exists (OSetTTL k dur). split; [done|]. simpl. unfold set_ttl. by rewrite seen_lookup, Ex.
    - destruct (h_items s !! k) as [x|] eqn:Ex.
      + destruct Hw as [Ha Hi]. destruct (Ha _ _ Ex) as [e He].
        pose proof (get_ttl s k x e (conj Ha Hi) Ex He v _ _ _ Hq H) as (t1 & t2 & H1 & H2 & Hw' & Hf). split; [done|].
        destruct (rejected (h_expire s) v k e t1 t2) eqn:Er.
        * destruct Hf as [Hs ->]. exists (OGet k v t1 t2 t1). split; [split_and!; [done..|by right|by right|by right]|].
          simpl. unfold get. rewrite seen_lookup, Ex. simpl. rewrite He, Er. by rewrite Hs.
        * destruct Hf as (t3 & H3 & -> & Hs). exists (OGet k v t1 t2 t3). split; [split_and!; [done..|by right|by right|by right]|].
          simpl. unfold get. rewrite seen_lookup, Ex. simpl. rewrite He, Er. by rewrite Hs.
      + apply psteps_exit in H as [-> ->]. split; [done|]. exists (OGet k v (in_t1 i) (in_t1 i) (in_t1 i)).
        split; [split_and!; [done..|left|left|left]|]. simpl. unfold get. by rewrite seen_lookup, Ex.
    - apply psteps_exit in H as [-> ->]. destruct (cdel_seen s k Hw) as [Hs Hw']. split; [done|]. exists (ODel k). split; [done|]. simpl. by rewrite Hs.
    - apply psteps_exit in H as [-> ->]. split; [done|]. exists OCount. split; [done|]. simpl. by rewrite omap_size by apply Hw.
    - rewrite Hrd in H. destruct (cclean_seen s perc (in_now i) Hw) as [Hs Hw']. destruct (cclean s perc (in_now i) (steady s)) as [s1 r1]. simpl in *.
      apply psteps_exit in H as [-> ->]. split; [done|]. exists (OClean perc (in_now i)). split; [|done]. split; [done|]. exists i. split; [left|done].
    - rewrite Hrd in H. destruct (cclean_seen s 0 (in_now i) Hw) as [Hs Hw']. destruct (cclean s 0 (in_now i) (steady s)) as [s1 r1] eqn:Ec. simpl in Hs, Hw'.
      assert (Hnone : psteps s1 (CVerify v) (Exit r1) ins = Some (s', r) -> (forall n, r1 = RInt n -> v = None) ->
        wfs s' /\ exists o, same_call (t, CVerify v, i :: ins) o /\ step dnil (seen s) o = (seen s', r)).
      { intros H' Hv. apply psteps_exit in H' as [-> ->]. split; [done|]. exists (OVerify v (in_now i) (fun m => (map_to_list m).*1)).
        split; [split_and!; [done|by intros m|exists i; split; [left|done]]|]. simpl. unfold verify. rewrite Hs.
        destruct r1; try done. by rewrite (Hv _ eq_refl). }
      destruct v as [f|]; [|apply Hnone; [by destruct r1|done]].
      destruct r1 as [|n|d b|]; try (by apply Hnone).
      destruct ins as [|i2 ins]; cbn [psteps tstep] in H; [done|]. inversion Hq as [|? ? _ Hq2]; subst.
      apply verify_loop_apart in H as (Hw2 & order & n' & Hnd & Ho & Hl & ->); [|done..]. split; [done|].
      destruct (order_with (c_items (seen s1)) order Hnd) as (ord & Hord & Heq).
      { intros k. rewrite Ho, seen_lookup. unfold unvisited. split.
        - intros (x & Hx & _). rewrite Hx. simpl. destruct Hw' as [Ha _]. by eapply Ha.
        - intros [e He]. destruct (h_items s1 !! k) as [x|]; [|done]. exists x. split; [done|]. by rewrite lookup_empty. }
      exists (OVerify (Some f) (in_now i) ord). split; [split_and!; [done..|exists i; split; [left|done]]|].
      simpl. unfold verify. rewrite Hs, Heq, Hl. done.
    - apply psteps_exit in H as [-> ->]. split.
      + split; [intros k x|intros k1 k2 x]; simpl; by rewrite lookup_empty.
      + exists OFlush. split; [done|]. simpl. unfold flush, seen. simpl. by rewrite omap_empty.
  Qed.

  Lemma calls_apart_from l g g' tr :
    wfs (g_shared g) -> untouched l -> exec dnil g (apart l) = Some (g', tr) ->
    exists ops, Forall2 same_call l ops /\
      run dnil (seen (g_shared g)) ops = (seen (g_shared g'), zip ops (all_received tr)) /\ length ops = length (all_received tr).
  Proof.
    revert g g' tr. induction l as [|[[t c] ins] l IH]; intros g g' tr Hw Hu He.
    - simpl in He. simplify_eq. exists []. split; [constructor|]. done.
    - inversion Hu as [|? ? Hu1 Hu2]; subst. simpl in Hu1. unfold apart in He. cbn [flat_map fst snd] in He. fold (apart l) in He.
      rewrite exec_app in He. destruct (exec dnil g (AInv t c :: _)) as [[g1 tr1]|] eqn:E1; [|done].
      destruct (exec dnil g1 (apart l)) as [[g2 tr2]|] eqn:E2; [|done]. simplify_eq.
      cbn [exec cstep] in E1. destruct (g_threads g t) eqn:Et; [done|].
      destruct (exec dnil _ (map (AStep t) ins ++ [ARet t])) as [[g3 tr3]|] eqn:E3; [|done]. simplify_eq.
      apply (exec_psteps t c ins _ Start) in E3 as (r & Hp & Hr); [|simpl; apply upd_same]. simpl in Hp.
      destruct (call_apart t c ins _ _ _ Hw Hu1 Hp) as (Hw' & o & Ho & Hstep).
      destruct (IH _ _ _ Hw' Hu2 E2) as (ops & Hops & Hrun & Hlen).
      assert (Har : forall z, all_received ((LInv t c, z) :: tr3 ++ tr2) = r :: all_received tr2).
      { intros z. unfold all_received in *. simpl. by rewrite flat_map_app, Hr. }
      exists (o :: ops). split; [by constructor|]. cbn [app]. rewrite Har. simpl. rewrite Hstep, Hrun. split; [done|]. by rewrite Hlen.
  Qed.
  Lemma calls_apart mx ex l g tr :
    untouched l -> exec dnil (cinit mx ex) (apart l) = Some (g, tr) ->
    exists ops, Forall2 same_call l ops /\ map snd (run dnil (new_cache mx ex) ops).2 = all_received tr /\
      (forall k d, current (g_shared g) k d <-> e_data <$> c_items (run dnil (new_cache mx ex) ops).1 !! k = Some d) /\
      c_pile (run dnil (new_cache mx ex) ops).1 = h_pile (g_shared g).
  Proof.
    intros Hu He. assert (Hw0 : wfs (g_shared (cinit (D:=D) mx ex))) by (split; [intros k x|intros k1 k2 x]; simpl; by rewrite lookup_empty).
    destruct (calls_apart_from l _ _ _ Hw0 Hu He)
      as (ops & Hops & Hrun & Hlen). exists ops.
    assert (Hinit : seen (g_shared (cinit mx ex)) = new_cache (D:=D) mx ex) by (unfold seen; simpl; by rewrite omap_empty).
    rewrite Hinit in Hrun. rewrite Hrun. split; [done|]. cbn [fst snd]. split_and!.
    - change (map snd (zip ops (all_received tr))) with ((zip ops (all_received tr)).*2). apply snd_zip. lia.
    - intros k d. rewrite seen_lookup. unfold current. rewrite fmap_Some. setoid_rewrite bind_Some. naive_solver.
    - done.
  Qed.
End Apart.
