(** * Refinement to the expiring map, eviction order, capacity. *)
From Verif Require Import GoBase CacheModel CacheSpec CacheProofs.
From Coq Require Import Lia ZifyBool ZifyNat.
Local Open Scope Z_scope.
Ltac Zify.zify_post_hook ::= Z.to_euclidean_division_equations.

Section CacheProofs2.
  Context {D : Type} (dnil : D).
  Implicit Types (k a b : bytes) (d : D) (c : cache D) (pile : list bytes) (items : gmap bytes (entry D)).
  Notation event := (op D * result D)%type.

  Lemma size_delete items k x : items !! k = Some x -> S (size (delete k items)) = size items.
  Proof.
    intros Hx. rewrite map_size_delete_Some by eauto.
    assert (size items <> 0%nat); [|lia].
    intros Hz%map_size_empty_inv. rewrite Hz, lookup_empty in Hx. done.
  Qed.

  (** ** Verify *)
  Lemma verify_loop_spec f order c i c' i' :
    NoDup order -> (forall k, k ∈ order -> is_Some (c_items c !! k)) ->
    verify_loop f order c i = (c', i') ->
    c_max c' = c_max c /\ c_expire c' = c_expire c /\
    (forall k, c_items c' !! k =
      if decide (k ∈ order) then
        match c_items c !! k with Some x => if f k (e_ctime x) then Some x else None | None => None end
      else c_items c !! k) /\
    i' = i + (Z.of_nat (size (c_items c)) - Z.of_nat (size (c_items c'))).
  Proof.
    revert c i. induction order as [|k0 order IH]; intros c i Hnd Hin Hv; simpl in Hv.
    - simplify_eq. split_and!; try done; lia.
    - apply NoDup_cons in Hnd as [Hk0 Hnd].
      assert (is_Some (c_items c !! k0)) as [x Hx] by (apply Hin; by left).
      rewrite Hx in Hv. destruct (f k0 (e_ctime x)) eqn:Hf.
      + apply IH in Hv as (H1 & H2 & H3 & H4); [|done|intros k Hk; apply Hin; by right].
        split_and!; try done. intros k. rewrite H3.
        destruct (decide (k = k0)) as [->|Hne].
        * rewrite decide_False by done. rewrite decide_True by (by left). by rewrite Hx, Hf.
        * destruct (decide (k ∈ order)) as [Hk|Hk].
          -- rewrite decide_True; [done|by right].
          -- rewrite decide_False; [done|]. rewrite elem_of_cons. naive_solver.
      + apply IH in Hv as (H1 & H2 & H3 & H4); [|done|].
        * simpl in *. split_and!; try done.
          -- intros k. rewrite H3. destruct (decide (k = k0)) as [->|Hne].
             ++ rewrite decide_False by done. rewrite lookup_delete, decide_True by (by left). by rewrite Hx, Hf.
             ++ rewrite lookup_delete_ne by done. destruct (decide (k ∈ order)) as [Hk|Hk].
                ** rewrite decide_True; [done|by right].
                ** rewrite decide_False; [done|]. rewrite elem_of_cons. naive_solver.
          -- pose proof (size_delete _ _ _ Hx). lia.
        * intros k Hk. simpl. rewrite lookup_delete_ne by naive_solver. apply Hin. by right.
  Qed.

  Lemma verify_order_spec f order c i c' i' :
    iter_order order ->
    verify_loop f (order (c_items c)) c i = (c', i') ->
    c_max c' = c_max c /\ c_expire c' = c_expire c /\
    (forall k, c_items c' !! k =
        match c_items c !! k with Some x => if f k (e_ctime x) then Some x else None | None => None end) /\
    i' = i + (Z.of_nat (size (c_items c)) - Z.of_nat (size (c_items c'))).
  Proof.
    intros Ho Hv. pose proof (Ho (c_items c)) as Hp.
    assert (Hin : forall k, k ∈ order (c_items c) <-> is_Some (c_items c !! k)).
    { intros k. rewrite Hp. apply elem_of_keys. }
    apply verify_loop_spec in Hv as (H1 & H2 & H3 & H4).
    - split_and!; try done. intros k. rewrite H3. destruct (decide _) as [Hk|Hk]; [done|].
      destruct (c_items c !! k) as [x|] eqn:E; [|done]. exfalso. apply Hk, Hin. rewrite E. eauto.
    - rewrite Hp. apply keys_NoDup.
    - intros k. by rewrite Hin.
  Qed.

  (** ** Refinement to the expiring map *)
  Definition abs_entry (x : entry D) : sentry := SEntry (e_ctime x) (e_ttl x) (e_data x).
  Definition refines c (m : smap (D:=D)) : Prop :=
    c_max c <= 0 /\ sm_expire m = c_expire c /\ sm_map m = abs_entry <$> c_items c.

  Lemma mclean_noevict c p now :
    p <= 0 -> mclean c p now =
      (Cache (c_max c) (c_expire c) (purge (c_expire c) now (c_items c)) (c_pile c), RInt 0).
  Proof.
    intros Hp. unfold mclean.
    pose proof (quota_neg (Z.of_nat (size (purge (c_expire c) now (c_items c)))) p ltac:(lia) Hp) as Hq.
    replace (Z.to_nat (quota (Z.of_nat (size (purge (c_expire c) now (c_items c)))) p)) with 0%nat by lia.
    simpl. f_equal. f_equal. lia.
  Qed.

  Lemma alive_abs e t x : s_alive_at e (abs_entry x) t = true <-> e = 0 \/ before_now (e_ctime x) e t = false.
  Proof. unfold s_alive_at, before_now. simpl. rewrite bool_decide_eq_true. lia. Qed.

  Lemma purge_abs e now items :
    filter (fun kx => s_alive_at e kx.2 (now kx.1)) (abs_entry <$> items) = abs_entry <$> purge e now items.
  Proof.
    apply map_eq. intros k. apply option_eq. intros y.
    rewrite map_filter_lookup_Some, !lookup_fmap_Some. simpl. split.
    - intros [(x & <- & Hx) Ha]. exists x. split; [done|]. apply purge_lookup. split; [done|].
      by apply alive_abs, Is_true_true.
    - intros (x & <- & [Hx Ha]%purge_lookup). split; [eauto|]. by apply Is_true_true, alive_abs.
  Qed.

  Lemma refines_step c m o c' r :
    refines c m -> no_evict_op o -> step dnil c o = (c', r) ->
    exists m', spec_step dnil m o = (m', r) /\ refines c' m'.
  Proof.
    intros (Hmax & Hexp & Hmap) Ho Hs. destruct m as [me mm]. simpl in *. subst me mm.
    destruct o; simpl in *.
    - unfold set in Hs. rewrite bool_decide_eq_false_2 in Hs by lia. simplify_eq.
      eexists. split; [done|]. split_and!; simpl; [done|done|]. by rewrite fmap_insert.
    - simplify_eq. eexists. split; [done|]. unfold set_ttl.
      destruct (c_items c !! k) as [x|] eqn:E; split_and!; simpl; try done.
      + apply map_eq. intros k'. destruct (decide (k' = k)) as [->|Hne].
        * rewrite lookup_alter, !lookup_fmap, E, lookup_insert. done.
        * rewrite lookup_alter_ne, !lookup_fmap, lookup_insert_ne by done. done.
      + apply map_eq. intros k'. destruct (decide (k' = k)) as [->|Hne].
        * rewrite lookup_alter, !lookup_fmap, E. done.
        * rewrite lookup_alter_ne by done. done.
    - rewrite lookup_fmap. unfold get in Hs. destruct (c_items c !! k) as [x|] eqn:E; simpl.
      2: { simplify_eq. by eexists. }
      assert (Hrej : rejected (c_expire c) v k x t1 t2 =
        negb (s_ttl_alive (abs_entry x) t1 && s_valid v k (abs_entry x) && s_alive_at (c_expire c) (abs_entry x) t2)).
      { unfold rejected, s_ttl_alive, s_alive_at, s_valid, before_now. simpl.
        destruct v as [f|]; [destruct (f k (e_ctime x))|]; simpl;
          repeat case_bool_decide; simpl; rewrite ?andb_true_r, ?andb_false_r, ?orb_true_r, ?orb_false_r; simpl; lia. }
      rewrite Hrej in Hs. destruct (s_ttl_alive _ _ && _ && _); simpl in Hs; simplify_eq.
      + eexists. split; [done|]. split_and!; simpl; try done. rewrite fmap_insert. symmetry. apply insert_id.
        by rewrite lookup_fmap, E.
      + eexists. split; [done|]. split_and!; simpl; try done. by rewrite fmap_delete.
    - simplify_eq. eexists. split; [done|]. split_and!; simpl; try done. by rewrite fmap_delete.
    - simplify_eq. rewrite map_size_fmap. by eexists.
    - rewrite mclean_noevict in Hs by (simpl in *; lia). simplify_eq. eexists. split; [done|].
      split_and!; simpl; try done. apply purge_abs.
    - unfold verify in Hs. rewrite mclean_noevict in Hs by lia. simpl in Hs.
      rewrite purge_abs. set (i1 := purge (c_expire c) now (c_items c)) in *.
      destruct v as [f|].
      + destruct (verify_loop _ _ _ _) as [c2 i2] eqn:E. simplify_eq.
        apply (verify_order_spec f order (Cache (c_max c) (c_expire c) i1 (c_pile c))) in E
          as (H1 & H2 & H3 & H4); [|done]. simpl in *.
        assert (Hf : filter (fun kx => s_valid (Some f) kx.1 kx.2) (abs_entry <$> i1) = abs_entry <$> c_items c').
        { apply map_eq. intros k. apply option_eq. intros y.
          rewrite map_filter_lookup_Some, !lookup_fmap_Some. simpl. split.
          - intros [(x & <- & Hx) Ha]. exists x. split; [done|]. rewrite H3, Hx.
            simpl in Ha. by destruct (f k (e_ctime x)).
          - intros (x & <- & Hx). rewrite H3 in Hx. destruct (i1 !! k) as [z|] eqn:Ez; [|done].
            destruct (f k (e_ctime z)) eqn:Ef; [|done]. simplify_eq. split; [eauto|]. simpl. by rewrite Ef. }
        simpl in Hf. rewrite Hf, !map_size_fmap. eexists. split; [rewrite H4; f_equal; f_equal; lia|].
        split_and!; simpl; [lia|done|done].
      + simplify_eq.
        assert (Hf : filter (fun kx : bytes * sentry => s_valid None kx.1 kx.2) (abs_entry <$> i1) = abs_entry <$> i1).
        { apply map_filter_id. done. }
        rewrite Hf. eexists. split; [f_equal; f_equal; lia|]. split_and!; simpl; done.
    - simplify_eq. eexists. split; [done|]. split_and!; simpl; try done. by rewrite fmap_empty.
    - simplify_eq. by eexists.
    - simplify_eq. by eexists.
  Qed.

  Lemma refines_run c m ops :
    refines c m -> Forall no_evict_op ops -> (run dnil c ops).2.*2 = spec_run dnil m ops.
  Proof.
    revert c m. induction ops as [|o ops IH]; intros c m HR Hf; simpl; [done|].
    apply Forall_cons in Hf as [Ho Hf].
    destruct (step dnil c o) as [c1 r] eqn:E.
    destruct (refines_step _ _ _ _ _ HR Ho E) as (m1 & -> & HR1).
    specialize (IH c1 m1 HR1 Hf). destruct (run dnil c1 ops) as [c2 tr]. simpl in *. by f_equal.
  Qed.

  Lemma refines_new mx ex : mx <= 0 -> refines (new_cache mx ex) (SMap ex ∅).
  Proof. intros. split_and!; simpl; try done. by rewrite fmap_empty. Qed.

  (** ** Eviction order *)
  Definition ordered pile (tr : list event) : Prop :=
    forall a b, [a; b] `sublist_of` pile -> used_after b a tr.
  Definition exact items pile : Prop :=
    NoDup pile /\ forall k, k ∈ pile <-> is_Some (items !! k).

  Lemma exact_covered items pile : exact items pile -> covered items pile.
  Proof. intros [_ H] k. by rewrite H. Qed.
  Lemma exact_size items pile : exact items pile -> size items = length pile.
  Proof.
    intros [Hn H]. rewrite <- keys_length. apply Permutation_length, NoDup_Permutation; [apply keys_NoDup|done|].
    intros k. by rewrite elem_of_keys, H.
  Qed.

  Lemma used_after_snoc b a (tr : list event) e : used_after b a tr -> ~ uses a e -> used_after b a (tr ++ [e]).
  Proof.
    intros (tr1 & e1 & tr2 & -> & H1 & H2 & H3) He. exists tr1, e1, (tr2 ++ [e]).
    split_and!; try done.
    - by rewrite <- app_assoc.
    - apply Forall_app. split; [done|]. by apply Forall_singleton.
  Qed.
  Lemma used_after_now b a (tr : list event) e : uses b e -> ~ uses a e -> used_after b a (tr ++ [e]).
  Proof. intros H1 H2. exists tr, e, []. split_and!; try done. Qed.

  Lemma ordered_sub pile pile' tr e :
    ordered pile tr -> pile' `sublist_of` pile -> (forall k, k ∈ pile' -> ~ uses k e) -> ordered pile' (tr ++ [e]).
  Proof.
    intros Ho Hs Hu a b Hab. apply used_after_snoc.
    - apply Ho. by etrans.
    - apply Hu. eapply elem_of_submseteq; [|by apply sublist_submseteq]. by left.
  Qed.
  Lemma ordered_touch k pile tr e :
    NoDup pile -> ordered pile tr -> uses k e -> (forall k', uses k' e -> k' = k) ->
    ordered (remove_first k pile ++ [k]) (tr ++ [e]).
  Proof.
    intros Hnd Ho Hk Honly a b Hab.
    apply remove_first_NoDup with (k := k) in Hnd as [_ Hni].
    assert (Hsub : remove_first k pile `sublist_of` pile).
    { clear. induction pile as [|x pile IH]; simpl; [done|].
      destruct (decide (x = k)); [by apply sublist_cons|by apply sublist_skip]. }
    apply sublist_app_r in Hab as (l1 & l2 & Heq & H1 & H2).
    destruct l1 as [|x1 [|x2 l1]]; simpl in Heq.
    - subst l2. apply sublist_length in H2. simpl in H2. lia.
    - simplify_eq. apply sublist_cons_l in H2 as (k1 & k2 & Hk2 & H2).
      destruct k1 as [|y k1]; simplify_eq/=; [|by destruct k1].
      apply used_after_now; [done|]. intros Hu%Honly. subst x1. apply Hni.
      eapply elem_of_submseteq; [|by apply sublist_submseteq]. by left.
    - simplify_eq. destruct l1; [|done]. simpl in *. simplify_eq.
      apply used_after_snoc; [apply Ho; by etrans|].
      intros Hu%Honly. subst x1. apply Hni.
      eapply elem_of_submseteq; [|by apply sublist_submseteq]. by left.
  Qed.

  Lemma remove_first_sublist k pile : remove_first k pile `sublist_of` pile.
  Proof.
    induction pile as [|x pile IH]; simpl; [done|].
    destruct (decide (x = k)); [by apply sublist_cons|by apply sublist_skip].
  Qed.

  Lemma exact_touch items pile k x :
    exact items pile -> exact (<[k := x]> items) (remove_first k pile ++ [k]).
  Proof.
    intros [Hnd Hk]. destruct (remove_first_NoDup k pile Hnd) as [Hnd' Hni]. split.
    - apply NoDup_app. split_and!; [done| |apply NoDup_singleton].
      intros y Hy Hy2. apply elem_of_list_singleton in Hy2 as ->. done.
    - intros y. rewrite elem_of_app, elem_of_list_singleton. destruct (decide (y = k)) as [->|Hne].
      + rewrite lookup_insert. naive_solver.
      + rewrite lookup_insert_ne by done. rewrite <- Hk. split.
        * intros [H|H]; [|done]. by apply remove_first_sub in H.
        * intros H. left. by apply remove_first_other.
  Qed.
  Lemma exact_del items pile k : exact items pile -> exact (delete k items) (remove_first k pile).
  Proof.
    intros [Hnd Hk]. destruct (remove_first_NoDup k pile Hnd) as [Hnd' Hni]. split; [done|].
    intros y. destruct (decide (y = k)) as [->|Hne].
    - rewrite lookup_delete. split; [done|by intros []].
    - rewrite lookup_delete_ne by done. rewrite <- Hk. split; [apply remove_first_sub|by apply remove_first_other].
  Qed.
  Lemma exact_evict items items' pile n :
    exact items pile ->
    (forall k, items' !! k = if decide (k ∈ take n pile) then None else items !! k) ->
    exact items' (drop n pile).
  Proof.
    intros [Hnd Hk] Hl. pose proof Hnd as Hnd0. rewrite <- (take_drop n pile) in Hnd.
    apply NoDup_app in Hnd as (H1 & H2 & H3). split; [done|].
    intros k. rewrite Hl. destruct (decide (k ∈ take n pile)) as [Hin|Hni].
    - split; [|by intros []]. intros Hd. exfalso. by apply (H2 k).
    - rewrite <- Hk. rewrite <- (take_drop n pile) at 2. rewrite elem_of_app. naive_solver.
  Qed.

  Definition lru_inv c (tr : list event) : Prop :=
    c_expire c = 0 /\ exact (c_items c) (c_pile c) /\ ordered (c_pile c) tr.

  (** The cleaning of an exact cache with Expire = 0. *)
  Lemma mclean_exact c p now :
    c_expire c = 0 -> exact (c_items c) (c_pile c) -> p <= 100 ->
    let n := Z.to_nat (quota (Z.of_nat (size (c_items c))) p) in
    exists items',
      mclean c p now = (Cache (c_max c) 0 items' (drop n (c_pile c)), RInt (Z.of_nat n)) /\
      exact items' (drop n (c_pile c)) /\
      (forall k, items' !! k = if decide (k ∈ take n (c_pile c)) then None else c_items c !! k).
  Proof.
    intros He Hx Hp n.
    destruct (mclean_ok c p now (exact_covered _ _ Hx) Hp) as (items' & H1 & H2 & H3).
    rewrite He in H1, H2, H3. rewrite purge_zero in H1, H2, H3. fold n in H1, H2, H3.
    exists items'. split_and!; try done. by eapply exact_evict.
  Qed.

  Lemma set_split c k d tc tr now :
    set c k d tc tr now =
      let pile1 := (if bool_decide (is_Some (c_items c !! k)) then remove_first k (c_pile c) else c_pile c) ++ [k] in
      let c1 := Cache (c_max c) (c_expire c) (<[k := Entry tc tr 0 d]> (c_items c)) pile1 in
      if bool_decide (c_max c > 0 /\ Z.of_nat (size (c_items c1)) >= c_max c) then
        ((mclean c1 10 now).1, match (mclean c1 10 now).2 with RPanic => RPanic | _ => RUnit end)
      else (c1, RUnit).
  Proof.
    unfold set. simpl. destruct (bool_decide (c_max c > 0 /\ _)); [|done].
    destruct (mclean _ 10 now) as [c2 r]. simpl. by destruct r.
  Qed.

  Lemma exact_set c k d tc tr :
    exact (c_items c) (c_pile c) ->
    exact (<[k := Entry tc tr 0 d]> (c_items c))
          ((if bool_decide (is_Some (c_items c !! k)) then remove_first k (c_pile c) else c_pile c) ++ [k]) /\
    (if bool_decide (is_Some (c_items c !! k)) then remove_first k (c_pile c) else c_pile c) = remove_first k (c_pile c).
  Proof.
    intros Hx.
    assert (Heq : (if bool_decide (is_Some (c_items c !! k)) then remove_first k (c_pile c) else c_pile c)
                  = remove_first k (c_pile c)).
    { case_bool_decide as H; [done|]. symmetry. apply remove_first_notin. intros Hk. by apply H, Hx. }
    split; [|done]. rewrite Heq. by apply exact_touch.
  Qed.

  Lemma verify_loop_pile f order c i :
    c_pile (verify_loop f order c i).1 `sublist_of` c_pile c /\
    c_expire (verify_loop f order c i).1 = c_expire c /\
    c_max (verify_loop f order c i).1 = c_max c /\
    (exact (c_items c) (c_pile c) ->
     exact (c_items (verify_loop f order c i).1) (c_pile (verify_loop f order c i).1)) /\
    (size (c_items (verify_loop f order c i).1) <= size (c_items c))%nat.
  Proof.
    revert c i. induction order as [|k order IH]; intros c i; simpl; [done|].
    destruct (c_items c !! k) as [x|] eqn:Hx; [|apply IH].
    destruct (f k (e_ctime x)); [apply IH|].
    destruct (IH (del c k) (i + 1)) as (H1 & H2 & H3 & H4 & H5). split_and!; [|done|done|..].
    - etrans; [done|]. simpl. apply remove_first_sublist.
    - intros He. apply H4. by apply exact_del.
    - simpl in H5. pose proof (size_delete _ _ _ Hx). lia.
  Qed.

  Lemma lru_step c tr o c' r :
    lru_inv c tr -> plain_op o -> step dnil c o = (c', r) -> lru_inv c' (tr ++ [(o, r)]).
  Proof.
    intros (He & Hx & Ho) Hp Hs. destruct o; simpl in Hs.
    - (* Set *)
      rewrite set_split in Hs. simpl in Hs.
      destruct (exact_set c k d tc tr0 Hx) as [Hx1 Hpile]. rewrite Hpile in *.
      assert (Ho1 : ordered (remove_first k (c_pile c) ++ [k]) (tr ++ [(OSet k d tc tr0 now, r)])).
      { apply ordered_touch; simpl; try done; apply Hx. }
      destruct (bool_decide (c_max c > 0 /\ _)).
      + match type of Hs with context [mclean ?y 10 now] => set (c1 := y) in * end.
        destruct (mclean_exact c1 10 now He Hx1) as (i2 & Hm & H2 & _); [lia|].
        rewrite Hm in Hs. simpl in Hs. simplify_eq. split_and!; simpl; try done.
        intros a b Hab. apply Ho1. etrans; [done|]. apply sublist_drop.
      + simplify_eq. split_and!; simpl; try done.
    - simplify_eq. unfold set_ttl. destruct (c_items c !! k) as [x|] eqn:E.
      + split_and!; simpl; try done.
        * destruct Hx as [Hn Hx]. split; [done|]. intros k'. rewrite Hx.
          destruct (decide (k' = k)) as [->|Hne]; [rewrite lookup_insert, E; naive_solver|].
          by rewrite lookup_insert_ne.
        * eapply ordered_sub; try done. intros ? _. simpl. tauto.
      + split_and!; try done. eapply ordered_sub; try done. intros ? _. simpl. tauto.
    - unfold get in Hs. destruct (c_items c !! k) as [x|] eqn:E.
      + destruct (rejected _ _ _ _ _ _); simplify_eq.
        * split_and!; simpl; try done; [by apply exact_del|].
          eapply ordered_sub; [done|apply remove_first_sublist|]. intros ? _. simpl. tauto.
        * split_and!; simpl; try done; [by apply exact_touch|].
          apply ordered_touch; simpl; try done. apply Hx.
      + simplify_eq. split_and!; try done. eapply ordered_sub; [done|done|].
        intros k' Hk' ->. apply Hx in Hk'. rewrite E in Hk'. by destruct Hk'.
    - simplify_eq. split_and!; simpl; try done; [by apply exact_del|].
      eapply ordered_sub; [done|apply remove_first_sublist|]. intros ? _. simpl. tauto.
    - simplify_eq. split_and!; try done. eapply ordered_sub; try done. intros ? _. simpl. tauto.
    - destruct (mclean_exact c perc now He Hx ltac:(simpl in Hp; lia)) as (i2 & Hm & H2 & _).
      rewrite Hm in Hs. simplify_eq. split_and!; simpl; try done.
      eapply ordered_sub; [done|apply sublist_drop|]. intros ? _. simpl. tauto.
    - unfold verify in Hs. rewrite mclean_noevict in Hs by lia. rewrite He, purge_zero in Hs.
      destruct v as [f|].
      + set (c1 := Cache (c_max c) 0 (c_items c) (c_pile c)) in *.
        destruct (verify_loop_pile f (order (c_items c1)) c1 0) as (H1 & H2 & H3 & H4 & _).
        destruct (verify_loop f _ c1 0) as [c2 i2]. simpl in *. simplify_eq. split_and!; try done.
        * by apply H4.
        * eapply ordered_sub; [done|done|]. intros ? _. simpl. tauto.
      + simplify_eq. split_and!; simpl; try done. eapply ordered_sub; try done. intros ? _. simpl. tauto.
    - done.
    - simplify_eq. split_and!; simpl; try done. eapply ordered_sub; try done. intros ? _. simpl. tauto.
    - simpl in Hp. simplify_eq. split_and!; simpl; try done. eapply ordered_sub; try done. intros ? _. simpl. tauto.
  Qed.

  Lemma lru_run mx ops c tr :
    Forall plain_op ops -> run dnil (new_cache mx 0) ops = (c, tr) -> lru_inv c tr.
  Proof.
    intros Hf Hr. eapply (run_invariant dnil lru_inv plain_op); [| |done|done].
    - split_and!; simpl; try done.
      + split; [constructor|]. intros k. rewrite lookup_empty. split; [by intros ?%elem_of_nil|by intros []].
      + intros a b Hab. apply sublist_length in Hab. simpl in Hab. lia.
    - intros c1 tr1 o c2 r H1 H2 H3. by eapply lru_step.
  Qed.

  Lemma sublist_pair_take_drop n pile a b :
    a ∈ take n pile -> b ∈ drop n pile -> [a; b] `sublist_of` pile.
  Proof.
    intros Ha Hb. rewrite <- (take_drop n pile).
    apply elem_of_list_split in Ha as (l1 & l2 & ->). apply elem_of_list_split in Hb as (l3 & l4 & ->).
    change [a; b] with ([a] ++ [b]). apply sublist_app.
    - apply sublist_inserts_l, sublist_skip, sublist_nil_l.
    - apply sublist_inserts_l, sublist_skip, sublist_nil_l.
  Qed.

  Lemma clean_lru mx ops c tr p now c' r :
    Forall plain_op ops -> run dnil (new_cache mx 0) ops = (c, tr) -> 0 <= p <= 100 ->
    step dnil c (OClean p now) = (c', r) ->
    let n := Z.of_nat (size (c_items c)) in
    r = RInt (n * p / 100) /\
    Z.of_nat (size (c_items c')) = n - n * p / 100 /\
    c_items c' ⊆ c_items c /\
    (forall a b, is_Some (c_items c !! a) -> c_items c' !! a = None -> is_Some (c_items c' !! b) -> used_after b a tr).
  Proof.
    intros Hf Hr Hp Hs n. destruct (lru_run _ _ _ _ Hf Hr) as (He & Hx & Ho). simpl in Hs.
    destruct (mclean_exact c p now He Hx ltac:(lia)) as (i2 & Hm & H2 & H3).
    rewrite Hm in Hs. simplify_eq. simpl.
    pose proof (quota_nonneg n p ltac:(lia) ltac:(lia)) as Hq.
    pose proof (quota_le n p ltac:(lia) ltac:(lia)) as Hq2.
    pose proof (quota_div n p ltac:(lia) ltac:(lia)) as Hq3.
    fold n in H2, H3 |- *. rewrite Hq3 in *. split_and!.
    - f_equal. lia.
    - rewrite (exact_size _ _ H2). rewrite drop_length. pose proof (exact_size _ _ Hx). lia.
    - apply map_subseteq_spec. intros k x. rewrite H3. by destruct (decide _).
    - intros a b Ha Hna Hb. rewrite H3 in Hna. destruct (decide (a ∈ take _ (c_pile c))) as [Hin|Hni].
      + apply Ho. eapply sublist_pair_take_drop; [done|]. by apply H2.
      + rewrite Hna in Ha. by destruct Ha.
  Qed.

  (** ** Capacity *)
  Lemma size_insert_le items k x : (size (<[k := x]> items) <= S (size items))%nat.
  Proof.
    destruct (items !! k) as [y|] eqn:E.
    - rewrite map_size_insert_Some by eauto. lia.
    - rewrite map_size_insert_None by done. lia.
  Qed.

  Lemma capacity_step mx c tr o c' r :
    0 < mx -> lru_inv c tr -> c_max c = mx -> Z.of_nat (size (c_items c)) <= Z.max (mx - 1) 9 ->
    plain_op o -> max_untouched o -> step dnil c o = (c', r) ->
    c_max c' = mx /\ Z.of_nat (size (c_items c')) <= Z.max (mx - 1) 9.
  Proof.
    intros Hmx (He & Hx & Ho) Hm Hsz Hp Hmu Hs. destruct o; simpl in Hs; try done.
    - rewrite set_split in Hs. simpl in Hs. destruct (exact_set c k d tc tr0 Hx) as [Hx1 _].
      pose proof (size_insert_le (c_items c) k (Entry tc tr0 0 d)) as Hle.
      set (c1 := Cache (c_max c) (c_expire c) (<[k := Entry tc tr0 0 d]> (c_items c)) _) in Hs.
      change (size (c_items c1) <= S (size (c_items c)))%nat in Hle.
      destruct (bool_decide (c_max c > 0 /\ _)) eqn:Hcl;
        [apply bool_decide_eq_true in Hcl as [_ Hcl]|apply bool_decide_eq_false in Hcl].
      + destruct (mclean_exact c1 10 now He Hx1) as (i2 & Hmm & H2 & _); [lia|].
        rewrite Hmm in Hs. simpl in Hs. injection Hs as <- <-. simpl. split; [done|].
        rewrite (exact_size _ _ H2), drop_length. pose proof (exact_size _ _ Hx1) as Hl.
        change (size (c_items c1) = length (c_pile c1)) in Hl.
        change (Z.of_nat (size (c_items c1)) >= c_max c) in Hcl.
        rewrite <- Hl. rewrite quota_div by lia. lia.
      + simplify_eq. simpl. split; [done|]. lia.
    - simplify_eq. unfold set_ttl. destruct (c_items c !! k) as [x|] eqn:E; [|done].
      simpl. split; [done|]. rewrite map_size_insert_Some by eauto. lia.
    - unfold get in Hs. destruct (c_items c !! k) as [x|] eqn:E; [|by simplify_eq].
      destruct (rejected _ _ _ _ _ _); simplify_eq; simpl; (split; [done|]).
      + pose proof (size_delete _ _ _ E). lia.
      + rewrite map_size_insert_Some by eauto. lia.
    - simplify_eq. simpl. split; [done|]. destruct (c_items c !! k) as [x|] eqn:E.
      + pose proof (size_delete _ _ _ E). lia.
      + rewrite map_size_delete_None by done. lia.
    - by simplify_eq.
    - destruct (mclean_exact c perc now He Hx ltac:(simpl in Hp; lia)) as (i2 & Hmm & H2 & _).
      rewrite Hmm in Hs. simplify_eq. simpl. split; [done|].
      rewrite (exact_size _ _ H2), drop_length. pose proof (exact_size _ _ Hx). lia.
    - unfold verify in Hs. rewrite mclean_noevict in Hs by lia. rewrite He, purge_zero in Hs.
      destruct v as [f|]; [|by simplify_eq].
      set (c1 := Cache (c_max c) 0 (c_items c) (c_pile c)) in *.
      destruct (verify_loop_pile f (order (c_items c1)) c1 0) as (H1 & H2 & H3 & H4 & H5).
      destruct (verify_loop f _ c1 0) as [c2 i2]. simpl in *. simplify_eq. split; [done|]. lia.
    - by simplify_eq.
  Qed.

  Lemma capacity_run mx ops c tr :
    0 < mx -> Forall (fun o => plain_op o /\ max_untouched o) ops -> run dnil (new_cache mx 0) ops = (c, tr) ->
    Z.of_nat (size (c_items c)) <= Z.max (mx - 1) 9.
  Proof.
    intros Hmx Hf Hr.
    assert (lru_inv c tr /\ c_max c = mx /\ Z.of_nat (size (c_items c)) <= Z.max (mx - 1) 9) as (_ & _ & H); [|done].
    eapply (run_invariant dnil (fun c tr => lru_inv c tr /\ c_max c = mx /\ Z.of_nat (size (c_items c)) <= Z.max (mx - 1) 9)
              (fun o => plain_op o /\ max_untouched o)); [| |done|done].
    - split_and!; try done; [|simpl; rewrite map_size_empty; lia].
      by apply (lru_run mx []).
    - intros c1 tr1 o c2 r (H1 & H2 & H3) [H4 H5] H6. split; [by eapply lru_step|].
      by eapply capacity_step.
  Qed.

  (** ** Flush *)
  Lemma step_absent c o k c' r :
    c_items c !! k = None -> (forall d tc tr now, o <> OSet k d tc tr now) ->
    step dnil c o = (c', r) -> c_items c' !! k = None.
  Proof.
    intros Hk Ho Hs.
    destruct (c_items c' !! k) as [x|] eqn:Hx; [exfalso|done].
    destruct o; simpl in Hs.
    - destruct (decide (k = k0)) as [->|Hne]; [by eapply Ho|].
      rewrite set_split in Hs. simpl in Hs. destruct (bool_decide (c_max c > 0 /\ _)).
      + match type of Hs with context [mclean ?y 10 now] => set (c1 := y) in * end.
        assert (c' = (mclean c1 10 now).1) as -> by by simplify_eq.
        apply mclean_sub in Hx. simpl in Hx. rewrite lookup_insert_ne in Hx by done. congruence.
      + simplify_eq. simpl in Hx. rewrite lookup_insert_ne in Hx by done. congruence.
    - simplify_eq. unfold set_ttl in Hx. destruct (c_items c !! k0) as [y|] eqn:E; [|congruence].
      simpl in Hx. apply lookup_insert_Some in Hx as [[-> _]|[_ Hx]]; congruence.
    - unfold get in Hs. destruct (c_items c !! k0) as [y|] eqn:E; [|simplify_eq; congruence].
      destruct (rejected _ _ _ _ _ _); simplify_eq; simpl in Hx.
      + apply lookup_delete_Some in Hx as [_ Hx]. congruence.
      + apply lookup_insert_Some in Hx as [[-> _]|[_ Hx]]; congruence.
    - injection Hs as <- <-. simpl in Hx. apply lookup_delete_Some in Hx as [_ Hx]. congruence.
    - injection Hs as <- <-. congruence.
    - assert (c' = (mclean c perc now).1) as -> by by rewrite Hs. apply mclean_sub in Hx. congruence.
    - unfold verify in Hs. rewrite mclean_noevict in Hs by lia.
      assert (Hp : purge (c_expire c) now (c_items c) !! k = None).
      { destruct (purge _ _ _ !! k) as [y|] eqn:E; [|done]. apply purge_lookup in E as [E _]. congruence. }
      destruct v as [f|]; [|injection Hs as <- <-; simpl in Hx; congruence].
      destruct (verify_loop _ _ _ _) as [c2 i2] eqn:E. injection Hs as <- <-.
      assert (Hc : c_items (verify_loop f (order (c_items (Cache (c_max c) (c_expire c) (purge (c_expire c) now (c_items c)) (c_pile c))))
        (Cache (c_max c) (c_expire c) (purge (c_expire c) now (c_items c)) (c_pile c)) 0).1 !! k = Some x) by by rewrite E.
      apply verify_loop_sub in Hc. simpl in Hc. congruence.
    - injection Hs as <- <-. simpl in Hx. by rewrite lookup_empty in Hx.
    - injection Hs as <- <-. simpl in Hx. congruence.
    - injection Hs as <- <-. simpl in Hx. congruence.
  Qed.

  Lemma run_absent c ops k c' tr :
    c_items c !! k = None -> Forall (fun o => forall d tc tr now, o <> OSet k d tc tr now) ops ->
    run dnil c ops = (c', tr) -> c_items c' !! k = None.
  Proof.
    revert c tr. induction ops as [|o ops IH]; intros c tr Hk Hf Hr; simpl in Hr; [by simplify_eq|].
    apply Forall_cons in Hf as [Ho Hf]. destruct (step dnil c o) as [c1 r] eqn:E.
    destruct (run dnil c1 ops) as [c2 tr2] eqn:E2. simplify_eq.
    eapply IH; [|done|done]. by eapply step_absent.
  Qed.
End CacheProofs2.
