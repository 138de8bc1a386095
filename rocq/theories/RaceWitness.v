(** * Schedules in which overtaken Gets leave keys of removed entries in the recency list. *)
From Verif Require Import GoBase CacheModel CacheProofs CacheConc CacheConcProofs CacheConcWitness RaceSpec RaceProofs.
From Coq Require Import Lia ZifyBool ZifyNat.
Local Open Scope Z_scope.
Ltac Zify.zify_post_hook ::= Z.to_euclidean_division_equations.

Section RaceWitness.
  Context {D : Type} (dnil : D).
  Implicit Types (k : bytes) (d : D) (s : shared D) (g : config D) (t : nat) (x : positive).

  (** Thread 0 stores [k] and reads it; thread 1 deletes it before the reading is over. *)
  Definition set_acts k d x : list (action D) := [AInv 0 (CSet k d); AStep 0 (in_ x 0); ARet 0].
  Definition del_acts k x : list (action D) := [AInv 1 (CDel k); AStep 1 (in_ x 0); ARet 1].
  Definition ghost_acts k d x : list (action D) :=
    set_acts k d x ++ [AInv 0 (CGet k None); AStep 0 (in_ x 0)] ++ del_acts k x ++
    [AStep 0 (in_ x 0); AStep 0 (in_ x 0); AStep 0 (in_ x 0); AStep 0 (in_ x 0); AStep 0 (in_ x 0); ARet 0].

  Definition idle g : Prop := forall t, g_threads g t = None.

  Lemma one_call g t c i s' r :
    g_threads g t = None -> tstep dnil (g_shared g) c Start i = Some (s', Exit r) ->
    exists g' tr, exec dnil g [AInv t c; AStep t i; ARet t] = Some (g', tr) /\ g_shared g' = s' /\
      (forall t', g_threads g' t' = g_threads g t').
  Proof.
    intros Ht Hs. cbn [exec cstep]. rewrite Ht. cbn [g_threads g_shared]. rewrite upd_same, Hs.
    cbn [g_threads g_shared]. rewrite upd_same. eexists _, _. split; [done|]. split; [done|]. intros t'. simpl.
    destruct (decide (t' = t)) as [->|Hne]; [by rewrite upd_same|]. by rewrite !upd_other by done.
  Qed.
  Lemma get_begin g t k x i :
    g_threads g t = None -> h_items (g_shared g) !! k = Some x ->
    exists g' tr, exec dnil g [AInv t (CGet k None); AStep t i] = Some (g', tr) /\ g_shared g' = g_shared g /\
      g_threads g' t = Some (CGet k None, GTtl x) /\ (forall t', t' <> t -> g_threads g' t' = g_threads g t').
  Proof.
    intros Ht Hk. cbn [exec cstep]. rewrite Ht. cbn [g_threads g_shared]. rewrite upd_same. cbn [tstep]. rewrite Hk.
    eexists _, _. split; [done|]. simpl. split; [done|]. rewrite upd_same. split; [done|].
    intros t' Hne. by rewrite !upd_other by done.
  Qed.
  Lemma get_end g t k x i M h items pile d :
    g_threads g t = Some (CGet k None, GTtl x) -> g_shared g = Shared M 0 h items pile [] ->
    h !! x = Some (Entry 0 0 0 d) ->
    exists g' tr h', exec dnil g [AStep t i; AStep t i; AStep t i; AStep t i; AStep t i; ARet t] = Some (g', tr) /\
      g_shared g' = Shared M 0 h' items (remove_first k pile ++ [k]) [] /\ (forall y, y <> x -> h' !! y = h !! y) /\
      g_threads g' t = None /\ (forall t', t' <> t -> g_threads g' t' = g_threads g t').
  Proof.
    intros Ht Hs Hx. destruct g as [s th]. simpl in Ht, Hs. subst s.
    do 4 (cbn [exec cstep g_threads g_shared]; rewrite ?upd_same, ?Ht; cbn [tstep h_heap h_expire]; rewrite ?Hx; cbn [e_ttl e_ctime];
          rewrite ?decide_True by done).
    cbn [exec cstep g_threads g_shared]. rewrite upd_same. cbn [tstep h_heap h_expire h_max h_items h_pile h_gone]. rewrite lookup_alter, Hx. cbn [fmap option_fmap option_map].
    cbn [exec cstep g_threads g_shared]. rewrite upd_same. eexists _, _, _. split; [done|]. simpl.
    split; [done|]. split_and!.
    - intros y Hy. by rewrite lookup_alter_ne.
    - by rewrite upd_same.
    - intros t' Hne. by rewrite !upd_other by done.
  Qed.

  Lemma evict_ghosts {E : Type} (n : nat) (gs l : list bytes) (items : gmap bytes E) :
    (n <= length gs)%nat -> (forall y, y ∈ gs -> items !! y = None) -> evict n (gs ++ l) items = (false, items, drop n gs ++ l).
  Proof.
    revert gs. induction n as [|n IH]; intros gs Hn Hg; [by rewrite drop_0|].
    destruct gs as [|y gs]; [simpl in Hn; lia|]. simpl. rewrite delete_notin by (apply Hg; by left).
    apply IH; [simpl in Hn; lia|]. intros z Hz. apply Hg. by right.
  Qed.
  Lemma set_ghosts M h items gs l k d x g :
    g_threads g 0%nat = None -> g_shared g = Shared M 0 h items (gs ++ l) [] -> h !! x = None ->
    items !! k = None -> (forall y, y ∈ gs -> items !! y = None) -> k ∉ gs -> ((size items + 1) / 10 <= length gs)%nat ->
    exists g' tr n, exec dnil g (set_acts k d x) = Some (g', tr) /\ (n <= (size items + 1) / 10)%nat /\
      g_shared g' = Shared M 0 (<[x := Entry 0 0 0 d]> h) (<[k := x]> items) (drop n gs ++ l ++ [k]) [] /\
      (forall t', g_threads g' t' = g_threads g t').
  Proof.
    intros Ht Hs Hx Hk Hg Hng Hn.
    assert (Hset : exists n, (n <= (size items + 1) / 10)%nat /\ cset (Shared M 0 h items (gs ++ l) []) k d (in_ x 0) =
      (Shared M 0 (<[x := Entry 0 0 0 d]> h) (<[k := x]> items) (drop n gs ++ l ++ [k]) [], RUnit)).
    { unfold cset. cbn [h_items h_max h_expire h_heap h_pile in_loc in_t1 in_t2 in_ in_now in_mid reads rd_max1 rd_max2 h_gone].
      rewrite (bool_decide_eq_false_2 (is_Some (items !! k))) by (rewrite Hk; by intros []).
      destruct (bool_decide _).
      - unfold cclean. cbn [rd_exp1 h_gone h_items h_max h_expire h_heap h_pile in_loc]. rewrite decide_True by done.
        rewrite map_size_insert_None by done. set (n := Z.to_nat _).
        assert (n = (size items + 1) / 10)%nat by (unfold n; rewrite quota_div by lia; lia).
        exists n. split; [lia|]. rewrite <- app_assoc, evict_ghosts; [done|lia|].
        intros y Hy. rewrite lookup_insert_ne; [by apply Hg|]. by intros ->.
      - exists 0%nat. split; [lia|]. by rewrite drop_0, <- app_assoc. }
    destruct Hset as (n & Hn' & Hset).
    destruct (one_call g 0 (CSet k d) (in_ x 0) (Shared M 0 (<[x := Entry 0 0 0 d]> h) (<[k := x]> items) (drop n gs ++ l ++ [k]) []) RUnit) as (g' & tr & He & Hs' & Ht'); [done| |].
    { rewrite Hs. cbn [tstep h_heap in_loc in_]. rewrite Hx, Hset. done. }
    exists g', tr, n. done.
  Qed.

  Lemma ghost_once M h gs k d x g :
    idle g -> g_shared g = Shared M 0 h ∅ gs [] -> h !! x = None -> k ∉ gs ->
    exists g' tr h', exec dnil g (ghost_acts k d x) = Some (g', tr) /\ idle g' /\
      g_shared g' = Shared M 0 h' ∅ (gs ++ [k]) [] /\ (forall y, y <> x -> h' !! y = h !! y).
  Proof.
    intros Hi Hs Hx Hk. unfold ghost_acts.
    destruct (set_ghosts M h ∅ gs [] k d x g) as (g1 & tr1 & n & He1 & Hn & Hs1 & Ht1); try done.
    { by rewrite app_nil_r. } { rewrite map_size_empty. simpl. lia. }
    rewrite map_size_empty in Hn. assert (n = 0%nat) as -> by (simpl in Hn; lia). rewrite drop_0 in Hs1. cbn [app] in Hs1.
    destruct (get_begin g1 0 k x (in_ x 0)) as (g2 & tr2 & He2 & Hs2 & Ht2 & Ho2).
    { by rewrite Ht1. } { rewrite Hs1. simpl. by rewrite lookup_insert. }
    destruct (one_call g2 1 (CDel k) (in_ x 0) (cdel (g_shared g2) k) RUnit) as (g3 & tr3 & He3 & Hs3 & Ho3).
    { rewrite Ho2 by done. by rewrite Ht1. } { done. }
    assert (Hrm : remove_first k (gs ++ [k]) = gs) by (rewrite remove_first_app by done; apply app_nil_r).
    rewrite Hs2, Hs1 in Hs3. unfold cdel in Hs3. cbn [h_items h_max h_expire h_heap h_pile h_gone] in Hs3. rewrite Hrm, delete_insert in Hs3 by done.
    destruct (get_end g3 0 k x (in_ x 0) _ _ _ _ d ltac:(by rewrite Ho3) Hs3) as (g4 & tr4 & h4 & He4 & Hs4 & Hh4 & Ht4 & Ho4).
    { by rewrite lookup_insert. }
    rewrite remove_first_notin in Hs4 by done.
    eexists g4, _, h4. split_and!.
    - rewrite exec_app, He1, exec_app, He2, exec_app. unfold del_acts. rewrite He3, He4. done.
    - intros t. destruct (decide (t = 0%nat)) as [->|Hne]; [done|]. rewrite Ho4, Ho3, Ho2, Ht1 by done. apply Hi.
    - done.
    - intros y Hy. rewrite Hh4, lookup_insert_ne by done. done.
  Qed.

  Definition ghost_key (j : nat) : bytes := replicate (S j) "b"%char.
  Definition real_key (j : nat) : bytes := replicate j "a"%char.
  Definition ghosts (d : D) (n : nat) : list (action D) :=
    concat ((fun j => ghost_acts (ghost_key j) d (Pos.of_succ_nat j)) <$> seq 0 n).
  Definition fills (d : D) (m n : nat) : list (action D) :=
    concat ((fun j => set_acts (real_key j) d (Pos.of_succ_nat (m + j))) <$> seq 0 n).

  Lemma ghost_key_inj i j : ghost_key i = ghost_key j -> i = j.
  Proof. intros H. apply (f_equal length) in H. unfold ghost_key in H. rewrite !replicate_length in H. lia. Qed.
  Lemma real_key_inj i j : real_key i = real_key j -> i = j.
  Proof. intros H. apply (f_equal length) in H. unfold real_key in H. by rewrite !replicate_length in H. Qed.
  Lemma ghost_real i j : real_key i <> ghost_key j.
  Proof. unfold ghost_key, real_key. destruct i; done. Qed.

  Lemma ghosts_run M d n :
    exists g tr h, exec dnil (cinit M 0) (ghosts d n) = Some (g, tr) /\ idle g /\
      g_shared g = Shared M 0 h ∅ (ghost_key <$> seq 0 n) [] /\ (forall j, (n <= j)%nat -> h !! Pos.of_succ_nat j = None).
  Proof.
    induction n as [|n (g & tr & h & He & Hi & Hs & Hh)].
    - eexists _, _, _. done.
    - destruct (ghost_once M h (ghost_key <$> seq 0 n) (ghost_key n) d (Pos.of_succ_nat n) g Hi Hs) as (g' & tr' & h' & He' & Hi' & Hs' & Hh').
      { by apply Hh. }
      { intros (j & Hj & Hin)%elem_of_list_fmap. apply ghost_key_inj in Hj. apply elem_of_seq in Hin. lia. }
      eexists g', _, h'. unfold ghosts. rewrite seq_S, fmap_app, concat_app. cbn [fmap list_fmap concat Nat.add]. rewrite app_nil_r, exec_app.
      unfold ghosts in He. rewrite He, He'. split_and!; try done.
      + rewrite fmap_app. done.
      + intros j Hj. rewrite Hh' by lia. apply Hh. lia.
  Qed.

  Lemma fills_run M d G N n :
    (n <= N)%nat -> (N * N <= G)%nat ->
    exists g tr (h : gmap positive (entry D)) (items : gmap bytes positive) (gs l : list bytes), exec dnil (cinit M 0) (ghosts d G ++ fills d G n) = Some (g, tr) /\ idle g /\
      g_shared g = Shared M 0 h items (gs ++ l) [] /\ size items = n /\
      (forall j, h !! Pos.of_succ_nat (G + j) = None <-> (n <= j)%nat) /\
      (forall j, items !! real_key j = None <-> (n <= j)%nat) /\ (forall j, items !! ghost_key j = None) /\
      (forall y, y ∈ gs -> exists j, y = ghost_key j) /\ (N * N <= length gs + n * N)%nat.
  Proof.
    intros Hn HG. induction n as [|n IH].
    - destruct (ghosts_run M d G) as (g & tr & h & He & Hi & Hs & Hh).
      exists g, tr, h, ∅, (ghost_key <$> seq 0 G), []. unfold fills. cbn [seq fmap list_fmap concat]. rewrite app_nil_r, app_nil_r.
      split_and!; try done.
      + intros j. split; [lia|]. intros _. apply Hh. lia.
      + intros j. split; [lia|]. done.
      + intros y (j & -> & _)%elem_of_list_fmap. eauto.
      + rewrite fmap_length, seq_length. lia.
    - destruct IH as (g & tr & h & items & gs & l & He & Hi & Hs & Hz & Hh & Hr & Hg & Hgs & Hl); [lia|].
      destruct (set_ghosts M h items gs l (real_key n) d (Pos.of_succ_nat (G + n)) g) as (g' & tr' & m & He' & Hm & Hs' & Ht'); try done.
      { by apply Hh. } { by apply Hr. }
      { intros y (j & ->)%Hgs. done. }
      { intros (j & Hj)%Hgs. by apply ghost_real in Hj. }
      { rewrite Hz. nia. }
      eexists g', _, _, _, (drop m gs), (l ++ [real_key n]).
      unfold fills in *. rewrite seq_S, fmap_app, concat_app. cbn [fmap list_fmap concat Nat.add]. rewrite app_nil_r, app_assoc, exec_app, He, He'.
      split_and!; try done.
      + intros t. rewrite Ht'. apply Hi.
      + rewrite map_size_insert_None by by apply Hr. lia.
      + intros j. destruct (decide (j = n)) as [->|Hne].
        * rewrite lookup_insert. split; [done|lia].
        * rewrite lookup_insert_ne by lia. rewrite Hh. lia.
      + intros j. destruct (decide (j = n)) as [->|Hne].
        * rewrite lookup_insert. split; [done|lia].
        * rewrite lookup_insert_ne; [rewrite Hr; lia|]. by intros ?%real_key_inj.
      + intros j. rewrite lookup_insert_ne; [done|]. apply ghost_real.
      + intros y Hy. apply Hgs. rewrite <- (take_drop m gs). apply elem_of_app. by right.
      + rewrite drop_length. rewrite Hz in Hm. nia.
  Qed.

  Lemma simple_concat {A : Type} (f : A -> list (action D)) (l : list A) : (forall y, Forall simple (f y)) -> Forall simple (concat (f <$> l)).
  Proof. intros Hf. induction l as [|y l IH]; [constructor|]. simpl. apply Forall_app. split; [apply Hf|apply IH]. Qed.

  Lemma race_unbounded M d N :
    exists acts g tr, Forall simple acts /\ exec dnil (cinit M 0) acts = Some (g, tr) /\
      (forall t, g_threads g t = None) /\ size (h_items (g_shared g)) = N.
  Proof.
    destruct (fills_run M d (N * N) N N) as (g & tr & h & items & gs & l & He & Hi & Hs & Hz & _); [lia|lia|].
    eexists _, g, tr. split; [|split; [exact He|]].
    - apply Forall_app. split; apply simple_concat; intros y; repeat constructor.
    - split; [done|]. by rewrite Hs.
  Qed.
  Lemma ghosts_noted d n a b :
    fold_left note (concat ((fun j => ghost_acts (ghost_key j) d (Pos.of_succ_nat j)) <$> seq a n)) (Gets [] b) = Gets [] (b + n).
  Proof.
    revert a b. induction n as [|n IH]; intros a b.
    - simpl. by rewrite Nat.add_0_r.
    - cbn [seq fmap list_fmap concat]. rewrite fold_left_app.
      replace (fold_left note (ghost_acts (ghost_key a) d (Pos.of_succ_nat a)) (Gets [] b)) with (Gets [] (b + 1)).
      + rewrite IH. f_equal. lia.
      + unfold ghost_acts. simpl. f_equal. lia.
  Qed.
  Lemma ghosts_overtaken d n : overtaken (ghosts d n) = n.
  Proof. unfold overtaken, ghosts. by rewrite ghosts_noted. Qed.
  Lemma race_leaks M d n :
    exists acts g tr, Forall simple acts /\ exec dnil (cinit M 0) acts = Some (g, tr) /\
      (forall t, g_threads g t = None) /\ size (h_items (g_shared g)) = 0%nat /\ length (h_pile (g_shared g)) = n /\ overtaken acts = n.
  Proof.
    destruct (ghosts_run M d n) as (g & tr & h & He & Hi & Hs & Hh).
    eexists _, g, tr. split; [|split; [exact He|]].
    - apply simple_concat; intros y; repeat constructor.
    - split_and!; [done|by rewrite Hs|by rewrite Hs; simpl; rewrite fmap_length, seq_length|].
      apply ghosts_overtaken.
  Qed.
End RaceWitness.

Ltac Zify.zify_post_hook ::= idtac.
(** The entry just stored is the one the limit removes. *)
Definition num_key (j : nat) : bytes := replicate (S j) "c"%char.
Definition fresh_lost : list (action Z) :=
  ghost_acts (B "k") 1 1 ++ concat ((fun j => set_acts (num_key j) 2 (Pos.of_nat (j + 2))) <$> seq 0 9) ++
  set_acts (B "k") 3 20 ++ [AInv 0 (CGet (B "k") None); AStep 0 (in_ 1 0); ARet 0].
Lemma fresh_is_lost : exists acts, overtaken acts = 1%nat /\
  returns acts (cinit 10 0) =
    [(0%nat, RUnit); (1%nat, RUnit); (0%nat, RGet 1 false)] ++ replicate 9 (0%nat, RUnit) ++ [(0%nat, RUnit); (0%nat, RGet 0 false)] /\
  exists pre, acts = pre ++ [AInv 0 (CSet (B "k") 3); AStep 0 (in_ 20 0); ARet 0; AInv 0 (CGet (B "k") None); AStep 0 (in_ 1 0); ARet 0].
Proof.
  exists fresh_lost. split; [vm_compute; done|]. split; [vm_compute; done|].
  eexists (ghost_acts (B "k") 1 1 ++ concat ((fun j => set_acts (num_key j) 2 (Pos.of_nat (j + 2))) <$> seq 0 9)).
  unfold fresh_lost. rewrite <- app_assoc. done.
Qed.
