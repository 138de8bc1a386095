(** * How many entries the cache holds when Gets are overtaken by other calls. *)
From Verif Require Import GoBase CacheModel CacheProofs CacheConc CacheConcProofs RaceSpec.
From Coq Require Import Lia ZifyBool ZifyNat.
Local Open Scope Z_scope.
Ltac Zify.zify_post_hook ::= Z.to_euclidean_division_equations.

Section RaceProofs.
  Context {D : Type} (dnil : D).
  Implicit Types (k : bytes) (d : D) (s : shared D) (g : config D) (t : nat) (x : positive).

  Lemma filter_elem_length t (l : list nat) : t ∈ l -> (S (length (filter (.≠ t) l)) <= length l)%nat.
  Proof.
    induction l as [|y l IH]; [by intros ?%elem_of_nil|]. rewrite filter_cons. intros H. case_decide as Hd.
    - simpl. apply elem_of_cons in H as [->|H]; [done|]. specialize (IH H). lia.
    - simpl. pose proof (filter_length (.≠ t) l). lia.
  Qed.
  Lemma evict_size {E : Type} (n : nat) (pile : list bytes) (items : gmap bytes E) :
    (size items <= size (evict n pile items).1.2 + n)%nat.
  Proof.
    revert pile items. induction n as [|n IH]; intros pile items; [simpl; lia|].
    destruct pile as [|y pile]; [simpl; lia|]. simpl. specialize (IH pile (delete y items)).
    assert (size items <= S (size (delete y items)))%nat; [|lia].
    destruct (items !! y) as [v|] eqn:Hy.
    - rewrite map_size_delete_Some by eauto. lia.
    - rewrite map_size_delete_None by done. lia.
  Qed.

  (** The recency list against the entries and the limit; [E] is the number of superfluous keys. *)
  Definition near (mx : Z) s (E : Z) : Prop :=
    ccovered s /\ h_max s = mx /\ h_expire s = 0 /\
    Z.of_nat (length (h_pile s)) <= Z.of_nat (size (h_items s)) + E /\
    Z.of_nat (length (h_pile s)) <= Z.max (mx - 1) 9 + E.

  Lemma near_mono mx s E E' : near mx s E -> E <= E' -> near mx s E'.
  Proof. intros (? & ? & ? & ? & ?) ?. split_and!; auto; lia. Qed.
  Lemma near_size mx s E : near mx s E -> Z.of_nat (size (h_items s)) <= Z.max (mx - 1) 9 + E.
  Proof. intros (Hc & _ & _ & _ & H). pose proof (covered_size _ _ Hc). lia. Qed.
  Lemma near_heap mx s E h : near mx s E -> near mx (Shared (h_max s) (h_expire s) h (h_items s) (h_pile s) (h_gone s)) E.
  Proof. done. Qed.

  Lemma clean_parts s p now rd s' r :
    ccovered s -> h_expire s = 0 -> rd_exp1 rd = 0 -> p <= 100 -> cclean s p now rd = (s', r) ->
    let n := Z.to_nat (quota (Z.of_nat (size (h_items s))) p) in
    ccovered s' /\ h_max s' = h_max s /\ h_expire s' = 0 /\ (exists z, r = RInt z) /\
    (length (h_pile s') = length (h_pile s) - n)%nat /\ (n <= length (h_pile s))%nat /\
    (size (h_items s) <= size (h_items s') + n)%nat.
  Proof.
    intros Hc He Her Hp Hs n. pose proof Hs as Hs2. apply cclean_covered in Hs2 as (H1 & H2 & H3 & H4); [|done|done].
    unfold cclean in Hs. rewrite He, Her in Hs. rewrite decide_True in Hs by done. fold n in Hs.
    pose proof (covered_size _ _ Hc) as Hle.
    assert (Hn : (n <= length (h_pile s))%nat).
    { unfold n. pose proof (quota_le (Z.of_nat (size (h_items s))) p). lia. }
    pose proof (evict_size n (h_pile s) (h_items s)) as Hz.
    destruct (evict_ok n (h_pile s) (h_items s) Hn) as (i2 & Hev & Hl). rewrite Hev in Hs, Hz. simpl in Hz.
    injection Hs as <- <-. simpl in *. split_and!; try done. by rewrite drop_length.
  Qed.
  Lemma near_clean mx s E p now rd s' r :
    near mx s E -> rd_exp1 rd = h_expire s -> p <= 100 -> cclean s p now rd = (s', r) -> near mx s' E /\ exists z, r = RInt z.
  Proof.
    intros (Hc & Hm & He & H1 & H2) Her Hp Hs. rewrite He in Her.
    destruct (clean_parts _ _ _ _ _ _ Hc He Her Hp Hs) as (G1 & G2 & G3 & G4 & G5 & G6 & G7).
    split; [|done]. split_and!; auto; [congruence|lia|lia].
  Qed.
  Lemma near_set mx s E k d i s' r :
    0 < mx -> in_mid i = None -> near mx s E -> cset s k d i = (s', r) -> near mx s' E /\ r = RUnit.
  Proof.
    intros Hmx Hmid (Hc & Hm & He & H1 & H2) Hs. pose proof Hs as Hs2. apply cset_covered in Hs2 as (G1 & G2 & G3 & G4); [|done].
    split; [|done]. unfold cset in Hs.
    assert (Hrd : reads s i = Readings (h_max s) (h_max s) (h_expire s) (fun _ => h_expire s)) by (unfold reads; by rewrite Hmid).
    rewrite Hrd in Hs. cbn [rd_max1 rd_max2] in Hs.
    match type of Hs with context [cclean ?y 10 _ _] => set (s1 := y) in * end.
    assert (Hc1 : ccovered s1).
    { intros k'. simpl. destruct (decide (k' = k)) as [->|Hne].
      - intros _. apply elem_of_app. right. by left.
      - rewrite lookup_insert_ne by done. intros Hk%Hc. apply elem_of_app. left.
        destruct (bool_decide (is_Some _)); [by apply remove_first_other|done]. }
    assert (Hl1 : exists z : nat, (z <= 1)%nat /\ size (h_items s1) = (size (h_items s) + z)%nat /\ length (h_pile s1) = (length (h_pile s) + z)%nat).
    { clear Hs. simpl. case_bool_decide as Hk.
      - exists 0%nat. pose proof (remove_first_length _ _ (Hc _ Hk)) as Hl. rewrite map_size_insert_Some by done.
        rewrite app_length. simpl. lia.
      - exists 1%nat. rewrite map_size_insert_None by by apply eq_None_not_Some. rewrite app_length. simpl. lia. }
    destruct Hl1 as (z & Hz & Hz1 & Hz2).
    destruct (bool_decide (h_max s > 0 /\ _)) eqn:Hb;
      [apply bool_decide_eq_true in Hb as [_ Hb]|apply bool_decide_eq_false in Hb].
    - destruct (cclean s1 10 (in_now i) _) as [s2 r2] eqn:E2.
      destruct (clean_parts s1 10 (in_now i) (Readings (h_max s) (h_max s) (h_expire s) (fun _ => h_expire s)) s2 r2 Hc1 He He ltac:(lia) E2) as (F1 & F2 & F3 & (y & ->) & F5 & F6 & F7).
      injection Hs as <- _. change (Z.of_nat (size (h_items s1)) >= h_max s) in Hb.
      rewrite quota_div in F5, F6, F7 by lia.
      split_and!; auto; [by rewrite F2|lia|]. lia.
    - injection Hs as <- _. change (~ (h_max s > 0 /\ Z.of_nat (size (h_items s1)) >= h_max s)) in Hb.
      split_and!; auto; lia.
  Qed.
  Lemma near_del mx s E k : near mx s E -> near mx (cdel s k) E.
  Proof.
    intros (Hc & Hm & He & H1 & H2).
    assert (Hl : (length (remove_first k (h_pile s)) <= length (h_pile s))%nat).
    { destruct (decide (k ∈ h_pile s)) as [Hk|Hk]; [pose proof (remove_first_length _ _ Hk); lia|by rewrite remove_first_notin]. }
    split_and!; try done; simpl; [by apply covered_del| |lia].
    destruct (h_items s !! k) as [x|] eqn:Hk.
    - assert (Hin : k ∈ h_pile s) by (apply Hc; eauto). pose proof (remove_first_length _ _ Hin).
      pose proof (covered_size _ _ Hc). rewrite map_size_delete_Some by eauto.
      assert (size (h_items s) <> 0)%nat; [|lia]. intros Hz. apply map_size_empty_iff in Hz. by rewrite Hz, lookup_empty in Hk.
    - rewrite map_size_delete_None by done. lia.
  Qed.
  Lemma near_touch mx s E k h :
    near mx s E -> near mx (Shared (h_max s) (h_expire s) h (h_items s) (remove_first k (h_pile s) ++ [k]) (h_gone s))
                     (if decide (k ∈ h_pile s) then E else E + 1).
  Proof.
    intros (Hc & Hm & He & H1 & H2). case_decide as Hk.
    - pose proof (remove_first_length _ _ Hk). split_and!; try done; simpl; [by apply covered_touch| |]; rewrite app_length; simpl; lia.
    - split_and!; try done; simpl; [by apply covered_touch| |]; rewrite remove_first_notin, app_length by done; simpl; lia.
  Qed.

  (** Where a Get holds an entry that it will touch. *)
  Definition holding (p : pc D) : Prop := match p with Start | Exit _ => False | _ => True end.

  Lemma start_dec (p : pc D) : p = Start \/ p <> Start.
  Proof. destruct p; [by left|..]; by right. Qed.

  (** One step: only the last section of a Get may add a superfluous key, and only if its key
      was removed meanwhile. *)
  Lemma near_step mx s E c p i s' p' :
    0 < mx -> in_mid i = None -> near mx s E -> call_ok c -> c <> CFlush -> tstep dnil s c p i = Some (s', p') ->
    (near mx s' E \/ (exists k v x r, c = CGet k v /\ p = GTouch x /\ p' = Exit r /\ h_items s !! k = None /\ near mx s' (E + 1))) /\
    (c = CCount -> p' = Exit (RInt (Z.of_nat (size (h_items s'))))) /\
    (forall k v, c = CGet k v -> holding p' -> h_items s' = h_items s /\ (p = Start -> is_Some (h_items s !! k)) /\ (p <> Start -> holding p)).
  Proof.
    intros Hmx Hmid Hn Hok Hf Ht.
    assert (Hrd : rd_exp1 (reads s i) = h_expire s) by (unfold reads; by rewrite Hmid).
    destruct c; try done.
    - destruct p; try done. simpl in Ht. destruct (h_heap s !! in_loc i); [done|].
      destruct (cset s k d i) as [s1 r] eqn:E2. destruct (near_set _ _ _ _ _ _ _ _ Hmx Hmid Hn E2) as [H1 ->]. simplify_eq. split_and!; try done. by left.
    - destruct p; try done. simpl in Ht. destruct (h_items s !! k) as [x|]; simplify_eq; (split_and!; try done; left); try done.
    - split; [|split; [done|]].
      + destruct p; simpl in Ht; try done;
          try (left; repeat (case_match; simplify_eq); simplify_eq; done).
        * left. simplify_eq. by apply near_del.
        * destruct (h_heap s !! x) as [e|] eqn:Hx; [|done]. simplify_eq.
          pose proof (near_touch _ _ _ k (h_heap s) Hn) as Ht. case_decide as Hk; [by left|].
          right. exists k, v, x, (RGet (e_data e) false). split_and!; try done.
          apply eq_None_not_Some. intros Hs. by apply Hk, Hn.
      + intros k' v' [= <- <-] Hh. destruct p; simpl in Ht; try done;
          repeat (case_match; simplify_eq); simplify_eq; simpl in *; try done; split_and!; try done; eauto.
    - destruct p; try done. simpl in Ht. simplify_eq. split_and!; try done. left. by apply near_del.
    - destruct p; try done. simpl in Ht. simplify_eq. split_and!; try done. by left.
    - destruct p; try done. simpl in Ht. destruct (cclean s perc (in_now i) (reads s i)) as [s1 r] eqn:E2.
      simpl in Hok. apply (near_clean mx s E) in E2 as [H1 _]; [|done|done|lia]. simplify_eq. split_and!; try done. by left.
    - split_and!; try done. left. destruct p; try done.
      + simpl in Ht. destruct (cclean s 0 (in_now i) (reads s i)) as [s1 r] eqn:E2.
        apply (near_clean mx s E) in E2 as [H1 (z & ->)]; [|done|done|lia]. destruct v; by simplify_eq.
      + simpl in Ht. by simplify_eq.
      + by apply verify_head in Ht as [-> _].
      + by apply verify_val in Ht as [-> _].
      + simpl in Ht. simplify_eq. by apply near_del.
  Qed.

  (** ** All schedules *)
  Definition race_inv (mx : Z) g (q : gets) : Prop :=
    (forall t, t ∈ quiet q -> exists k v p, g_threads g t = Some (CGet k v, p) /\ (holding p -> is_Some (h_items (g_shared g) !! k))) /\
    (forall t c p, g_threads g t = Some (c, p) -> call_ok c /\ c <> CFlush) /\
    (forall t n, g_threads g t = Some (CCount, Exit (RInt n)) -> n <= Z.max (mx - 1) 9 + Z.of_nat (disturbed q)) /\
    exists late : list nat,
      (forall t k v p, g_threads g t = Some (CGet k v, p) -> holding p \/ p = Start -> t ∉ quiet q -> t ∈ late) /\
      near mx (g_shared g) (Z.of_nat (disturbed q) - Z.of_nat (length late)).

  Lemma race_step mx g q a g' l :
    0 < mx -> race_inv mx g q -> calm a -> cstep dnil g a = Some (g', l) -> race_inv mx g' (note q a).
  Proof.
    intros Hmx (Hq & Hc & Hn & late & Hl & Hne) Ha Hs. destruct a as [t c|t i|t|mx'|ex']; simpl in Hs; [| | |done..].
    - destruct (g_threads g t) eqn:Et; [done|]. simplify_eq.
      assert (Hcc : call_ok c /\ c <> CFlush) by (destruct c; simpl in *; done).
      assert (Hd : disturbed (note q (AInv t c)) = disturbed q) by by destruct c.
      assert (Hqt : forall t', t' <> t -> t' ∈ quiet (note q (AInv t c)) <-> t' ∈ quiet q).
      { intros t' Hne'. destruct c; try done. simpl. rewrite elem_of_cons. naive_solver. }
      assert (Hnt : t ∉ quiet q). { intros (k & v & p & Hp & _)%Hq. congruence. }
      unfold race_inv. rewrite Hd. split_and!; simpl.
      + intros t'. destruct (decide (t' = t)) as [->|Hne'].
        * rewrite upd_same. destruct c; try (by intros H%Hnt). intros _. eexists _, _, _. split; [done|]. by intros [].
        * rewrite upd_other by done. intros Hin%Hqt; [|done]. by apply Hq.
      + intros t' c' p'. destruct (decide (t' = t)) as [->|Hne'].
        * rewrite upd_same. by intros [= <- <-].
        * rewrite upd_other by done. apply Hc.
      + intros t' n. destruct (decide (t' = t)) as [->|Hne'].
        * rewrite upd_same. done.
        * rewrite upd_other by done. apply Hn.
      + exists late. split; [|done]. intros t' k v p. destruct (decide (t' = t)) as [->|Hne'].
        * rewrite upd_same. intros [= -> <-] _ Hni. simpl in Hni. destruct Hni. by left.
        * rewrite upd_other by done. intros Hp Hh Hni. eapply Hl; [done|done|]. by rewrite <- (Hqt _ Hne').
    - destruct (g_threads g t) as [[c p]|] eqn:Et; [|done].
      destruct (tstep dnil (g_shared g) c p i) as [[s' p']|] eqn:Est; [|done]. simplify_eq.
      destruct (Hc _ _ _ Et) as [Hok Hnf].
      set (E := Z.of_nat (disturbed q) - Z.of_nat (length late)) in *.
      destruct (near_step _ _ _ _ _ _ _ _ Hmx Ha Hne Hok Hnf Est) as (Hnear & Hcount & Hget).
      set (moved := filter (.≠ t) (quiet q)).
      assert (Hlate : exists late', (forall t' k v p, upd (g_threads g) t (Some (c, p')) t' = Some (CGet k v, p) ->
          holding p \/ p = Start -> t' ∉ filter (.= t) (quiet q) -> t' ∈ late') /\
          near mx s' (Z.of_nat (disturbed q + length moved) - Z.of_nat (length late'))).
      { destruct Hnear as [Hnear|(k & v & x & r & -> & -> & -> & Hk & Hnear)].
        - exists (moved ++ late). split.
          + intros t' k v p0. rewrite elem_of_list_filter. destruct (decide (t' = t)) as [->|Hne'].
            * rewrite upd_same. intros [= -> <-] Hh Hni. apply elem_of_app. right.
              eapply Hl; [done| |naive_solver].
              destruct Hh as [Hh|Hh]; [|subst p'; exfalso; clear -Est; by destruct p; simpl in Est; repeat (case_match; simplify_eq); simplify_eq].
              destruct (Hget _ _ eq_refl Hh) as (_ & _ & H). destruct (start_dec p) as [->|]; auto.
            * rewrite upd_other by done. intros Hp Hh Hni. apply elem_of_app.
              destruct (decide (t' ∈ quiet q)) as [Hin|Hni2]; [left; by apply elem_of_list_filter|right; by eapply Hl].
          + rewrite app_length. eapply near_mono; [done|]. unfold E. lia.
        - exists (moved ++ filter (.≠ t) late). split.
          + intros t' k' v' p0. rewrite elem_of_list_filter. destruct (decide (t' = t)) as [->|Hne'].
            * rewrite upd_same. intros [= <- <- <-] [[]|?]; done.
            * rewrite upd_other by done. intros Hp Hh Hni. apply elem_of_app.
              destruct (decide (t' ∈ quiet q)) as [Hin|Hni2]; [left; by apply elem_of_list_filter|right].
              apply elem_of_list_filter. split; [done|]. by eapply Hl.
          + assert (Hin : t ∈ late).
            { eapply Hl; [done|by left|]. intros (k' & v' & p0 & Hp & Hs)%Hq. rewrite Et in Hp. simplify_eq.
              rewrite Hk in Hs. by destruct Hs. }
            pose proof (filter_elem_length t late Hin). rewrite app_length. eapply near_mono; [done|]. unfold E. lia. }
      assert (Hsz : Z.of_nat (size (h_items s')) <= Z.max (mx - 1) 9 + Z.of_nat (disturbed q + length moved)).
      { destruct Hlate as (late' & _ & H). apply near_size in H. lia. }
      split_and!; simpl; [| | |done].
      + intros t'. rewrite elem_of_list_filter. intros [-> Hin]. destruct (Hq _ Hin) as (k & v & p0 & Hp & Hs).
        rewrite Et in Hp. simplify_eq. rewrite upd_same. exists k, v, p'. split; [done|]. intros Hh.
        destruct (Hget _ _ eq_refl Hh) as (-> & H1 & H2). destruct (start_dec p0) as [->|Hn0]; auto.
      + intros t' c' p0. destruct (decide (t' = t)) as [->|Hne'].
        * rewrite upd_same. by intros [= <- <-].
        * rewrite upd_other by done. apply Hc.
      + intros t' n. fold moved. destruct (decide (t' = t)) as [->|Hne'].
        * rewrite upd_same. intros [= -> ->]. specialize (Hcount eq_refl). simplify_eq. done.
        * rewrite upd_other by done. intros H%Hn. lia.
    - destruct (g_threads g t) as [[c [| | | | | | | | | | | | |r]]|] eqn:Et; simplify_eq.
      split_and!; simpl.
      + intros t'. rewrite elem_of_list_filter. intros [Hne' Hin]. rewrite upd_other by done. by apply Hq.
      + intros t' c' p0. destruct (decide (t' = t)) as [->|Hne']; [by rewrite upd_same|rewrite upd_other by done; apply Hc].
      + intros t' n. destruct (decide (t' = t)) as [->|Hne']; [by rewrite upd_same|rewrite upd_other by done; apply Hn].
      + exists late. split; [|done]. intros t' k v p. destruct (decide (t' = t)) as [->|Hne']; [by rewrite upd_same|].
        rewrite upd_other by done. rewrite elem_of_list_filter. intros Hp Hh Hni. eapply Hl; [done|done|naive_solver].
  Qed.

  Lemma race_run mx acts g tr :
    0 < mx -> Forall calm acts -> exec dnil (cinit mx 0) acts = Some (g, tr) -> race_inv mx g (fold_left note acts (Gets [] 0)).
  Proof.
    intros Hmx. revert g tr. induction acts as [|a acts IH] using rev_ind; intros g tr Hf He.
    - simpl in He. simplify_eq. split_and!; simpl; try done; [by intros t ?%elem_of_nil|].
      exists []. split; [done|]. split_and!; try done; simpl; try lia. intros k. simpl. rewrite lookup_empty. by intros [].
    - apply Forall_app in Hf as [Hf Ha]. rewrite Forall_singleton in Ha.
      rewrite exec_snoc in He. destruct (exec dnil (cinit mx 0) acts) as [[g1 tr1]|] eqn:E; [|done].
      destruct (cstep dnil g1 a) as [[g2 l]|] eqn:E2; [|done]. simplify_eq.
      rewrite fold_left_app. simpl. eapply race_step; [done| |done|done]. by eapply IH.
  Qed.
  Lemma race_bound mx acts g tr :
    0 < mx -> Forall calm acts -> exec dnil (cinit mx 0) acts = Some (g, tr) ->
    Z.of_nat (size (h_items (g_shared g))) <= Z.max (mx - 1) 9 + Z.of_nat (overtaken acts).
  Proof.
    intros Hmx Hf He. destruct (race_run _ _ _ _ Hmx Hf He) as (_ & _ & _ & late & _ & H).
    apply near_size in H. unfold overtaken. lia.
  Qed.
  Lemma race_count mx acts g tr t n g' :
    0 < mx -> Forall calm acts -> exec dnil (cinit mx 0) acts = Some (g, tr) ->
    cstep dnil g (ARet t) = Some (g', LRet t CCount (RInt n)) ->
    n <= Z.max (mx - 1) 9 + Z.of_nat (overtaken acts).
  Proof.
    intros Hmx Hf He Hr. destruct (race_run _ _ _ _ Hmx Hf He) as (_ & _ & H & _).
    simpl in Hr. destruct (g_threads g t) as [[c [| | | | | | | | | | | | |r]]|] eqn:Et; simplify_eq. by apply H in Et.
  Qed.
  Lemma race_leak mx acts g tr :
    0 < mx -> Forall calm acts -> exec dnil (cinit mx 0) acts = Some (g, tr) ->
    Z.of_nat (length (h_pile (g_shared g))) <= Z.of_nat (size (h_items (g_shared g))) + Z.of_nat (overtaken acts).
  Proof.
    intros Hmx Hf He. destruct (race_run _ _ _ _ Hmx Hf He) as (_ & _ & _ & late & _ & H).
    destruct H as (_ & _ & _ & H & _). unfold overtaken. lia.
  Qed.
End RaceProofs.
