(** * Clients that load on demand: the values they get; all of them may load the same key (C131). *)
From Verif Require Import GoBase CacheModel CacheSpec CacheConc CacheConcSpec CacheConcProofs CacheConcProofs2 CrowdSpec CrowdProofs.
Local Open Scope Z_scope.

Section CrowdProofs2.
  Context {D : Type} (dnil : D) (is_nil : D -> bool) (load : bytes -> D).
  Implicit Types (k : bytes) (t : nat).

  (** ** Values *)
  Lemma firsts_begun (acts : list (action D)) :
    (forall t c, f_pending (firsts_from acts) t = Some c -> AInv t c ∈ acts) /\ (forall t c, (t, c) ∈ f_calls (firsts_from acts) -> AInv t c ∈ acts).
  Proof.
    induction acts as [|a acts [IH1 IH2]] using rev_ind; [split; [done|intros t c H; inversion H]|]. rewrite firsts_snoc.
    assert (Hin : forall t c, AInv t c ∈ acts -> AInv t c ∈ acts ++ [a]) by (intros; apply elem_of_app; by left).
    destruct a as [t0 c0|t0 i| | |]; simpl; try (split; intros; [by apply Hin, IH1|by apply Hin, IH2]).
    - split.
      + intros t c. destruct (decide (t = t0)) as [->|]; intros H; [injection H as ->; apply elem_of_app; right; by left|by apply Hin, IH1].
      + intros t c H. by apply Hin, IH2.
    - destruct (f_pending (firsts_from acts) t0) as [c0|] eqn:E; simpl; [|split; intros; [by apply Hin, IH1|by apply Hin, IH2]]. split.
      + intros t c. destruct (decide (t = t0)); [done|]. intros H. by apply Hin, IH1.
      + intros t c. rewrite elem_of_app. intros [H|H%elem_of_list_singleton]; [by apply Hin, IH2|]. injection H as -> ->. by apply Hin, IH1.
  Qed.
  Lemma last_set_in k (l : list (nat * call D)) d : last_set k l = Some d -> exists t, (t, CSet k d) ∈ l.
  Proof.
    induction l as [|[t c] l IH] using rev_ind; [done|]. rewrite last_set_snoc. intros H.
    assert (Hin : last_set k l = Some d -> exists t', (t', CSet k d) ∈ l ++ [(t, c)]).
    { intros [t' Ht']%IH. exists t'. apply elem_of_app. by left. }
    destruct c as [k0 d0| | |k0| | | |]; simpl in H; try (by apply Hin).
    - destruct (decide (k0 = k)) as [->|]; [|by apply Hin]. injection H as ->. exists t. apply elem_of_app. right. by left.
    - destruct (decide (k0 = k)) as [->|]; [done|by apply Hin].
  Qed.
  Lemma values mx ex acts g tr t k v d e : exec dnil (cinit mx ex) acts = Some (g, tr) -> Forall (stores_values load) acts ->
    LRet t (CGet k v) (RGet d e) ∈ tr.*1 -> d = dnil \/ d = load k.
  Proof.
    intros He Ha Hin. apply elem_of_list_fmap in Hin as ([l s] & Hl & Hin). simpl in Hl. subst l.
    apply elem_of_list_split in Hin as (tr1 & tr2 & Htr).
    destruct (exec_split dnil _ _ _ _ _ _ He Htr) as (acts1 & acts2 & g1 & -> & H1 & H2).
    destruct acts2 as [|a acts2]; [done|]. simpl in H2. destruct (cstep dnil g1 a) as [[g2 l]|] eqn:E; [|done].
    destruct (exec dnil g2 acts2) as [[g3 tr3]|]; [|done]. injection H2 as _ -> _ _.
    pose proof (cstep_label dnil _ _ _ _ E) as Hlab. destruct a as [| |t0| |]; try done. destruct Hlab as (c' & r' & [= <- _ _]).
    destruct e.
    - destruct (conc_get_invalid dnil _ _ _ _ _ _ _ _ _ _ H1 E) as [-> _]. by left.
    - destruct (hit_was_last_set dnil _ _ _ _ _ _ _ _ _ _ H1 E) as (pre & (x & y & post & -> & -> & _) & [->|Hset]); [by left|]. right.
      apply last_set_in in Hset as [t' Ht']. apply (proj2 (firsts_begun _)) in Ht'.
      rewrite Forall_forall in Ha. apply (Ha (AInv t' (CSet k d))). rewrite !elem_of_app in *. by left; left.
  Qed.

  (** ** All the clients may load *)
  Section Stampede.
    Variable k : bytes.
    Definition calm (t : nat) : input := Input (Pos.of_succ_nat t) 0 0 (fun _ => 0) None None None.
    Definition ask t : list (action D) := [AInv t (CGet k None); AStep t (calm t); ARet t].
    Definition asked t : list (label D) := [LInv t (CGet k None); LTau t; LRet t (CGet k None) (RGet dnil false)].
    Definition store t : list (action D) := [AInv t (CSet k (load k)); AStep t (calm t); ARet t].
    Definition stored t : list (label D) := [LInv t (CSet k (load k)); LTau t; LRet t (CSet k (load k)) RUnit].
    Definition asks (n : nat) := flat_map ask (seq 0 n). Definition askeds (n : nat) := flat_map asked (seq 0 n).
    Definition stores (n : nat) := flat_map store (seq 0 n). Definition storeds (n : nat) := flat_map stored (seq 0 n).
    Lemma fm_S {A} (f : nat -> list A) n : flat_map f (seq 0 (S n)) = flat_map f (seq 0 n) ++ f n.
    Proof. rewrite seq_S, flat_map_app. simpl. by rewrite app_nil_r. Qed.

    Lemma asks_run n : exists g tr, exec dnil (cinit 0 0) (asks n) = Some (g, tr) /\ tr.*1 = askeds n /\
      g_shared g = Shared 0 0 ∅ ∅ [] [] /\ forall t, g_threads g t = None.
    Proof.
      induction n as [|n (g & tr & He & Hl & Hs & Ht)]; [by exists (cinit 0 0), []|].
      destruct g as [s f]. simpl in Hs, Ht. subst s. eexists _, _. unfold asks, askeds. rewrite !fm_S, exec_app. fold (asks n). rewrite He.
      unfold ask. simpl. rewrite Ht. simpl. rewrite upd_same. simpl. rewrite lookup_empty. simpl. rewrite upd_same. simpl.
      split_and!; [reflexivity| |done|].
      - rewrite fmap_app, Hl. done.
      - intros t. simpl. unfold upd. destruct (decide (t = n)); [done|apply Ht].
    Qed.
    Lemma stores_run n (g0 : config D) : h_max (g_shared g0) = 0 -> h_heap (g_shared g0) = ∅ -> (forall t, g_threads g0 t = None) ->
      exists g tr, exec dnil g0 (stores n) = Some (g, tr) /\ tr.*1 = storeds n /\
      h_max (g_shared g) = 0 /\ (forall m, (n <= m)%nat -> h_heap (g_shared g) !! Pos.of_succ_nat m = None) /\ forall t, g_threads g t = None.
    Proof.
      intros H1 H2 H3. induction n as [|n (g & tr & He & Hl & Hm & Hh & Ht)].
      - exists g0, []. split_and!; try done. intros m _. by rewrite H2, lookup_empty.
      - destruct g as [s f]. simpl in Hm, Hh, Ht. eexists _, _. unfold stores, storeds. rewrite !fm_S, exec_app. fold (stores n). rewrite He.
        unfold store. simpl. rewrite Ht. simpl. rewrite upd_same. simpl. rewrite (Hh n) by lia.
        unfold cset, reads. simpl. rewrite Hm. rewrite bool_decide_eq_false_2 by lia. simpl. rewrite upd_same. simpl.
        split_and!; [reflexivity| |done| |].
        + rewrite fmap_app, Hl. done.
        + intros m Hle. simpl. rewrite lookup_insert_ne by lia. apply Hh. lia.
        + intros t. simpl. unfold upd. destruct (decide (t = n)); [done|apply Ht].
    Qed.
    Lemma storeds_split n a t k' d b : storeds n = a ++ LInv t (CSet k' d) :: b -> k' = k /\ d = load k /\ (t < n)%nat /\ Forall (fun l => ~ of_thread t l) a.
    Proof.
      revert b. induction n as [|n IH]; intros b; [by destruct a|]. unfold storeds. rewrite fm_S. fold (storeds n). intros H.
      assert (Hlow : forall m t, (m <= t)%nat -> Forall (fun l => ~ of_thread t l) (storeds m)).
      { induction m as [|m IHm]; intros t' Hle; [constructor|]. unfold storeds. rewrite fm_S. apply Forall_app. split; [apply IHm; lia|].
        repeat constructor; simpl; first [lia|tauto]. }
      apply app_eq_inv in H as [(c & H1 & H2)|(c & H1 & H2)].
      - destruct c as [|x c].
        + simpl in H2. injection H2 as -> -> -> _. rewrite app_nil_r in H1. subst a. split_and!; [done|done|lia|]. by apply Hlow.
        + simpl in H2. injection H2 as <- _. destruct (IH _ H1) as (-> & -> & Ht & Ha). split_and!; try done. lia.
      - destruct c as [|x c].
        + simpl in H2. injection H2 as -> -> -> _. rewrite app_nil_r in H1. subst a. split_and!; [done|done|lia|]. by apply Hlow.
        + exfalso. unfold stored in H2. destruct c as [|y [|z [|? ?]]]; simpl in H2; simplify_eq.
    Qed.
    Lemma askeds_at n t : (t < n)%nat -> exists x y, askeds n = x ++ LRet t (CGet k None) (RGet dnil false) :: y /\ Forall (fun l => ~ of_thread t l) y.
    Proof.
      induction n as [|n IH]; intros Hlt; [lia|]. unfold askeds. rewrite fm_S. fold (askeds n). destruct (decide (t = n)) as [->|Hne].
      - exists (askeds n ++ [LInv n (CGet k None); LTau n]), []. rewrite <- app_assoc. done.
      - destruct IH as (x & y & -> & Hy); [lia|]. exists x, (y ++ asked n). rewrite <- app_assoc. split; [done|]. apply Forall_app. split; [done|].
        repeat constructor; simpl; first [lia|tauto].
    Qed.
    Lemma askeds_no_set n a t k' d b : askeds n <> a ++ LInv t (CSet k' d) :: b.
    Proof.
      intros H. assert (Hin : LInv t (CSet k' d) ∈ askeds n) by (rewrite H; apply elem_of_app; right; by left).
      apply elem_of_list_In, in_flat_map in Hin as (m & _ & Hin). simpl in Hin. naive_solver.
    Qed.
    Lemma loaders_all n : loaders k (askeds n ++ storeds n) = seq 0 n.
    Proof.
      unfold loaders. rewrite omap_app.
      assert (H1 : forall f : label D -> option nat, (forall t, f (LInv t (CGet k None)) = None) -> (forall t, f (LTau t) = None) ->
        (forall t c r, f (LRet t c r) = None) -> omap f (askeds n) = []).
      { intros f F1 F2 F3. induction n as [|m IH]; [done|]. unfold askeds. rewrite fm_S, omap_app. fold (askeds m). rewrite IH. simpl. by rewrite F1, F2, F3. }
      rewrite H1 by done. simpl. clear H1. induction n as [|m IH]; [done|]. unfold storeds. rewrite fm_S, omap_app, seq_S. fold (storeds m). rewrite IH.
      simpl. by rewrite decide_True.
    Qed.
    Lemma stampede n : is_nil dnil = true -> exists acts g tr, exec dnil (cinit 0 0) acts = Some (g, tr) /\ Forall client_action acts /\
      on_demand is_nil load tr.*1 /\ (forall t c, LInv t c ∈ tr.*1 -> (t < n)%nat) /\ loaders k tr.*1 = seq 0 n.
    Proof.
      intros Hnil. destruct (asks_run n) as (g1 & tr1 & He1 & Hl1 & Hs1 & Ht1).
      destruct (stores_run n g1) as (g2 & tr2 & He2 & Hl2 & _); [by rewrite Hs1|by rewrite Hs1|done|].
      exists (asks n ++ stores n), g2, (tr1 ++ tr2). rewrite fmap_app, Hl1, Hl2. split_and!.
      - by rewrite exec_app, He1, He2.
      - apply Forall_forall. intros a. rewrite elem_of_app, !elem_of_list_In. unfold asks, stores. rewrite !in_flat_map.
        intros [(m & _ & H)|(m & _ & H)]; simpl in H; destruct H as [<-|[<-|[<-|[]]]]; simpl; auto.
      - intros a t k' d b Heq. apply app_eq_inv in Heq as [(c & H1 & H2)|(c & H1 & H2)].
        + destruct c as [|x c].
          * simpl in H2. destruct (storeds_split n [] t k' d b (eq_sym H2)) as (-> & -> & Hlt & _). split; [done|].
            destruct (askeds_at n t Hlt) as (x & y & H & Hy). exists x, None, dnil, false, y. rewrite app_nil_r in H1. by rewrite <- H1, H.
          * simpl in H2. injection H2 as <- _. by destruct (askeds_no_set _ _ _ _ _ _ H1).
        + destruct (storeds_split n c t k' d b H2) as (-> & -> & Hlt & Hc). split; [done|].
          destruct (askeds_at n t Hlt) as (x & y & H & Hy). exists x, None, dnil, false, (y ++ c). rewrite H1, H, <- app_assoc.
          split_and!; [done|done|]. by apply Forall_app.
      - intros t c. rewrite elem_of_app, !elem_of_list_In. unfold askeds, storeds. rewrite !in_flat_map.
        intros [(m & Hm & H)|(m & Hm & H)]; apply in_seq in Hm; simpl in H; destruct H as [H|[H|[H|[]]]]; try done; injection H as <- _; lia.
      - apply loaders_all.
    Qed.
  End Stampede.
End CrowdProofs2.
