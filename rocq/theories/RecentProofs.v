(** * Entries that are safe from eviction (C101). *)
From Verif Require Import GoBase CacheModel CacheSpec CacheProofs CacheProofs2 CacheProofs3 RecentSpec.
From Coq Require Import Lia ZifyBool ZifyNat.
Local Open Scope Z_scope.
Ltac Zify.zify_post_hook ::= Z.to_euclidean_division_equations.

Section Recent.
  Context {D : Type} (dnil : D).
  Implicit Types (k a b : bytes) (d : D) (c : cache D) (pile : list bytes) (items : gmap bytes (entry D)).
  Notation event := (op D * result D)%type.

  Lemma spares_plain M k tc (o : op D) : spares M k tc o -> plain_op o.
  Proof. destruct o; simpl; try done. lia. Qed.

  Lemma used_after_since b k (tr0 : list event) e tr : uses k e -> used_after b k (tr0 ++ e :: tr) -> used_after b k (e :: tr).
  Proof.
    intros Hk (tr1 & e1 & tr2 & Heq & H1 & H2 & H3).
    apply app_eq_inv in Heq as [(l & -> & Heq)|(l & -> & Heq)].
    - destruct l as [|x l]; simpl in Heq.
      + injection Heq as ? ?. subst. done.
      + injection Heq as ? ?. subst. exfalso. rewrite Forall_app, Forall_cons in H3. naive_solver.
    - exists l, e1, tr2. done.
  Qed.

  Lemma share_bound M (n : nat) (m : Z) : M <= m -> m <= Z.of_nat n -> (0 < n / 10)%nat ->
    safe_share M <= Z.of_nat n - Z.of_nat n / 10.
  Proof. unfold safe_share. lia. Qed.

  Definition stays M k d tc c : Prop :=
    (c_max c <= 0 \/ M <= c_max c) /\ exists rt, c_items c !! k = Some (Entry tc rt 0 d).

  Lemma spares_step M k d tc c tr o c' r : lru_inv c tr -> stays M k d tc c -> spares M k tc o ->
    recent k (safe_share M) (tr ++ [(o, r)]) -> step dnil c o = (c', r) -> stays M k d tc c'.
  Proof.
    intros (He & Hx & Ho) (Hm & rt & Hk) Hg (s & Hs1 & Hs2) Hs. destruct o; simpl in Hs, Hg.
    - (* Set *)
      rewrite set_split in Hs. simpl in Hs.
      destruct (exact_set c k0 d0 tc0 tr0 Hx) as [Hx1 Hpile]. rewrite Hpile in *.
      assert (Ho1 : ordered (remove_first k0 (c_pile c) ++ [k0]) (tr ++ [(OSet k0 d0 tc0 tr0 now, r)])).
      { apply ordered_touch; simpl; try done; apply Hx. }
      destruct (bool_decide (c_max c > 0 /\ _)) eqn:Hfull; [apply bool_decide_eq_true in Hfull|].
      + match type of Hs with context [mclean ?y 10 now] => set (c1 := y) in * end.
        destruct (mclean_exact c1 10 now He Hx1) as (i2 & Hmc & H2 & H3); [lia|].
        rewrite Hmc in Hs. simpl in Hs. injection Hs as <- <-. split; [done|]. exists rt. simpl. rewrite H3.
        rewrite decide_False; [simpl; by rewrite lookup_insert_ne|]. intros Hin.
        set (n := Z.to_nat _) in *.
        pose proof (exact_size _ _ Hx1) as Hl. change (size (c_items c1) = length (c_pile c1)) in Hl.
        assert (Hn : n = (length (c_pile c1) / 10)%nat).
        { unfold n. rewrite quota_div by lia. rewrite Hl. lia. }
        assert (Hsub : list_to_set (drop n (c_pile c1)) ⊆ s).
        { intros b Hb%elem_of_list_to_set. apply Hs1, Ho1. by eapply sublist_pair_take_drop. }
        apply subseteq_size in Hsub. rewrite size_list_to_set, drop_length in Hsub.
        * assert (0 < n)%nat by (destruct n; [by apply elem_of_nil in Hin|lia]).
          pose proof (share_bound M (length (c_pile c1)) (c_max c)) as Hb.
          destruct Hfull as [Hf1 Hf2]. change (Z.of_nat (size (c_items c1)) >= c_max c) in Hf2. lia.
        * apply H2.
      + injection Hs as <- <-. split; [done|]. exists rt. simpl. by rewrite lookup_insert_ne.
    - injection Hs as <- <-. unfold set_ttl. destruct (c_items c !! k0) as [y|] eqn:E; [|split; eauto].
      split; [done|]. exists rt. simpl. by rewrite lookup_insert_ne.
    - unfold get in Hs. destruct (c_items c !! k0) as [y|] eqn:E; [|injection Hs as <- <-; split; eauto].
      destruct (decide (k0 = k)) as [->|Hne].
      + rewrite Hk in E. injection E as <-. rewrite He in Hs.
        replace (rejected 0 v k _ t1 t2) with false in Hs.
        * injection Hs as <- <-. split; [done|]. simpl. rewrite lookup_insert. eauto.
        * unfold rejected. simpl. specialize (Hg eq_refl). unfold accepts in Hg.
          destruct v as [f|]; [rewrite Hg|]; done.
      + destruct (rejected _ _ _ _ _ _); injection Hs as <- <-; (split; [done|]; exists rt; simpl).
        * by rewrite lookup_delete_ne.
        * by rewrite lookup_insert_ne.
    - injection Hs as <- <-. split; [done|]. exists rt. simpl. by rewrite lookup_delete_ne.
    - injection Hs as <- <-. split; eauto.
    - rewrite mclean_noevict in Hs by lia. injection Hs as <- <-. rewrite He, purge_zero. split; eauto.
    - destruct Hg as (Hor & Ha). unfold verify in Hs. rewrite mclean_noevict in Hs by lia. rewrite He, purge_zero in Hs.
      destruct v as [f|]; [|injection Hs as <- <-; split; eauto].
      destruct (verify_loop _ _ _ _) as [c2 i2] eqn:E. injection Hs as <- <-.
      match type of E with verify_loop f _ ?y _ = _ => apply (verify_order_spec f order y) in E end; [|done].
      destruct E as (H1 & H2 & H3 & _). simpl in *. split; [by rewrite H1|].
      exists rt. rewrite H3, Hk. simpl. by rewrite Ha.
    - done.
    - injection Hs as <- <-. split; simpl; eauto.
    - injection Hs as <- <-. split; simpl; eauto.
  Qed.

  Lemma spares_run M k d tc e c tr ops c' tr' : uses k e -> lru_inv c (tr ++ [e]) -> stays M k d tc c -> Forall (spares M k tc) ops ->
    run dnil c ops = (c', tr') -> (forall p, p `prefix_of` tr' -> recent k (safe_share M) (e :: p)) -> stays M k d tc c' /\ lru_inv c' (tr ++ e :: tr').
  Proof.
    intros He. revert c' tr'. induction ops as [|o ops IH] using rev_ind; intros c' tr' Hl Hst Hf Hr Hp.
    { simpl in Hr. by simplify_eq. }
    rewrite run_snoc in Hr. destruct (run dnil c ops) as [c1 tr1] eqn:E1. destruct (step dnil c1 o) as [c2 r] eqn:E2. simplify_eq.
    apply Forall_app in Hf as [Hf Ho]. apply Forall_cons in Ho as [Ho _].
    destruct (IH c1 tr1) as [Hst1 Hl1]; try done.
    { intros p Hpp. apply Hp. by apply prefix_app_r. }
    split.
    - eapply spares_step; [exact Hl1|exact Hst1|exact Ho| |exact E2].
      destruct (Hp (tr1 ++ [(o, r)])) as (s & Hs1 & Hs2); [reflexivity|]. exists s. split; [|done].
      intros b Hb. apply Hs1. eapply used_after_since; [done|]. by rewrite <- app_assoc in Hb.
    - change (e :: tr1 ++ [(o, r)]) with ((e :: tr1) ++ [(o, r)]). rewrite app_assoc.
      eapply lru_step; [done|by eapply spares_plain|done].
  Qed.

  Lemma recent_is_kept mx M ops1 ops2 c0 tr0 k d tc t now c e tr v t1 t2 t3 :
    Forall plain_op ops1 -> run dnil (new_cache mx 0) ops1 = (c0, tr0) -> c_max c0 <= 0 \/ M <= c_max c0 ->
    Forall (spares M k tc) ops2 -> run dnil c0 (OSet k d tc t now :: ops2) = (c, e :: tr) ->
    (forall p, p `prefix_of` tr -> recent k (safe_share M) (e :: p)) -> accepts v k tc ->
    (step dnil c (OGet k v t1 t2 t3)).2 = RGet d false.
  Proof.
    intros Hpl H1 Hm Hsp H2 Hrec Hv. simpl in H2.
    destruct (set c0 k d tc t now) as [c1 r1] eqn:E1. destruct (run dnil c1 ops2) as [c2 tr2] eqn:E2. simplify_eq.
    pose proof (lru_run dnil _ _ _ _ Hpl H1) as Hl0.
    assert (Hk1 : c_items c1 !! k = Some (Entry tc t 0 d)) by (eapply set_kept_plain; [exact Hpl|exact H1|exact E1]).
    assert (Hl1 : lru_inv c1 (tr0 ++ [(OSet k d tc t now, r1)])) by (eapply (lru_step dnil); [done|done|exact E1]).
    assert (Hm1 : c_max c1 = c_max c0).
    { revert E1. rewrite set_split. simpl. destruct (bool_decide (c_max c0 > 0 /\ _)); [|intros H'; by injection H' as <- <-].
      destruct Hl0 as (He0 & Hx0 & _). destruct (exact_set c0 k d tc t Hx0) as [Hx1 _].
      match goal with |- context [mclean ?y 10 now] => set (cc := y) in * end.
      destruct (mclean_exact cc 10 now He0 Hx1) as (i2 & Hmc & _); [lia|].
      rewrite Hmc. intros H'. by injection H' as <- <-. }
    destruct (spares_run M k d tc (OSet k d tc t now, r1) c1 tr0 ops2 c tr) as [(_ & rt & Hk) (He & _ & _)]; try done.
    { split; [by rewrite Hm1|]. by exists t. }
    simpl. unfold get. rewrite Hk, He. replace (rejected 0 v k (Entry tc rt 0 d) t1 t2) with false; [done|].
    unfold rejected. simpl. unfold accepts in Hv. destruct v as [f|]; [rewrite Hv|]; done.
  Qed.

  (** ** The bound is exact *)
  Definition key_ (i : nat) : bytes := replicate i "a"%char.
  Definition fill (d : D) (i n : nat) : list (op D) := (fun i => OSet (key_ i) d 0 0 zero_clock) <$> seq i n.
  Lemma key_inj i j : key_ i = key_ j -> i = j.
  Proof. intros H%(f_equal length). unfold key_ in H. by rewrite !replicate_length in H. Qed.
  Lemma keys_nodup i n : NoDup (key_ <$> seq i n).
  Proof. apply NoDup_fmap_2; [intros ???; by apply key_inj|apply NoDup_seq]. Qed.

  Lemma fill_small M d n c tr : Z.of_nat n < Z.max M 10 -> run dnil (new_cache M 0) (fill d 0 n) = (c, tr) ->
    c_max c = M /\ c_expire c = 0 /\ c_pile c = key_ <$> seq 0 n /\ forall j, (j < n)%nat <-> is_Some (c_items c !! key_ j).
  Proof.
    revert c tr. induction n as [|n IH]; intros c tr Hn Hr.
    { simpl in Hr. injection Hr as <- <-. simpl. split_and!; try done. intros j. rewrite lookup_empty. split; [lia|by intros []]. }
    unfold fill in Hr. rewrite seq_S, fmap_app in Hr. simpl in Hr. rewrite run_snoc in Hr.
    destruct (run dnil (new_cache M 0) _) as [c1 tr1] eqn:E1. destruct (IH c1 tr1) as (Hm & He & Hp & Hi); [lia|done|].
    assert (Hl1 : lru_inv c1 tr1).
    { eapply lru_run; [|exact E1]. unfold fill. apply Forall_fmap, Forall_true. done. }
    destruct Hl1 as (_ & Hx & _).
    assert (Hnew : c_items c1 !! key_ n = None).
    { destruct (c_items c1 !! key_ n) eqn:E; [|done]. assert (n < n)%nat; [|lia]. apply Hi. eauto. }
    destruct (step dnil c1 _) as [c2 r] eqn:E2. simplify_eq. simpl in E2. rewrite set_split in E2. simpl in E2.
    rewrite (bool_decide_eq_false_2 (is_Some (c_items c1 !! key_ n))) in E2 by (rewrite Hnew; by intros []).
    destruct (exact_set c1 (key_ n) d 0 0 Hx) as [Hx1 Hpile]. rewrite (bool_decide_eq_false_2 (is_Some (c_items c1 !! key_ n))) in Hx1 by (rewrite Hnew; by intros []).
    assert (Hits : forall j, (j < S n)%nat <-> is_Some (<[key_ n := Entry 0 0 0 d]> (c_items c1) !! key_ j)).
    { intros j. destruct (decide (j = n)) as [->|Hne].
      - rewrite lookup_insert. split; [eauto|lia].
      - rewrite lookup_insert_ne by (intros ?%key_inj; done). rewrite <- Hi. lia. }
    assert (Hpl : c_pile c1 ++ [key_ n] = key_ <$> seq 0 (S n)).
    { rewrite seq_S, fmap_app, Hp. done. }
    rewrite seq_S, fmap_app. simpl. rewrite <- Hp.
    destruct (bool_decide (c_max c1 > 0 /\ _)) eqn:Hfull; [apply bool_decide_eq_true in Hfull|by injection E2 as <- <-].
    match type of E2 with context [mclean ?y 10 _] => set (cc := y) in * end.
    destruct (mclean_exact cc 10 zero_clock He Hx1) as (i2 & Hmc & _ & H3); [lia|]. rewrite Hmc in E2. simpl in E2. injection E2 as <- <-. simpl.
    assert (Hsz : size (c_items cc) = S n).
    { pose proof (exact_size _ _ Hx1) as Hsz. rewrite Hpl, fmap_length, seq_length in Hsz. exact Hsz. }
    assert (Hq : Z.to_nat (quota (Z.of_nat (size (c_items cc))) 10) = 0%nat).
    { rewrite Hsz, quota_div by lia. destruct Hfull as [Hf1 Hf2]. change (Z.of_nat (size (c_items cc)) >= c_max c1) in Hf2. lia. }
    change (size (<[key_ n:=Entry 0 0 0 d]> (c_items c1))) with (size (c_items cc)) in *.
    rewrite Hq in H3 |- *. split_and!; try done. intros j. rewrite H3, decide_False by apply not_elem_of_nil. apply Hits.
  Qed.

  Lemma safe_share_exact M d : exists ops1 k ops2,
    Forall (fun o => exists b, b <> k /\ o = OSet b d 0 0 zero_clock) ops2 /\ Z.of_nat (length ops2) = safe_share M /\
    forall v t1 t2 t3, 0 < M -> (step dnil (run dnil (new_cache M 0) (ops1 ++ OSet k d 0 0 zero_clock :: ops2)).1 (OGet k v t1 t2 t3)).2 = RGet dnil false.
  Proof.
    set (N := Z.to_nat (Z.max M 10)). set (q := (N / 10)%nat).
    assert (1 <= q)%nat by (unfold q, N; lia). assert (q <= N)%nat by (unfold q; lia).
    exists (fill d 0 (q - 1)), (key_ (q - 1)), (fill d q (N - q)). split_and!.
    - unfold fill. apply Forall_fmap, Forall_forall. intros i Hi%elem_of_seq. exists (key_ i). split; [|done].
      intros ?%key_inj. lia.
    - unfold fill. rewrite fmap_length, seq_length. unfold safe_share, q, N. lia.
    - intros v t1 t2 t3 HM. rewrite get_absent; [done|].
      assert (Hops : fill d 0 (q - 1) ++ OSet (key_ (q - 1)) d 0 0 zero_clock :: fill d q (N - q) = fill d 0 (N - 1) ++ [OSet (key_ (N - 1)) d 0 0 zero_clock]).
      { unfold fill. transitivity ((fun i => OSet (key_ i) d 0 0 zero_clock) <$> seq 0 N).
        - replace N with ((q - 1) + S (N - q))%nat at 2 by lia. rewrite seq_app, fmap_app. f_equal. simpl. repeat f_equal. lia.
        - replace N with (S (N - 1)) at 1 by lia. rewrite seq_S, fmap_app. done. }
      rewrite Hops, run_snoc. destruct (run dnil (new_cache M 0) (fill d 0 (N - 1))) as [c1 tr1] eqn:E1.
      destruct (fill_small M d (N - 1) c1 tr1) as (Hm & He & Hp & Hi); [unfold N; lia|done|].
      assert (Hl1 : lru_inv c1 tr1).
      { eapply lru_run; [|exact E1]. unfold fill. apply Forall_fmap, Forall_true. done. }
      destruct Hl1 as (_ & Hx & _).
      assert (Hnew : c_items c1 !! key_ (N - 1) = None).
      { destruct (c_items c1 !! key_ (N - 1)) eqn:E; [|done]. assert (N - 1 < N - 1)%nat; [|lia]. apply Hi. eauto. }
      destruct (step dnil c1 _) as [c2 r] eqn:E2. simpl in E2 |- *. rewrite set_split in E2. simpl in E2.
      rewrite (bool_decide_eq_false_2 (is_Some (c_items c1 !! key_ (N - 1)))) in E2 by (rewrite Hnew; by intros []).
      destruct (exact_set c1 (key_ (N - 1)) d 0 0 Hx) as [Hx1 Hpile]. rewrite (bool_decide_eq_false_2 (is_Some (c_items c1 !! key_ (N - 1)))) in Hx1 by (rewrite Hnew; by intros []).
      assert (Hpl : c_pile c1 ++ [key_ (N - 1)] = key_ <$> seq 0 N).
      { replace N with (S (N - 1)) at 2 by lia. rewrite seq_S, fmap_app, Hp. done. }
      match type of E2 with context [mclean ?y 10 _] => set (cc := y) in * end.
      assert (Hsz : size (c_items cc) = N).
      { pose proof (exact_size _ _ Hx1) as Hsz. rewrite Hpl, fmap_length, seq_length in Hsz. exact Hsz. }
      change (size (<[key_ (N - 1) := Entry 0 0 0 d]> (c_items c1))) with (size (c_items cc)) in *.
      rewrite (bool_decide_eq_true_2 (c_max c1 > 0 /\ _)) in E2 by (rewrite Hsz, Hm; unfold N; lia).
      destruct (mclean_exact cc 10 zero_clock He Hx1) as (i2 & Hmc & _ & H3); [lia|]. rewrite Hmc in E2. simpl in E2. injection E2 as <- <-. simpl.
      rewrite H3, decide_True; [done|]. change (c_pile cc) with (c_pile c1 ++ [key_ (N - 1)]). rewrite Hpl, Hsz.
      replace (Z.to_nat (quota (Z.of_nat N) 10)) with q by (rewrite quota_div by lia; unfold q; lia).
      rewrite <- fmap_take. apply elem_of_list_fmap. exists (q - 1)%nat. split; [done|].
      replace N with (q + (N - q))%nat by lia. rewrite seq_app, take_app_alt by (by rewrite seq_length).
      apply elem_of_seq. lia.
  Qed.
End Recent.

(** With a fixed set of other keys. *)
Lemma few_others_kept {D} (dnil : D) mx M ops1 ops2 c0 tr0 k d tc t now c e tr v t1 t2 t3 :
  Forall plain_op ops1 -> run dnil (new_cache mx 0) ops1 = (c0, tr0) -> c_max c0 <= 0 \/ M <= c_max c0 ->
  Forall (spares M k tc) ops2 -> run dnil c0 (OSet k d tc t now :: ops2) = (c, e :: tr) ->
  few_others k (safe_share M) tr -> accepts v k tc ->
  (step dnil c (OGet k v t1 t2 t3)).2 = RGet d false.
Proof.
  intros Hpl H1 Hm Hsp H2 (s & Hs & Hlt) Hv. eapply (recent_is_kept dnil mx M); try done.
  assert (He : uses k e).
  { simpl in H2. destruct (set c0 k d tc t now), (run dnil _ ops2). by simplify_eq. }
  intros p [q ->]. exists s. split; [|done].
  intros b (tr1 & e1 & tr2 & Heq & Hu & Hnu & _). destruct tr1 as [|x tr1]; simpl in Heq; injection Heq as ? ?; subst; [done|].
  apply (Hs e1); [|done|].
  - apply elem_of_app. left. apply elem_of_app. right. left.
  - intros ->. done.
Qed.
