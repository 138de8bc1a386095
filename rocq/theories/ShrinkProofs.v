(** * Changing Maxitems of a cache in use. *)
From Verif Require Import GoBase CacheModel CacheSpec CacheProofs CacheProofs2.
From Coq Require Import Lia.
Local Open Scope Z_scope.

Section Shrink.
  Context {D : Type} (dnil : D).
  Implicit Types (c : cache D) (o : op D).
  (** The number of calls of Set. *)
  Fixpoint sets (ops : list (op D)) : Z :=
    match ops with [] => 0 | OSet _ _ _ _ _ :: ops' => 1 + sets ops' | _ :: ops' => sets ops' end.

  Lemma shrink_step mx c tr o c' r :
    0 < mx -> lru_inv c tr -> c_max c = mx -> plain_op o -> max_untouched o -> step dnil c o = (c', r) ->
    c_max c' = mx /\ Z.of_nat (size (c_items c')) <= Z.max (Z.max (mx - 1) 18) (Z.of_nat (size (c_items c)) - sets [o]).
  Proof.
    intros Hmx (He & Hx & Ho) Hm Hp Hmu Hs. destruct o; simpl in Hs; try done; cbn [sets].
    - rewrite set_split in Hs. simpl in Hs. destruct (exact_set c k d tc tr0 Hx) as [Hx1 _].
      pose proof (size_insert_le (c_items c) k (Entry tc tr0 0 d)) as Hle.
      set (c1 := Cache (c_max c) (c_expire c) (<[k := Entry tc tr0 0 d]> (c_items c)) _) in Hs.
      change (size (c_items c1) <= S (size (c_items c)))%nat in Hle.
      destruct (bool_decide (c_max c > 0 /\ _)) eqn:Hcl;
        [apply bool_decide_eq_true in Hcl as [_ Hcl]|apply bool_decide_eq_false in Hcl].
      + destruct (mclean_exact c1 10 now He Hx1) as (i2 & Hmm & H2 & _); [lia|].
        rewrite Hmm in Hs. simpl in Hs. injection Hs as <- <-. simpl. split; [done|].
        rewrite (exact_size _ _ H2), drop_length. pose proof (exact_size _ _ Hx1) as Hl.
        change (size (c_items c1) = length (c_pile c1)) in Hl.
        rewrite <- Hl. rewrite quota_div by lia. lia.
      + injection Hs as <- <-. split; [done|]. change (~ (c_max c > 0 /\ Z.of_nat (size (c_items c1)) >= c_max c)) in Hcl.
        lia.
    - simplify_eq. unfold set_ttl. destruct (c_items c !! k) as [x|] eqn:E; [|split; [done|lia]].
      simpl. split; [done|]. rewrite map_size_insert_Some by eauto. lia.
    - unfold get in Hs. destruct (c_items c !! k) as [x|] eqn:E; [|simplify_eq; split; [done|lia]].
      destruct (rejected _ _ _ _ _ _); simplify_eq; simpl; (split; [done|]).
      + pose proof (size_delete _ _ _ E). lia.
      + rewrite map_size_insert_Some by eauto. lia.
    - simplify_eq. simpl. split; [done|]. destruct (c_items c !! k) as [x|] eqn:E.
      + pose proof (size_delete _ _ _ E). lia.
      + rewrite map_size_delete_None by done. lia.
    - simplify_eq. split; [done|lia].
    - destruct (mclean_exact c perc now He Hx ltac:(simpl in Hp; lia)) as (i2 & Hmm & H2 & _).
      rewrite Hmm in Hs. simplify_eq. simpl. split; [done|].
      rewrite (exact_size _ _ H2), drop_length. pose proof (exact_size _ _ Hx). lia.
    - unfold verify in Hs. rewrite mclean_noevict in Hs by lia. rewrite He, purge_zero in Hs.
      destruct v as [f|]; [|simplify_eq; split; [done|simpl; lia]].
      set (c1 := Cache (c_max c) 0 (c_items c) (c_pile c)) in *.
      destruct (verify_loop_pile f (order (c_items c1)) c1 0) as (H1 & H2 & H3 & H4 & H5).
      destruct (verify_loop f _ c1 0) as [c2 i2]. simpl in *. simplify_eq. split; [done|]. lia.
    - simplify_eq. split; [done|simpl; lia].
  Qed.

  Lemma sets_nonneg ops : 0 <= sets ops.
  Proof. induction ops as [|[] ops IH]; cbn [sets]; lia. Qed.
  Lemma shrink_from mx ops : forall c tr0 c' tr, 0 < mx -> lru_inv c tr0 -> c_max c = mx ->
    Forall (fun o => plain_op o /\ max_untouched o) ops -> run dnil c ops = (c', tr) ->
    Z.of_nat (size (c_items c')) <= Z.max (Z.max (mx - 1) 18) (Z.of_nat (size (c_items c)) - sets ops).
  Proof.
    induction ops as [|o ops IH]; intros c tr0 c' tr Hmx Hl Hm Hf Hr; simpl in Hr.
    - injection Hr as <- <-. simpl. lia.
    - apply Forall_cons in Hf as [[Hp Hu] Hf]. destruct (step dnil c o) as [c1 r] eqn:E.
      destruct (run dnil c1 ops) as [c2 tr2] eqn:E2. injection Hr as <- <-.
      destruct (shrink_step mx c tr0 o c1 r Hmx Hl Hm Hp Hu E) as [H1 H2].
      pose proof (IH c1 (tr0 ++ [(o, r)]) c2 tr2 Hmx (lru_step _ _ _ _ _ _ Hl Hp E) H1 Hf E2) as H3.
      assert (sets (o :: ops) = sets [o] + sets ops) as -> by (destruct o; cbn [sets]; lia). pose proof (sets_nonneg ops). lia.
  Qed.

  Lemma shrink_run mx0 mx ops1 ops2 c1 tr1 c2 tr2 : 0 < mx ->
    Forall plain_op ops1 -> Forall (fun o => plain_op o /\ max_untouched o) ops2 ->
    run dnil (new_cache mx0 0) ops1 = (c1, tr1) -> run dnil c1 (OMax mx :: ops2) = (c2, tr2) ->
    Z.of_nat (size (c_items c2)) <= Z.max (Z.max (mx - 1) 18) (Z.of_nat (size (c_items c1)) - sets ops2).
  Proof.
    intros Hmx Hf1 Hf2 H1 H2. simpl in H2.
    destruct (run dnil (Cache mx (c_expire c1) (c_items c1) (c_pile c1)) ops2) as [c3 tr3] eqn:E. injection H2 as <- <-.
    apply (shrink_from mx ops2 (Cache mx (c_expire c1) (c_items c1) (c_pile c1)) (tr1 ++ [(OMax mx, RUnit)]) c3 tr3); try done.
    refine (lru_step dnil c1 tr1 (OMax mx) _ RUnit _ I eq_refl). by eapply lru_run.
  Qed.

  (** A Set of a new key when the cache has 10 to 18 entries and the limit is reached. *)
  Lemma stuck_step c tr k d tc t now c' r : lru_inv c tr -> c_items c !! k = None ->
    9 <= Z.of_nat (size (c_items c)) <= 18 -> 0 < c_max c <= Z.of_nat (size (c_items c)) + 1 ->
    step dnil c (OSet k d tc t now) = (c', r) ->
    c_max c' = c_max c /\ size (c_items c') = size (c_items c) /\
    forall k', is_Some (c_items c' !! k') -> k' = k \/ is_Some (c_items c !! k').
  Proof.
    intros (He & Hx & Ho) Hk Hn Hm Hs. simpl in Hs. rewrite set_split in Hs. simpl in Hs. destruct (exact_set c k d tc t Hx) as [Hx1 _].
    assert (Hsz : size (<[k := Entry tc t 0 d]> (c_items c)) = S (size (c_items c))) by (by apply map_size_insert_None).
    rewrite bool_decide_true in Hs by (rewrite Hsz; lia).
    set (c1 := Cache (c_max c) (c_expire c) (<[k := Entry tc t 0 d]> (c_items c)) _) in Hs.
    destruct (mclean_exact c1 10 now He Hx1) as (i2 & Hmm & H2 & H3); [lia|].
    rewrite Hmm in Hs. simpl in Hs. injection Hs as <- <-. simpl. split; [done|].
    assert (Hq : Z.to_nat (quota (Z.of_nat (size (c_items c1))) 10) = 1%nat).
    { change (c_items c1) with (<[k := Entry tc t 0 d]> (c_items c)). rewrite Hsz, quota_div by lia.
      assert (Z.of_nat (S (size (c_items c))) * 10 / 100 = 1); [|lia]. symmetry; apply Z.div_unique with (Z.of_nat (S (size (c_items c))) * 10 - 100); lia. }
    rewrite Hq in H2, H3. split.
    - rewrite (exact_size _ _ H2), drop_length. pose proof (exact_size _ _ Hx1) as Hl. rewrite Hsz in Hl.
      change (length (c_pile c1)) with (length ((if bool_decide (is_Some (c_items c !! k)) then remove_first k (c_pile c) else c_pile c) ++ [k])).
      lia.
    - intros k' Hk'. rewrite H3 in Hk'. destruct (decide _); [by destruct Hk'|].
      change (c_items c1) with (<[k := Entry tc t 0 d]> (c_items c)) in Hk'. destruct (decide (k' = k)) as [->|]; [by left|right].
      by rewrite lookup_insert_ne in Hk'.
  Qed.
  Definition akey (i : nat) : bytes := replicate i "a"%char.
  Lemma akey_length i : length (akey i) = i.
  Proof. apply replicate_length. Qed.
  Definition fresh_sets (d : D) (i n : nat) : list (op D) := (fun i => OSet (akey i) d 0 0 (fun _ => 0)) <$> seq i n.
  Lemma stuck_from d n : forall c tr i c' tr', lru_inv c tr -> (forall k : bytes, is_Some (c_items c !! k) -> (length k < i)%nat) ->
    9 <= Z.of_nat (size (c_items c)) <= 18 -> 0 < c_max c <= Z.of_nat (size (c_items c)) + 1 ->
    run dnil c (fresh_sets d i n) = (c', tr') -> size (c_items c') = size (c_items c).
  Proof.
    induction n as [|n IH]; intros c tr i c' tr' Hl Hk Hn Hm Hr; simpl in Hr; [by injection Hr as <- <-|].
    destruct (set c (akey i) d 0 0 (fun _ => 0)) as [c1 r] eqn:E.
    destruct (run dnil c1 _) as [c2 tr2] eqn:E2. injection Hr as <- <-.
    destruct (stuck_step c tr (akey i) d 0 0 (fun _ => 0) c1 r) as (H1 & H2 & H3); try done.
    { destruct (c_items c !! akey i) eqn:Ek; [|done]. exfalso.
      assert (Hlt := Hk _ (mk_is_Some _ _ Ek)). rewrite akey_length in Hlt. lia. }
    rewrite <- H2. eapply (IH c1 (tr ++ [(OSet (akey i) d 0 0 (fun _ => 0), r)]) (S i)); [| | | |exact E2].
    - by eapply (lru_step dnil).
    - intros k Hin. destruct (H3 k Hin) as [->|Hin']; [rewrite akey_length; lia|]. specialize (Hk _ Hin'). lia.
    - lia.
    - rewrite H1, H2. lia.
  Qed.
  Lemma fresh_plain d i n : Forall plain_op (fresh_sets d i n).
  Proof. apply Forall_fmap, Forall_forall. by intros. Qed.
  Lemma fill_from d n : forall c i c' tr', (forall k : bytes, is_Some (c_items c !! k) -> (length k < i)%nat) ->
    Z.of_nat (size (c_items c)) + Z.of_nat n < c_max c -> run dnil c (fresh_sets d i n) = (c', tr') ->
    size (c_items c') = (size (c_items c) + n)%nat /\ forall k : bytes, is_Some (c_items c' !! k) -> (length k < i + n)%nat.
  Proof.
    induction n as [|n IH]; intros c i c' tr' Hk Hm Hr.
    - simpl in Hr. injection Hr as <- <-. split; [lia|]. intros k Hin. rewrite Nat.add_0_r. by apply Hk.
    - change (fresh_sets d i (S n)) with (OSet (akey i) d 0 0 (fun _ => 0) :: fresh_sets d (S i) n) in Hr.
      cbn [run step] in Hr. unfold set in Hr. cbv zeta in Hr.
      assert (Hn : c_items c !! akey i = None).
      { destruct (c_items c !! akey i) eqn:Ek; [|done]. exfalso.
        assert (Hlt := Hk _ (mk_is_Some _ _ Ek)). rewrite akey_length in Hlt. lia. }
      assert (Hsz : size (<[akey i := Entry 0 0 0 d]> (c_items c)) = S (size (c_items c))) by (by apply map_size_insert_None).
      rewrite (bool_decide_false (c_max c > 0 /\ _)) in Hr by (rewrite Hsz; lia).
      destruct (run dnil _ (fresh_sets d (S i) n)) as [c2 tr2] eqn:E. injection Hr as <- <-.
      apply IH in E; cbn [c_items c_max] in *.
      + destruct E as [E1 E2]. rewrite Hsz in E1. split; [lia|]. intros k Hin. specialize (E2 k Hin). lia.
      + intros k Hin. destruct (decide (k = akey i)) as [->|Hne]; [rewrite akey_length; lia|].
        rewrite lookup_insert_ne in Hin by done. specialize (Hk k Hin). lia.
      + rewrite Hsz. lia.
  Qed.
  Lemma stuck d N : exists ops1 ops2,
    Forall (fun o => exists k, o = OSet k d 0 0 (fun _ => 0)) (ops1 ++ ops2) /\ length ops2 = N /\
    (step dnil (run dnil (new_cache 100 0) (ops1 ++ OMax 10 :: ops2)).1 OCount).2 = RInt 18.
  Proof.
    exists (fresh_sets d 0 18), (fresh_sets d 18 N). split_and!.
    - apply Forall_app. split; apply Forall_fmap, Forall_forall; intros; simpl; eauto.
    - unfold fresh_sets. by rewrite fmap_length, seq_length.
    - rewrite run_app. destruct (run dnil (new_cache 100 0) (fresh_sets d 0 18)) as [c1 tr1] eqn:E1.
      assert (Hl := lru_run dnil 100 _ _ _ (fresh_plain d 0 18) E1).
      assert (Hs : size (c_items c1) = 18%nat /\ forall k : bytes, is_Some (c_items c1 !! k) -> (length k < 18)%nat).
      { apply (fill_from d 18 _ 0) in E1; [|by intros k [? ?]|simpl; rewrite map_size_empty; lia]. simpl in E1. by rewrite map_size_empty in E1. }
      destruct Hs as [Hs1 Hs2]. cbn [run step].
      destruct (run dnil (Cache 10 (c_expire c1) (c_items c1) (c_pile c1)) (fresh_sets d 18 N)) as [c2 tr2] eqn:E2. simpl.
      assert (Hl2 : lru_inv (Cache 10 (c_expire c1) (c_items c1) (c_pile c1)) (tr1 ++ [(OMax 10, RUnit)])).
      { refine (lru_step dnil c1 tr1 (OMax 10) _ RUnit Hl I eq_refl). }
      clear E1 Hl. pose proof (stuck_from d N _ _ 18 c2 tr2 Hl2 Hs2) as H. cbn [c_items c_max] in H. rewrite Hs1 in H.
      rewrite H; [reflexivity|lia|lia|exact E2].
  Qed.

  (** Below the limit nothing is lost. *)
  Lemma roomy ops : forall c c' tr, Forall (fun o => exists k d tc t now, o = OSet k d tc t now) ops ->
    (c_max c <= 0 \/ Z.of_nat (size (c_items c)) + Z.of_nat (length ops) < c_max c) -> run dnil c ops = (c', tr) ->
    (forall k, is_Some (c_items c !! k) -> is_Some (c_items c' !! k)) /\
    (forall k d tc t now, OSet k d tc t now ∈ ops -> is_Some (c_items c' !! k)).
  Proof.
    induction ops as [|o ops IH]; intros c c' tr Hf Hm Hr; simpl in Hr.
    - injection Hr as <- <-. split; [done|]. intros. by apply elem_of_nil in H.
    - apply Forall_cons in Hf as [(k & d & tc & t & now & ->) Hf]. simpl in Hr. unfold set in Hr. cbv zeta in Hr.
      pose proof (size_insert_le (c_items c) k (Entry tc t 0 d)) as Hle.
      rewrite bool_decide_false in Hr by (simpl in Hm; lia).
      destruct (run dnil _ ops) as [c2 tr2] eqn:E. injection Hr as <- <-.
      apply (IH _ _ _ Hf) in E; [|cbn [c_max c_items]; cbn [length] in Hm; lia]. destruct E as [H1 H2]. cbn [c_items] in H1. split.
      + intros k' Hk'. apply H1. destruct (decide (k' = k)) as [->|]; [by rewrite lookup_insert|by rewrite lookup_insert_ne].
      + intros k' d' tc' t' now' Hin. apply elem_of_cons in Hin as [[= -> -> -> -> ->]|Hin]; [|by eapply H2]. apply H1. by rewrite lookup_insert.
  Qed.
  Lemma raised mx0 mx ops1 ops2 c1 tr1 c2 tr2 :
    Forall (fun o => exists k d tc t now, o = OSet k d tc t now) ops2 ->
    run dnil (new_cache mx0 0) ops1 = (c1, tr1) -> run dnil c1 (OMax mx :: ops2) = (c2, tr2) ->
    mx <= 0 \/ Z.of_nat (size (c_items c1)) + Z.of_nat (length ops2) < mx ->
    (forall k, is_Some (c_items c1 !! k) -> is_Some (c_items c2 !! k)) /\
    (forall k d tc t now, OSet k d tc t now ∈ ops2 -> is_Some (c_items c2 !! k)).
  Proof.
    intros Hf H1 H2 Hm. simpl in H2. destruct (run dnil _ ops2) as [c3 tr3] eqn:E. injection H2 as <- <-.
    apply (roomy ops2 _ _ _ Hf) in E; [done|]. done.
  Qed.
End Shrink.
