(** * Validators that use the cache: proofs. *)
From Verif Require Import GoBase CacheModel CacheSpec CacheProofs CacheProofs2 ReentModel ReentSpec.
From Coq Require Import Lia.
Local Open Scope Z_scope.

Section ReentProofs.
  Context {D : Type} (dnil : D).
  Implicit Types (c : cache D) (o : vop D) (v : option (vfun D)).

  (** ** Ordinary validators *)
  Lemma rget_pure n (f : option (bytes -> Z -> bool)) c k t1 t2 t3 :
    rget dnil (S n) (option_map pure_validator f) c k t1 t2 t3 = Some (get dnil c k f t1 t2 t3).
  Proof.
    cbn [rget]. unfold get. destruct (c_items c !! k) as [x|] eqn:E; [|done]. unfold rejected.
    destruct (negb _ && before_now _ _ t1); [done|]. destruct f as [f|]; simpl.
    - destruct (f k (e_ctime x)); simpl; [|done]. destruct (negb _ && before_now _ _ t2); [done|]. unfold touch. by rewrite E.
    - destruct (negb _ && before_now _ _ t2); [done|]. unfold touch. by rewrite E.
  Qed.
  Lemma rrun_pure n (f : option (bytes -> Z -> bool)) ops : forall c,
    rrun dnil (S n) (option_map pure_validator f) c ops =
    Some ((run dnil c (plain_call f <$> ops)).1, zip ops (run dnil c (plain_call f <$> ops)).2.*2).
  Proof.
    induction ops as [|o ops IH]; intros c; [done|].
    assert (Hs : vstep dnil (rget dnil (S n) (option_map pure_validator f)) c o = Some (step dnil c (plain_call f o))).
    { destruct o; try done. apply rget_pure. }
    cbn [rrun]. rewrite Hs. rewrite fmap_cons. cbn [run]. destruct (step dnil c (plain_call f o)) as [c1 r].
    rewrite IH. by destruct (run dnil c1 (plain_call f <$> ops)) as [c2 tr].
  Qed.

  (** ** Whatever the validator does *)
  Lemma rget_hit n v c k t1 t2 t3 c' d : rget dnil n v c k t1 t2 t3 = Some (c', RGet d false) ->
    (exists x, c_items c !! k = Some x /\ d = e_data x) \/ (c_items c !! k = None /\ d = dnil /\ c' = c).
  Proof.
    destruct n as [|n]; [done|]. cbn [rget]. destruct (c_items c !! k) as [x|] eqn:E.
    - destruct (negb _ && before_now _ _ t1); [by intros [= <-]|].
      destruct (match v with None => _ | Some f => _ end) as [[c1 [[]|]]|]; try done.
      destruct (negb _ && before_now _ _ t2); [done|]. intros [= <- <-]. left. eauto.
    - intros [= <- <-]. by right.
  Qed.
  Lemma del_absent c k : c_items (del c k) !! k = None.
  Proof. apply lookup_delete. Qed.
  Lemma rget_rejected n v c k t1 t2 t3 c' d : rget dnil n v c k t1 t2 t3 = Some (c', RGet d true) ->
    d = dnil /\ c_items c' !! k = None.
  Proof.
    destruct n as [|n]; [done|]. cbn [rget]. destruct (c_items c !! k) as [x|] eqn:E; [|done].
    destruct (negb _ && before_now _ _ t1); [intros [= <- <-]; split; [done|apply del_absent]|].
    destruct (match v with None => _ | Some f => _ end) as [[c1 [[]|]]|]; try done.
    - destruct (negb _ && before_now _ _ t2); [|done]. intros [= <- <-]. split; [done|apply del_absent].
    - intros [= <- <-]. split; [done|apply del_absent].
  Qed.

  (** ** No panic *)
  Notation good c := (covered (c_items c) (c_pile c)).
  Lemma touch_covered c k t : good c -> good (touch c k t).
  Proof.
    intros H k' Hk'. unfold touch in *. cbn [c_items c_pile] in *.
    destruct (decide (k' = k)) as [->|Hne]; [apply elem_of_app; right; by left|].
    apply elem_of_app. left. apply remove_first_other; [done|]. apply H. destruct (c_items c !! k); [|done]. by rewrite lookup_insert_ne in Hk'.
  Qed.
  Lemma step_legal c (o : op D) c' r : good c -> perc_ok o -> step dnil c o = (c', r) -> good c' /\ r <> RPanic.
  Proof. intros H Ho Hs. pose proof (step_covered dnil c o Ho H) as Hc. by rewrite Hs in Hc. Qed.
  Section Legal.
    Context (get : cache D -> bytes -> Z -> Z -> Z -> option (cache D * result D)).
    Hypothesis get_good : forall c k t1 t2 t3 c' r, good c -> get c k t1 t2 t3 = Some (c', r) -> good c' /\ r <> RPanic.
    Lemma vstep_good c o c' r : good c -> legal o -> vstep dnil get c o = Some (c', r) -> good c' /\ r <> RPanic.
    Proof.
      intros Hc Ho Hs. destruct o; cbn [vstep] in Hs; try (apply (inj Some) in Hs; eapply step_legal; [exact Hc| |exact Hs]; done); [].
      by eapply get_good.
    Qed.
    Lemma vexec_good p : legal_prog p -> forall c c' r, good c -> vexec dnil get p c = Some (c', r) -> good c' /\ r <> None.
    Proof.
      induction 1 as [b|o next Ho Hn IH]; intros c c' r Hc He; cbn [vexec] in He; [by injection He as <- <-|].
      destruct (vstep dnil get c o) as [[c1 r1]|] eqn:E; [|done]. destruct (vstep_good _ _ _ _ Hc Ho E) as [H1 H2].
      destruct r1; try done; by eapply IH.
    Qed.
  End Legal.
  Definition legal_validator v : Prop := forall f k t, v = Some f -> legal_prog (f k t).
  Lemma rget_good v : legal_validator v -> forall n c k t1 t2 t3 c' r, good c -> rget dnil n v c k t1 t2 t3 = Some (c', r) -> good c' /\ r <> RPanic.
  Proof.
    intros Hv n. induction n as [|n IH]; intros c k t1 t2 t3 c' r Hc Hg; [done|]. cbn [rget] in Hg.
    destruct (c_items c !! k) as [x|] eqn:E; [|by injection Hg as <- <-].
    destruct (negb _ && before_now _ _ t1); [injection Hg as <- <-; split; [by apply del_covered|done]|].
    destruct (match v with None => _ | Some f => _ end) as [[c1 b]|] eqn:Eb; [|done].
    assert (H1 : good c1 /\ b <> None).
    { destruct v as [f|]; [|by injection Eb as <- <-]. eapply vexec_good; [exact IH|by apply Hv|exact Hc|exact Eb]. }
    destruct H1 as [H1 Hb]. destruct b as [[]|]; [| |done].
    - destruct (negb _ && before_now _ _ t2); injection Hg as <- <-; (split; [|done]); [by apply del_covered|by apply touch_covered].
    - injection Hg as <- <-. split; [by apply del_covered|done].
  Qed.
  Lemma rrun_good n v ops : legal_validator v -> Forall legal ops -> forall c c' tr, good c -> rrun dnil n v c ops = Some (c', tr) ->
    good c' /\ Forall (fun e => e.2 <> RPanic) tr.
  Proof.
    intros Hv Hf. induction Hf as [|o ops Ho Hf IH]; intros c c' tr Hc Hr; cbn [rrun] in Hr.
    - injection Hr as <- <-. split; [done|constructor].
    - destruct (vstep _ _ c o) as [[c1 r]|] eqn:E; [|done]. destruct (rrun _ _ _ c1 ops) as [[c2 tr2]|] eqn:E2; [|done]. injection Hr as <- <-.
      destruct (vstep_good _ (rget_good v Hv n) _ _ _ _ Hc Ho E) as [H1 H2]. destruct (IH _ _ _ H1 E2) as [H3 H4]. split; [done|]. by constructor.
  Qed.
  Lemma reentrant_no_panic n v mx ex ops c tr : legal_validator v -> Forall legal ops -> rrun dnil n v (new_cache mx ex) ops = Some (c, tr) ->
    (forall k, is_Some (c_items c !! k) -> k ∈ c_pile c) /\ Forall (fun e => e.2 <> RPanic) tr.
  Proof. intros Hv Hf Hr. eapply rrun_good; [exact Hv|exact Hf| |exact Hr]. by intros k [? ?]. Qed.

  (** ** More fuel does not change an answer *)
  Lemma vexec_mono (g1 g2 : cache D -> bytes -> Z -> Z -> Z -> option (cache D * result D)) :
    (forall c k t1 t2 t3 x, g1 c k t1 t2 t3 = Some x -> g2 c k t1 t2 t3 = Some x) ->
    forall p c x, vexec dnil g1 p c = Some x -> vexec dnil g2 p c = Some x.
  Proof.
    intros Hg p. induction p as [b|o next IH]; intros c x; [done|]. cbn [vexec].
    destruct (vstep dnil g1 c o) as [[c1 r]|] eqn:E; [|done].
    assert (vstep dnil g2 c o = Some (c1, r)) as -> by (destruct o; try done; by apply Hg).
    destruct r; try done; apply IH.
  Qed.
  Lemma rget_mono v n : forall m c k t1 t2 t3 x, (n <= m)%nat -> rget dnil n v c k t1 t2 t3 = Some x -> rget dnil m v c k t1 t2 t3 = Some x.
  Proof.
    induction n as [|n IH]; intros m c k t1 t2 t3 x Hm; [done|]. destruct m as [|m]; [lia|]. cbn [rget].
    destruct (c_items c !! k) as [y|]; [|done]. destruct (negb _ && before_now _ _ t1); [done|].
    destruct v as [f|]; [|done].
    destruct (vexec dnil (rget dnil n (Some f)) (f k (e_ctime y)) c) as [z|] eqn:E; [|done].
    rewrite (vexec_mono _ (rget dnil m (Some f)) (fun c k t1 t2 t3 x => IH m c k t1 t2 t3 x ltac:(lia)) _ _ _ E). done.
  Qed.

  (** ** A validator that asks the cache for the key it validates *)
  Lemma rget_self (f : vfun D) c k x n : c_items c !! k = Some x -> e_ttl x = 0 ->
    (exists t1 t2 t3 next, f k (e_ctime x) = Call (VGet k t1 t2 t3) next) ->
    forall t1 t2 t3, rget dnil n (Some f) c k t1 t2 t3 = None.
  Proof.
    intros Hk Ht (u1 & u2 & u3 & next & Hf). induction n as [|n IH]; intros t1 t2 t3; [done|]. cbn [rget]. rewrite Hk.
    rewrite bool_decide_true by done. cbn [negb andb]. rewrite Hf. cbn [vexec vstep]. by rewrite IH.
  Qed.
  (** ** A validator that only asks for other keys, in some order *)
  Lemma vexec_total rank m get : (forall c k t1 t2 t3, (rank k < m)%nat -> get c k t1 t2 t3 <> None) ->
    forall p, gets_below rank m p -> forall c, vexec dnil get p c <> None.
  Proof.
    intros Hg p. induction 1 as [b|k t1 t2 t3 next Hk _ IH|o next Ho _ IH]; intros c; [done| |]; cbn [vexec].
    - cbn [vstep]. specialize (Hg c k t1 t2 t3 Hk). destruct (get c k t1 t2 t3) as [[c1 r]|]; [|done]. destruct r; try done; apply IH.
    - assert (exists c1 r, vstep dnil get c o = Some (c1, r)) as (c1 & r & ->).
      { destruct o; try (by destruct (Ho k t1 t2 t3)); cbn [vstep]; match goal with |- exists c1 r, Some ?x = _ => destruct x as [c1 r] end; by eexists _, _. }
      destruct r; try done; apply IH.
  Qed.
  Lemma rget_total rank (f : vfun D) : (forall k t, gets_below rank (rank k) (f k t)) ->
    forall n c k t1 t2 t3, (rank k < n)%nat -> rget dnil n (Some f) c k t1 t2 t3 <> None.
  Proof.
    intros Hf n. induction n as [|n IH]; intros c k t1 t2 t3 Hn; [lia|]. cbn [rget].
    destruct (c_items c !! k) as [x|]; [|done]. destruct (negb _ && before_now _ _ t1); [done|].
    assert (H : vexec dnil (rget dnil n (Some f)) (f k (e_ctime x)) c <> None).
    { eapply (vexec_total rank (rank k)); [|apply Hf]. intros c0 k0 u1 u2 u3 Hk0. apply IH. lia. }
    destruct (vexec _ _ _ c) as [[c1 [[]|]]|]; try done. by destruct (negb _ && before_now _ _ t2).
  Qed.

  (** ** What Get does with the verdict *)
  Lemma rget_then n (f : vfun D) c k x t1 t2 t3 c1 b c' r :
    c_items c !! k = Some x -> (e_ttl x = 0 \/ t1 <= e_ctime x + e_ttl x) ->
    vexec dnil (rget dnil n (Some f)) (f k (e_ctime x)) c = Some (c1, Some b) ->
    rget dnil (S n) (Some f) c k t1 t2 t3 = Some (c', r) ->
    (b = true /\ fresh (c_expire c1) (e_ctime x) t2 -> r = RGet (e_data x) false /\ exists rest, c_pile c' = rest ++ [k]) /\
    (b = false \/ ~ fresh (c_expire c1) (e_ctime x) t2 -> r = RGet dnil true) /\
    (forall k', k' <> k -> c_items c' !! k' = c_items c1 !! k') /\ c_expire c' = c_expire c1 /\ c_max c' = c_max c1.
  Proof.
    intros Hk Ht Hp Hg. cbn [rget] in Hg. rewrite Hk in Hg.
    assert (Hn : negb (bool_decide (e_ttl x = 0)) && before_now (e_ctime x) (e_ttl x) t1 = false).
    { unfold before_now. destruct Ht as [Ht|Ht]; [by rewrite bool_decide_true|]. destruct (Z.ltb_spec (e_ctime x + e_ttl x) t1); [lia|]. apply andb_false_r. }
    rewrite Hn, Hp in Hg.
    assert (He : negb (bool_decide (c_expire c1 = 0)) && before_now (e_ctime x) (c_expire c1) t2 = true <-> ~ fresh (c_expire c1) (e_ctime x) t2).
    { unfold before_now, fresh. rewrite andb_true_iff, negb_true_iff, bool_decide_eq_false, Z.ltb_lt. lia. }
    destruct b.
    - destruct (negb (bool_decide (c_expire c1 = 0)) && before_now (e_ctime x) (c_expire c1) t2).
      + injection Hg as <- <-. assert (Hnf : ~ fresh (c_expire c1) (e_ctime x) t2) by (by apply He).
        split; [by intros [_ ?]|]. split; [done|]. split; [|done]. intros k' Hk'. simpl. by rewrite lookup_delete_ne.
      + injection Hg as <- <-. assert (Hf : ~ ~ fresh (c_expire c1) (e_ctime x) t2) by (intros Hf; by apply He in Hf).
        split; [intros _; split; [done|by eexists]|]. split; [intros [?|?]; [done|by destruct Hf]|]. split; [|done].
        intros k' Hk'. unfold touch. cbn [c_items]. destruct (c_items c1 !! k); [|done]. by rewrite lookup_insert_ne.
    - injection Hg as <- <-. split; [by intros [? _]|]. split; [done|]. split; [|done]. intros k' Hk'. simpl. by rewrite lookup_delete_ne.
  Qed.

  (** ** Verify *)
  Lemma rverify_pure n (f : option (bytes -> Z -> bool)) c now order :
    rverify dnil n (option_map pure_validator f) c now order = Some (verify c f now order).
  Proof.
    unfold rverify, verify. destruct (mclean c 0 now) as [c1 r]. destruct r; try done. destruct f as [f|]; [|done]. cbn [option_map].
    generalize (order (c_items c1)) as ks. intros ks. revert c1 n0. induction ks as [|k ks IH]; intros c1 i; [done|]. cbn [rverify_loop verify_loop].
    destruct (c_items c1 !! k) as [x|]; [|apply IH]. cbn [pure_validator vexec]. destruct (f k (e_ctime x)); apply IH.
  Qed.
  Lemma rverify_good n v c now order c' r : legal_validator v -> good c -> rverify dnil n v c now order = Some (c', r) -> good c' /\ r <> RPanic.
  Proof.
    intros Hv Hc. unfold rverify. destruct (mclean c 0 now) as [c1 r1] eqn:Em.
    destruct (mclean_covered c 0 now Hc ltac:(lia)) as [Hc1 Hr1]. rewrite Em in Hc1, Hr1. cbn [fst snd] in Hc1, Hr1.
    destruct r1; try (by intros [= <- <-]). destruct v as [f|]; [|by intros [= <- <-]].
    generalize (order (c_items c1)) as ks. intros ks. clear Em Hr1 Hc. revert c1 n0 Hc1. induction ks as [|k ks IH]; intros c1 i Hc1; cbn [rverify_loop]; [by intros [= <- <-]|].
    destruct (c_items c1 !! k) as [x|]; [|by apply IH]. destruct (vexec _ _ _ c1) as [[c2 b]|] eqn:E; [|done].
    destruct (vexec_good _ (rget_good _ Hv n) _ (Hv f k (e_ctime x) eq_refl) _ _ _ Hc1 E) as [H2 Hb].
    destruct b as [[]|]; [by apply IH| |done]. apply IH. by apply del_covered.
  Qed.
  Lemma rverify_total rank m (f : vfun D) : (forall k t, gets_below rank (rank k) (f k t)) -> (forall k, (rank k <= m)%nat) ->
    forall c now order, rverify dnil m (Some f) c now order <> None.
  Proof.
    intros Hf Hm c now order. unfold rverify. destruct (mclean c 0 now) as [c1 r]. destruct r; try done.
    generalize (order (c_items c1)) as ks. intros ks. revert c1 n. induction ks as [|k ks IH]; intros c1 i; cbn [rverify_loop]; [done|].
    destruct (c_items c1 !! k) as [x|]; [|apply IH].
    assert (H : vexec dnil (rget dnil m (Some f)) (f k (e_ctime x)) c1 <> None).
    { eapply (vexec_total rank (rank k)); [|apply Hf]. intros c0 k0 u1 u2 u3 Hk0. apply (rget_total rank); [done|]. specialize (Hm k). lia. }
    destruct (vexec _ _ _ c1) as [[c2 [[]|]]|]; try done; apply IH.
  Qed.

  (** *** Validators that store nothing *)
  Lemma left_of_refl c : left_of c c.
  Proof. intros k x H. eauto. Qed.
  Lemma left_of_trans c1 c2 c3 : left_of c1 c2 -> left_of c2 c3 -> left_of c1 c3.
  Proof. intros H1 H2 k x H. destruct (H2 _ _ H) as (y & Hy & -> & ->). by apply H1. Qed.
  Lemma left_of_del c k : left_of c (del c k).
  Proof. intros k' x H. simpl in H. apply lookup_delete_Some in H as [_ H]. eauto. Qed.
  Lemma left_of_touch c k t : left_of c (touch c k t).
  Proof.
    intros k' x H. unfold touch in H. cbn [c_items] in H. destruct (c_items c !! k) as [y|] eqn:E; [|by eauto].
    apply lookup_insert_Some in H as [[<- <-]|[_ H]]; [|by eauto]. exists y. done.
  Qed.
  Lemma left_of_size c c' : left_of c c' -> (size (c_items c') <= size (c_items c))%nat.
  Proof.
    intros H. rewrite <- !size_dom. apply subseteq_size. intros k Hk. apply elem_of_dom in Hk as [x Hx]. apply elem_of_dom.
    destruct (H _ _ Hx) as (y & Hy & _). by exists y.
  Qed.
  Section NoStore.
    Context (get : cache D -> bytes -> Z -> Z -> Z -> option (cache D * result D)).
    Hypothesis get_left : forall c k t1 t2 t3 c' r, get c k t1 t2 t3 = Some (c', r) -> left_of c c'.
    Lemma vstep_left c o c' r : no_store o -> vstep dnil get c o = Some (c', r) -> left_of c c'.
    Proof.
      intros Ho Hs. destruct o; cbn [vstep] in Hs; try done; try (apply (inj Some) in Hs; cbn [step] in Hs; injection Hs as <- <-; try (by intros ??; eauto); [..]).
      - unfold set_ttl. destruct (c_items c !! k) as [y|] eqn:E; [|apply left_of_refl]. intros k' x H. cbn [c_items] in H.
        apply lookup_insert_Some in H as [[<- <-]|[_ H]]; [|by eauto]. exists y. done.
      - by eapply get_left.
      - apply left_of_del.
      - apply (inj Some) in Hs. cbn [step] in Hs. intros k x H. exists x. split; [|done]. eapply (mclean_sub c perc now). by rewrite Hs.
    Qed.
    Lemma vexec_left p : no_store_prog p -> forall c c' r, vexec dnil get p c = Some (c', r) -> left_of c c'.
    Proof.
      induction 1 as [b|o next Ho Hn IH]; intros c c' r He; cbn [vexec] in He; [injection He as <- <-; apply left_of_refl|].
      destruct (vstep dnil get c o) as [[c1 r1]|] eqn:E; [|done]. pose proof (vstep_left _ _ _ _ Ho E) as H1.
      destruct r1; try (eapply left_of_trans; [exact H1|by eapply IH]). by injection He as <- <-.
    Qed.
  End NoStore.
  Lemma rget_left (f : vfun D) : (forall k t, no_store_prog (f k t)) -> forall n c k t1 t2 t3 c' r,
    rget dnil n (Some f) c k t1 t2 t3 = Some (c', r) -> left_of c c'.
  Proof.
    intros Hf n. induction n as [|n IH]; intros c k t1 t2 t3 c' r Hg; [done|]. cbn [rget] in Hg.
    destruct (c_items c !! k) as [x|] eqn:E; [|injection Hg as <- <-; apply left_of_refl].
    destruct (negb _ && before_now _ _ t1); [injection Hg as <- <-; apply left_of_del|].
    destruct (vexec _ _ _ c) as [[c1 b]|] eqn:Eb; [|done]. pose proof (vexec_left _ IH _ (Hf _ _) _ _ _ Eb) as H1.
    destruct b as [[]|]; [|injection Hg as <- <-; eapply left_of_trans; [exact H1|apply left_of_del]|by injection Hg as <- <-].
    destruct (negb _ && before_now _ _ t2); injection Hg as <- <-; (eapply left_of_trans; [exact H1|]); [apply left_of_del|apply left_of_touch].
  Qed.
  Lemma rverify_loop_left n (f : vfun D) : (forall k t, no_store_prog (f k t)) -> forall ks c i c' j,
    rverify_loop dnil n f ks c i = Some (c', RInt j) ->
    left_of c c' /\ i <= j /\ j + Z.of_nat (size (c_items c')) <= i + Z.of_nat (size (c_items c)) /\
    forall k x, k ∈ ks -> c_items c' !! k = Some x -> exists c0 c1, left_of c c0 /\ left_of c1 c' /\ is_Some (c_items c0 !! k) /\
      vexec dnil (rget dnil n (Some f)) (f k (e_ctime x)) c0 = Some (c1, Some true).
  Proof.
    intros Hf ks. induction ks as [|k ks IH]; intros c i c' j; cbn [rverify_loop].
    - intros [= <- <-]. split; [apply left_of_refl|]. split; [lia|]. split; [lia|]. intros k x Hk. by apply elem_of_nil in Hk.
    - destruct (c_items c !! k) as [x|] eqn:Ek.
      + destruct (vexec _ _ _ c) as [[c1 b]|] eqn:Eb; [|done]. pose proof (vexec_left _ (rget_left f Hf n) _ (Hf _ _) _ _ _ Eb) as H1.
        destruct b as [[]|]; [| |done]; intros Hl; destruct (IH _ _ _ _ Hl) as (Hleft & Hi & Hs & Ha).
        * split; [by eapply left_of_trans|]. split; [done|]. split; [pose proof (left_of_size _ _ H1); lia|].
          intros k' x' Hk' Hx'. apply elem_of_cons in Hk' as [->|Hk'].
          { exists c, c1. split; [apply left_of_refl|]. split; [done|]. split; [by exists x|].
            destruct (left_of_trans _ _ _ H1 Hleft _ _ Hx') as (y & Hy & _ & Hc). rewrite Ek in Hy. injection Hy as <-. by rewrite Hc. }
          destruct (Ha _ _ Hk' Hx') as (c0 & c2 & Hc0 & Hrest). exists c0, c2. split; [by eapply left_of_trans|done].
        * pose proof (left_of_trans _ _ _ H1 (left_of_del c1 k)) as H2. split; [by eapply left_of_trans|]. split; [lia|]. split.
          { assert (size (c_items (del c1 k)) < size (c_items c))%nat; [|lia].
            rewrite <- !size_dom. apply subset_size. split.
            - intros k0 Hk0. apply elem_of_dom in Hk0 as [y Hy]. apply elem_of_dom. destruct (H2 _ _ Hy) as (z & Hz & _). by exists z.
            - intros Hsub. assert (Hkd : k ∈ dom (c_items c)) by (apply elem_of_dom; by exists x). apply Hsub, elem_of_dom in Hkd as [y Hy]. by rewrite del_absent in Hy. }
          intros k' x' Hk' Hx'. apply elem_of_cons in Hk' as [->|Hk'].
          { destruct (Hleft _ _ Hx') as (y & Hy & _). by rewrite del_absent in Hy. }
          destruct (Ha _ _ Hk' Hx') as (c0 & c2 & Hc0 & Hrest). exists c0, c2. split; [by eapply left_of_trans|done].
      + intros Hl. destruct (IH _ _ _ _ Hl) as (Hleft & Hi & Hs & Ha). do 3 (split; [done|]). intros k' x' Hk' Hx'. apply elem_of_cons in Hk' as [->|Hk']; [|by eapply Ha].
        destruct (Hleft _ _ Hx') as (y & Hy & _). by rewrite Ek in Hy.
  Qed.
  Lemma rverify_left n (f : vfun D) c now order c' i : (forall k t, no_store_prog (f k t)) -> iter_order order ->
    rverify dnil n (Some f) c now order = Some (c', RInt i) ->
    left_of c c' /\ 0 <= i <= Z.of_nat (size (c_items c)) - Z.of_nat (size (c_items c')) /\
    forall k x, c_items c' !! k = Some x -> fresh (c_expire c) (e_ctime x) (now k) /\
      exists c0 c1, left_of c c0 /\ left_of c1 c' /\ is_Some (c_items c0 !! k) /\ vexec dnil (rget dnil n (Some f)) (f k (e_ctime x)) c0 = Some (c1, Some true).
  Proof.
    intros Hf Ho. unfold rverify. rewrite mclean_noevict by lia. set (c1 := Cache _ _ _ _). intros Hl.
    destruct (rverify_loop_left n f Hf _ _ _ _ _ Hl) as (Hleft & Hi & Hs & Ha).
    assert (H1 : left_of c c1).
    { intros k x H. cbn [c1 c_items] in H. apply purge_lookup in H as [H _]. eauto. }
    split; [by eapply left_of_trans|]. split; [pose proof (left_of_size _ _ H1); lia|]. intros k x Hx. destruct (Hleft _ _ Hx) as (y & Hy & _ & Hc). split.
    - rewrite Hc. cbn [c1 c_items] in Hy. apply purge_lookup in Hy as [_ Hy]. unfold fresh, before_now in *. destruct Hy as [Hy|Hy]; [by left|right]. lia.
    - destruct (Ha k x) as (c0 & c2 & Hc0 & Hrest); [|done|].
      + rewrite (Ho (c_items c1)). apply elem_of_list_fmap. exists (k, y). split; [done|]. by apply elem_of_map_to_list.
      + exists c0, c2. split; [by eapply left_of_trans|done].
  Qed.
End ReentProofs.

(** ** Validators that renew the entry *)
Section Renew.
  Context {D : Type} (dnil : D).
  Definition renew (d : D) (verdict : bool) : vfun D := fun k t =>
    if t <? 10 then Call (VSet k d 20 20 (fun _ => 20)) (fun _ => Verdict verdict) else Verdict true.
  Lemma renewed_not_seen d1 d2 : exists c, rrun dnil 1 (Some (renew d2 true)) (new_cache 0 0) [VSet (B "a") d1 0 0 (fun _ => 0); VGet (B "a") 5 5 5; VGet (B "a") 6 6 6]
    = Some (c, [(VSet (B "a") d1 0 0 (fun _ => 0), RUnit); (VGet (B "a") 5 5 5, RGet d1 false); (VGet (B "a") 6 6 6, RGet d2 false)]).
  Proof. eexists. vm_compute. reflexivity. Qed.
  Lemma renewed_lost d1 d2 : exists c, rrun dnil 1 (Some (renew d2 false)) (new_cache 0 0) [VSet (B "a") d1 0 0 (fun _ => 0); VGet (B "a") 5 5 5; VGet (B "a") 6 6 6]
    = Some (c, [(VSet (B "a") d1 0 0 (fun _ => 0), RUnit); (VGet (B "a") 5 5 5, RGet dnil true); (VGet (B "a") 6 6 6, RGet dnil false)]).
  Proof. eexists. vm_compute. reflexivity. Qed.
End Renew.
(** A validator that deletes the key and accepts. *)
Definition drops : vfun Z := fun k t => if t <? 10 then Call (VDel k) (fun _ => Verdict true) else Verdict true.
Definition drop_ops : list (vop Z) :=
  concat ((fun i => [VSet (replicate i "x"%char) 1 0 0 (fun _ => 0); VGet (replicate i "x"%char) 1 1 1]) <$> seq 1 20) ++
  ((fun i => VSet (replicate i "a"%char) 1 20 20 (fun _ => 20)) <$> seq 0 15) ++ [VCount].
Lemma dropped_overfull : exists c tr, rrun 0 1 (Some drops) (new_cache 10 0) drop_ops = Some (c, tr ++ [(VCount, RInt 15)]).
Proof.
  assert (H : match rrun 0 1 (Some drops) (new_cache 10 0) drop_ops with Some (c, tr) => tr !! 55%nat = Some (VCount, RInt 15) /\ length tr = 56%nat | None => False end).
  { vm_compute. done. }
  destruct (rrun _ _ _ _ _) as [[c tr]|]; [|done]. destruct H as [H1 H2]. exists c, (take 55 tr). f_equal. f_equal.
  rewrite <- (take_drop 55 tr) at 1. f_equal. rewrite (drop_S _ _ _ H1), drop_ge by lia. done.
Qed.

(** ** Verify and validators that change the cache *)
Section RenewVerify.
  Context {D : Type} (dnil : D).
  Lemma verify_renewed_lost (d1 d2 : D) order : (forall m, order m = (map_to_list m).*1) -> exists c,
    rverify dnil 1 (Some (renew d2 false)) (Cache 0 0 {[B "a" := Entry 0 0 0 d1]} [B "a"]) (fun _ => 0) order = Some (c, RInt 1) /\ size (c_items c) = 0%nat.
  Proof. intros Ho. unfold rverify. rewrite mclean_noevict by lia. rewrite Ho. eexists. split; [vm_compute; reflexivity|vm_compute; reflexivity]. Qed.
End RenewVerify.
(** The validator rejects nothing, but removes what depends on a changed entry. *)
Definition cascade : vfun Z := fun k t => if decide (k = B "layout") then Call (VDel (B "page")) (fun _ => Verdict false) else Verdict true.
Lemma verify_undercounts : 
  exists c, rverify 0 1 (Some cascade) (Cache 0 0 (<[B "layout" := Entry 0 0 0 1]> {[B "page" := Entry 0 0 0 2]}) [B "layout"; B "page"]) (fun _ => 0)
    (fun m => (map_to_list m).*1) = Some (c, RInt 1) /\ size (c_items c) = 0%nat.
Proof. eexists. split; [vm_compute; reflexivity|vm_compute; reflexivity]. Qed.
