(** * The remaining sequential facts about XCache. *)
From Verif Require Import GoBase CacheModel CacheSpec CacheProofs CacheProofs2.
From Coq Require Import Lia ZifyBool ZifyNat.
Local Open Scope Z_scope.
Ltac Zify.zify_post_hook ::= Z.to_euclidean_division_equations.

Section CacheProofs3.
  Context {D : Type} (dnil : D).
  Implicit Types (k a b : bytes) (d : D) (c : cache D) (pile : list bytes) (items : gmap bytes (entry D)).
  Notation event := (op D * result D)%type.

  (** ** The last Set *)
  Lemma last_set_snoc k d (tr : list event) e : last_set k d tr -> ~ cancels k e -> last_set k d (tr ++ [e]).
  Proof.
    intros (tr1 & tc & t & now & r & tr2 & -> & Hf) He. exists tr1, tc, t, now, r, (tr2 ++ [e]).
    split; [by rewrite <- app_assoc|]. apply Forall_app. split; [done|]. by apply Forall_singleton.
  Qed.
  Lemma latest_last_set k d (tr : list event) : latest k tr = Some d <-> last_set k d tr.
  Proof.
    split.
    - revert d. induction tr as [|e tr IH] using rev_ind; intros d; [done|].
      rewrite latest_snoc. intros H.
      destruct e as [o r]. destruct o; simpl in H;
        try (apply last_set_snoc; [by apply IH|simpl; tauto]).
      + destruct (decide (k0 = k)) as [->|Hne].
        * simplify_eq. exists tr, tc, tr0, now, r, []. split; [done|]. constructor.
        * apply last_set_snoc; [by apply IH|done].
      + destruct r as [| |d' [|]|]; try (apply last_set_snoc; [by apply IH|simpl; tauto]).
        destruct (decide (k0 = k)) as [->|Hne]; [done|].
        apply last_set_snoc; [by apply IH|done].
      + destruct (decide (k0 = k)) as [->|Hne]; [done|].
        apply last_set_snoc; [by apply IH|done].
      + done.
    - intros (tr1 & tc & t & now & r & tr2 & -> & Hf).
      induction tr2 as [|e tr2 IH] using rev_ind.
      + rewrite latest_snoc. simpl. by rewrite decide_True.
      + apply Forall_app in Hf as [Hf He]. rewrite Forall_singleton in He.
        rewrite app_comm_cons, app_assoc, latest_snoc, (IH Hf).
        destruct e as [o r']. destruct o; simpl in He |- *; try done.
        * by rewrite decide_False.
        * destruct r' as [| |d' [|]|]; try done. by rewrite decide_False.
        * by rewrite decide_False.
  Qed.

  Lemma hit_last_set mx ex ops c tr k v t1 t2 t3 c' d :
    run dnil (new_cache mx ex) ops = (c, tr) ->
    step dnil c (OGet k v t1 t2 t3) = (c', RGet d false) ->
    is_Some (c_items c !! k) \/ d <> dnil -> last_set k d tr.
  Proof.
    intros Hr Hs Hp. apply latest_last_set. simpl in Hs. unfold get in Hs.
    pose proof (run_faithful dnil _ _ _ _ _ Hr k) as HF.
    destruct (c_items c !! k) as [x|] eqn:E.
    - destruct (rejected _ _ _ _ _ _); simplify_eq. by apply HF.
    - simplify_eq. destruct Hp as [[? ?]|?]; done.
  Qed.

  (** ** A value that nothing ends is returned *)
  Definition holds k (d : D) tc e c : Prop :=
    c_max c <= 0 /\ c_expire c = e /\ exists tr, c_items c !! k = Some (Entry tc tr 0 d).

  Lemma gentle_step k d tc e c o c' r :
    holds k d tc e c -> gentle k tc e o -> step dnil c o = (c', r) -> holds k d tc e c'.
  Proof.
    intros (Hm & He & tr & Hx) Hg Hs. destruct o; simpl in Hs, Hg.
    - unfold set in Hs. rewrite bool_decide_eq_false_2 in Hs by lia. injection Hs as <- <-.
      split_and!; simpl; try done. rewrite lookup_insert_ne by done. eauto.
    - injection Hs as <- <-. unfold set_ttl. destruct (c_items c !! k0) as [y|] eqn:E.
      + split_and!; simpl; try done. rewrite lookup_insert_ne by done. eauto.
      + split_and!; eauto.
    - unfold get in Hs. destruct (c_items c !! k0) as [y|] eqn:E.
      + destruct (decide (k0 = k)) as [->|Hne].
        * destruct (Hg eq_refl) as [Ha Hf]. rewrite Hx in E. simplify_eq.
          replace (rejected (c_expire c) v k _ t1 t2) with false in Hs.
          -- injection Hs as <- <-. split_and!; simpl; try done. rewrite lookup_insert. eauto.
          -- unfold rejected. simpl. unfold accepts, fresh in *. unfold before_now. simpl.
             destruct v as [f|]; [rewrite Ha; simpl|]; case_bool_decide; simpl; lia.
        * destruct (rejected _ _ _ _ _ _); injection Hs as <- <-; split_and!; simpl; try done.
          -- rewrite lookup_delete_ne by done. eauto.
          -- rewrite lookup_insert_ne by done. eauto.
      + injection Hs as <- <-. split_and!; eauto.
    - injection Hs as <- <-. split_and!; simpl; try done. rewrite lookup_delete_ne by done. eauto.
    - injection Hs as <- <-. split_and!; eauto.
    - destruct Hg as [Hp Hf]. rewrite mclean_noevict in Hs by lia. injection Hs as <- <-.
      split_and!; simpl; try done. exists tr. apply purge_lookup. split; [done|].
      unfold fresh, before_now in *. simpl. rewrite He. destruct Hf; [by left|right; lia].
    - destruct Hg as (Ho & Ha & Hf). unfold verify in Hs. rewrite mclean_noevict in Hs by lia.
      assert (Hp : purge (c_expire c) now (c_items c) !! k = Some (Entry tc tr 0 d)).
      { apply purge_lookup. split; [done|].
        unfold fresh, before_now in *. simpl. rewrite He. destruct Hf; [by left|right; lia]. }
      destruct v as [f|]; [|injection Hs as <- <-; split_and!; simpl; eauto].
      destruct (verify_loop _ _ _ _) as [c2 i2] eqn:E. injection Hs as <- <-.
      match type of E with verify_loop f _ ?y _ = _ => apply (verify_order_spec f order y) in E end; [|done].
      destruct E as (H1 & H2 & H3 & _). simpl in *. split_and!; [lia|congruence|].
      exists tr. rewrite H3, Hp. simpl. by rewrite Ha.
    - done.
    - injection Hs as <- <-. split_and!; simpl; eauto.
    - injection Hs as <- <-. split_and!; simpl; eauto.
  Qed.
  Lemma gentle_run k d tc e c ops c' tr :
    holds k d tc e c -> Forall (gentle k tc e) ops -> run dnil c ops = (c', tr) -> holds k d tc e c'.
  Proof.
    revert c tr. induction ops as [|o ops IH]; intros c tr Hh Hf Hr; simpl in Hr; [by simplify_eq|].
    apply Forall_cons in Hf as [Ho Hf]. destruct (step dnil c o) as [c1 r] eqn:E.
    destruct (run dnil c1 ops) as [c2 tr2] eqn:E2. simplify_eq.
    eapply IH; [|done|done]. by eapply gentle_step.
  Qed.
  Lemma kept_value_returned mx ops1 ops2 c0 tr0 k d tc t now c tr v t1 t2 t3 :
    mx <= 0 -> run dnil (new_cache mx 0) ops1 = (c0, tr0) -> Forall no_evict_op ops1 ->
    Forall (gentle k tc (c_expire c0)) ops2 ->
    run dnil c0 (OSet k d tc t now :: ops2) = (c, tr) ->
    accepts v k tc -> fresh (c_expire c0) tc t2 ->
    (step dnil c (OGet k v t1 t2 t3)).2 = RGet d false.
  Proof.
    intros Hm H1 Hne Hg H2 Ha Hf.
    assert (Hmx : c_max c0 <= 0).
    { eapply (run_invariant dnil (fun c _ => c_max c <= 0) no_evict_op); [| |exact Hne|exact H1]; [done|].
      intros c1 tr1 o c2 r Hc Ho Hs. destruct o; simpl in Hs.
      - unfold set in Hs. rewrite bool_decide_eq_false_2 in Hs by lia. by injection Hs as <- <-.
      - injection Hs as <- <-. unfold set_ttl. by destruct (c_items c1 !! k0).
      - unfold get in Hs. destruct (c_items c1 !! k0); [destruct (rejected _ _ _ _ _ _)|]; by injection Hs as <- <-.
      - by injection Hs as <- <-.
      - by injection Hs as <- <-.
      - rewrite mclean_noevict in Hs by (simpl in *; lia). by injection Hs as <- <-.
      - unfold verify in Hs. rewrite mclean_noevict in Hs by lia.
        destruct v0 as [f|]; [|by injection Hs as <- <-].
        match type of Hs with context [verify_loop f ?o ?y ?i] => pose proof (verify_loop_pile f o y i) as (_ & _ & Hvm & _) end.
        destruct (verify_loop _ _ _ _) as [c3 i3]. injection Hs as <- <-. simpl in Hvm. lia.
      - by injection Hs as <- <-.
      - by injection Hs as <- <-.
      - by injection Hs as <- <-. }
    simpl in H2. unfold set in H2. rewrite bool_decide_eq_false_2 in H2 by lia.
    match type of H2 with context [run dnil ?y ops2] => set (c1 := y) in * end.
    destruct (run dnil c1 ops2) as [c2 tr2] eqn:E. simplify_eq.
    assert (holds k d tc (c_expire c0) c) as (_ & He & tr' & Hx).
    { eapply gentle_run; [|done|done]. split_and!; simpl; try done. rewrite lookup_insert. eauto. }
    simpl. unfold get. rewrite Hx, He.
    replace (rejected (c_expire c0) v k _ t1 t2) with false; [done|].
    unfold rejected. simpl. unfold accepts, fresh in *. unfold before_now. simpl.
    destruct v as [f|]; [rewrite Ha; simpl|]; case_bool_decide; simpl; lia.
  Qed.

  (** ** Get *)
  Lemma get_decision c k v t1 t2 t3 c' r x :
    step dnil c (OGet k v t1 t2 t3) = (c', r) -> c_items c !! k = Some x ->
    let bad := (e_ttl x <> 0 /\ e_ctime x + e_ttl x < t1)
               \/ (exists f, v = Some f /\ f k (e_ctime x) = false)
               \/ (c_expire c <> 0 /\ e_ctime x + c_expire c < t2) in
    (bad -> r = RGet dnil true /\ c_items c' = delete k (c_items c)) /\
    (~ bad -> r = RGet (e_data x) false /\
              c_items c' = <[k := Entry (e_ctime x) t3 (e_ttl x) (e_data x)]> (c_items c)).
  Proof.
    intros Hs Hx bad. simpl in Hs. unfold get in Hs. rewrite Hx in Hs.
    assert (Hb : rejected (c_expire c) v k x t1 t2 = true <-> bad).
    { unfold rejected, bad, before_now.
      rewrite !orb_true_iff, !andb_true_iff, !negb_true_iff, !bool_decide_eq_false, !Z.ltb_lt.
      destruct v as [f|].
      - rewrite negb_true_iff. split; [intros [[?|?]|?]; naive_solver|].
        intros [?|[(f' & ? & ?)|?]]; naive_solver.
      - split; [intros [[?|?]|?]; naive_solver|]. intros [?|[(f' & ? & ?)|?]]; naive_solver. }
    destruct (rejected _ _ _ _ _ _); injection Hs as <- <-.
    - split; [done|]. intros Hn. exfalso. by apply Hn, Hb.
    - split; [|done]. intros Hbad%Hb. done.
  Qed.
  Lemma get_absent c k v t1 t2 t3 :
    c_items c !! k = None -> step dnil c (OGet k v t1 t2 t3) = (c, RGet dnil false).
  Proof. intros Hk. simpl. unfold get. by rewrite Hk. Qed.

  (** ** Set *)
  Lemma set_renews c k d tc tr now c' r :
    step dnil c (OSet k d tc tr now) = (c', r) ->
    (forall x, c_items c' !! k = Some x -> x = Entry tc tr 0 d) /\
    (c_max c <= 0 \/ Z.of_nat (size (c_items c)) + 1 < c_max c -> c_items c' !! k = Some (Entry tc tr 0 d)).
  Proof.
    intros Hs. simpl in Hs. rewrite set_split in Hs. cbv zeta in Hs.
    set (c1 := Cache (c_max c) (c_expire c) (<[k := Entry tc tr 0 d]> (c_items c)) _) in Hs.
    pose proof (size_insert_le (c_items c) k (Entry tc tr 0 d)) as Hle.
    change (size (c_items c1) <= S (size (c_items c)))%nat in Hle.
    destruct (bool_decide (c_max c > 0 /\ _)) eqn:Hcl;
        [apply bool_decide_eq_true in Hcl|apply bool_decide_eq_false in Hcl].
    - assert (c' = (mclean c1 10 now).1) as -> by by simplify_eq. split.
      + intros x Hx. apply mclean_sub in Hx. simpl in Hx. rewrite lookup_insert in Hx. congruence.
      + lia.
    - injection Hs as <- <-. simpl. rewrite lookup_insert. split; [congruence|done].
  Qed.
  Lemma set_kept_plain mx ops c tr0 k d tc tr now c' r :
    Forall plain_op ops -> run dnil (new_cache mx 0) ops = (c, tr0) ->
    step dnil c (OSet k d tc tr now) = (c', r) -> c_items c' !! k = Some (Entry tc tr 0 d).
  Proof.
    intros Hf Hr Hs. destruct (lru_run dnil _ _ _ _ Hf Hr) as (He & Hx & _).
    simpl in Hs. rewrite set_split in Hs. cbv zeta in Hs.
    destruct (exact_set c k d tc tr Hx) as [Hx1 _].
    set (c1 := Cache (c_max c) (c_expire c) (<[k := Entry tc tr 0 d]> (c_items c)) _) in Hs.
    destruct (bool_decide (c_max c > 0 /\ _)).
    - destruct (mclean_exact c1 10 now He Hx1) as (i2 & Hm & H2 & H3); [lia|].
      rewrite Hm in Hs. simpl in Hs. injection Hs as <- <-. simpl. rewrite H3.
      pose proof (exact_size _ _ Hx1) as Hl. change (size (c_items c1) = length (c_pile c1)) in Hl.
      rewrite decide_False; [simpl; by rewrite lookup_insert|]. rewrite Hl.
      set (n := Z.to_nat _). intros Hin.
      assert (Hn : (n <= length (c_pile c1) - 1)%nat).
      { unfold n. rewrite quota_div by lia. rewrite <- Hl.
        assert (size (c_items c1) <> 0%nat); [|lia]. simpl.
        intros Hz%map_size_empty_inv. by apply insert_non_empty in Hz. }
      simpl in Hn, Hin. rewrite app_length in Hn. simpl in Hn.
      rewrite take_app_le in Hin by lia.
      destruct Hx1 as [Hnd _]. apply NoDup_app in Hnd as (_ & Hnd & _).
      eapply Hnd; [|by left]. eapply elem_of_submseteq; [exact Hin|].
      apply sublist_submseteq, sublist_take.
    - injection Hs as <- <-. simpl. by rewrite lookup_insert.
  Qed.
  Lemma set_ttl_effect c k dur c' r :
    step dnil c (OSetTTL k dur) = (c', r) ->
    c_items c' = alter (fun x => Entry (e_ctime x) (e_rtime x) dur (e_data x)) k (c_items c) /\
    c_pile c' = c_pile c /\ c_max c' = c_max c /\ c_expire c' = c_expire c.
  Proof.
    intros Hs. simpl in Hs. injection Hs as <- <-. unfold set_ttl.
    destruct (c_items c !! k) as [x|] eqn:E; split_and!; try done; simpl; apply map_eq; intros k';
      (destruct (decide (k' = k)) as [->|Hne]; [rewrite lookup_alter|rewrite lookup_alter_ne by done]).
    - by rewrite E, lookup_insert.
    - by rewrite lookup_insert_ne.
    - by rewrite E.
    - done.
  Qed.

  (** ** Clean *)
  Lemma clean_effect mx ex ops c tr p now c' r :
    Forall perc_ok ops -> run dnil (new_cache mx ex) ops = (c, tr) -> -100 <= p <= 100 ->
    step dnil c (OClean p now) = (c', r) ->
    let expired := fun k x => c_expire c <> 0 /\ e_ctime x + c_expire c < now k in
    let n := Z.of_nat (size (filter (fun kx => fresh (c_expire c) (e_ctime kx.2) (now kx.1)) (c_items c))) in
    r = RInt (Z.max 0 (Z.quot (n * p) 100)) /\
    (forall k x, c_items c' !! k = Some x -> c_items c !! k = Some x /\ ~ expired k x) /\
    (forall k x, c_items c !! k = Some x -> c_items c' !! k = None ->
       expired k x \/ exists i, c_pile c !! i = Some k /\ Z.of_nat i < Z.quot (n * p) 100).
  Proof.
    intros Hf Hr Hp Hs expired n. destruct (run_covered dnil _ _ _ _ _ Hf Hr) as [Hc _]. simpl in Hs.
    destruct (mclean_ok c p now Hc ltac:(lia)) as (i2 & Hm & Hn & Hl).
    rewrite Hm in Hs. injection Hs as <- <-. simpl.
    assert (Hnn : size (purge (c_expire c) now (c_items c)) =
       size (filter (fun kx : bytes * entry D => fresh (c_expire c) (e_ctime kx.2) (now kx.1)) (c_items c))).
    { f_equal. apply map_eq. intros k. apply option_eq. intros x.
      rewrite purge_lookup, map_filter_lookup_Some. unfold fresh, before_now. simpl.
      split; intros [? ?]; (split; [done|lia]). }
    rewrite Hnn in *. fold n in Hl |- *. unfold quota in *. split_and!.
    - f_equal. lia.
    - intros k x. rewrite Hl. destruct (decide _); [done|]. rewrite purge_lookup. unfold expired, before_now.
      intros [? ?]. split; [done|]. lia.
    - intros k x Hx. rewrite Hl. destruct (decide _) as [Hin|Hni].
      + intros _. right. apply elem_of_list_lookup in Hin as [i Hi]. exists i.
        apply lookup_take_Some in Hi as [Hi Hlt]. split; [done|]. lia.
      + intros Hnone. left. destruct (decide (expired k x)) as [|Hne]; [done|].
        assert (purge (c_expire c) now (c_items c) !! k = Some x); [|congruence].
        apply purge_lookup. split; [done|]. unfold expired, before_now in *. lia.
  Qed.

  (** ** Verify *)
  Lemma remove_first_comm a b pile : remove_first a (remove_first b pile) = remove_first b (remove_first a pile).
  Proof.
    induction pile as [|x pile IH]; simpl; [done|].
    repeat (simpl; case_decide; subst; try done). by rewrite IH.
  Qed.
  Lemma verify_loop_perm f o1 o2 c i : o1 ≡ₚ o2 -> verify_loop f o1 c i = verify_loop f o2 c i.
  Proof.
    intros Hp. revert c i. induction Hp as [|x o1 o2 Hp IH|x y o|o1 o2 o3 H1 IH1 H2 IH2]; intros c i; simpl.
    - done.
    - destruct (c_items c !! x) as [e|]; [|by apply IH]. destruct (f x (e_ctime e)); by apply IH.
    - destruct (decide (x = y)) as [->|Hne]; [done|].
      destruct (c_items c !! y) as [ey|] eqn:Ey, (c_items c !! x) as [ex|] eqn:Ex; try done;
        repeat match goal with |- context [f ?k ?t] => destruct (f k t) eqn:? end;
        simpl; rewrite ?lookup_delete_ne by done; rewrite ?Ex, ?Ey;
        repeat match goal with H : f ?k ?t = _ |- _ => rewrite H in * end; try done.
      f_equal. unfold del. simpl. by rewrite delete_commute, remove_first_comm.
    - by rewrite IH1, IH2.
  Qed.
  Lemma verify_order_irrelevant c v now o1 o2 :
    iter_order o1 -> iter_order o2 -> step dnil c (OVerify v now o1) = step dnil c (OVerify v now o2).
  Proof.
    intros H1 H2. simpl. unfold verify. rewrite mclean_noevict by lia. destruct v as [f|]; [|done].
    match goal with |- context [verify_loop f (o1 ?m) ?c1 ?i] =>
      rewrite (verify_loop_perm f (o1 m) (o2 m) c1 i) end; [done|].
    by rewrite H1, H2.
  Qed.
  Lemma verify_effect c f now order c' r :
    iter_order order -> step dnil c (OVerify (Some f) now order) = (c', r) ->
    (forall k x, c_items c' !! k = Some x <->
       c_items c !! k = Some x /\ fresh (c_expire c) (e_ctime x) (now k) /\ f k (e_ctime x) = true) /\
    ((forall k x, c_items c !! k = Some x -> fresh (c_expire c) (e_ctime x) (now k)) ->
      r = RInt (Z.of_nat (size (c_items c)) - Z.of_nat (size (c_items c')))).
  Proof.
    intros Ho Hs. simpl in Hs. unfold verify in Hs. rewrite mclean_noevict in Hs by lia.
    destruct (verify_loop _ _ _ _) as [c2 i2] eqn:E. injection Hs as <- <-.
    match type of E with verify_loop f _ ?y _ = _ => apply (verify_order_spec f order y) in E end; [|done].
    destruct E as (H1 & H2 & H3 & H4). simpl in *. split.
    - intros k x. rewrite H3.
      assert (Hp := purge_lookup (c_expire c) now (c_items c) k).
      destruct (purge (c_expire c) now (c_items c) !! k) as [y|] eqn:Ey.
      + destruct (Hp y) as [[Hy Hfy] _]; [done|].
        destruct (f k (e_ctime y)) eqn:Ef; unfold fresh, before_now in *; split.
        * intros. simplify_eq. split_and!; try done. lia.
        * intros (Hx & _ & _). congruence.
        * done.
        * intros (Hx & _ & Hfx). simplify_eq. congruence.
      + split; [done|]. intros (Hx & Hfr & _).
        assert (None = Some x); [|done]. apply Hp. split; [done|].
        unfold fresh, before_now in *. lia.
    - intros Hall. f_equal. rewrite H4.
      assert (purge (c_expire c) now (c_items c) = c_items c) as ->; [|lia].
      apply map_eq. intros k. apply option_eq. intros x. rewrite purge_lookup.
      split; [tauto|]. intros Hx. split; [done|]. specialize (Hall k x Hx). unfold fresh, before_now in *. lia.
  Qed.

  (** Clean(0) and Verify without validator always answer 0. *)
  Lemma clean0_reports_0 c p now : -100 <= p <= 0 -> (step dnil c (OClean p now)).2 = RInt 0.
  Proof. intros Hp. simpl. rewrite mclean_noevict by lia. done. Qed.
  Lemma verify_none_reports_0 c now order : (step dnil c (OVerify None now order)).2 = RInt 0.
  Proof. simpl. unfold verify. by rewrite mclean_noevict by lia. Qed.

  (** ** TTL *)
  Lemma ttl_survives c k x p now now' order :
    c_items c !! k = Some x -> -100 <= p <= 0 ->
    fresh (c_expire c) (e_ctime x) (now k) -> fresh (c_expire c) (e_ctime x) (now' k) ->
    c_items (step dnil c (OClean p now)).1 !! k = Some x /\
    c_items (step dnil c (OVerify None now' order)).1 !! k = Some x.
  Proof.
    intros Hx Hp Hf Hf'. simpl. unfold verify. rewrite !mclean_noevict by lia. simpl.
    rewrite !purge_lookup. unfold fresh, before_now in *. split; (split; [done|lia]).
  Qed.

  (** ** Flush *)
  Lemma flush_empties c k ops c' tr v t1 t2 t3 :
    Forall (fun o => forall d tc tr now, o <> OSet k d tc tr now) ops ->
    run dnil c (OFlush :: ops) = (c', tr) ->
    step dnil c' (OGet k v t1 t2 t3) = (c', RGet dnil false).
  Proof.
    intros Hf Hr. apply get_absent. simpl in Hr.
    destruct (run dnil (flush c) ops) as [c2 tr2] eqn:E. injection Hr as <- <-.
    eapply (run_absent dnil (flush c)); [|exact Hf|exact E]. simpl. apply lookup_empty.
  Qed.

  (** ** Other keys *)
  Lemma other_keys c o k a c' r :
    match o with
    | OSetTTL k' _ | OGet k' _ _ _ _ | ODel k' => k' = k
    | OSet k' _ _ _ _ => k' = k /\ (c_max c <= 0 \/ Z.of_nat (size (c_items c)) + 1 < c_max c)
    | _ => False
    end -> a <> k -> step dnil c o = (c', r) -> c_items c' !! a = c_items c !! a.
  Proof.
    intros Ho Hne Hs. destruct o; simpl in Hs; try done.
    - destruct Ho as [-> Hsz]. unfold set in Hs.
      pose proof (size_insert_le (c_items c) k (Entry tc tr 0 d)) as Hle.
      rewrite bool_decide_eq_false_2 in Hs by lia. injection Hs as <- <-. simpl. by rewrite lookup_insert_ne.
    - subst k0. injection Hs as <- <-. unfold set_ttl. destruct (c_items c !! k); [|done].
      simpl. by rewrite lookup_insert_ne.
    - subst k0. unfold get in Hs. destruct (c_items c !! k) as [x|]; [|by injection Hs as <- <-].
      destruct (rejected _ _ _ _ _ _); injection Hs as <- <-; simpl;
        [by rewrite lookup_delete_ne|by rewrite lookup_insert_ne].
    - subst k0. injection Hs as <- <-. simpl. by rewrite lookup_delete_ne.
  Qed.

  (** ** Unbounded growth after repeated Flush *)
  Definition zero_clock : bytes -> Z := fun _ => 0.
  Definition grow_ops (d : D) (n : nat) : list (op D) :=
    concat (replicate n [OSet (B "b") d 0 0 zero_clock; OFlush]).
  Definition fill_ops (d : D) (n : nat) : list (op D) :=
    (fun i => OSet (replicate i "a"%char) d 0 0 zero_clock) <$> seq 0 n.

  Lemma evict_stale m n b l items :
    (m <= n)%nat -> items !! b = None ->
    evict m (replicate n b ++ l) items = (false, items, replicate (n - m) b ++ l).
  Proof.
    intros Hle Hb. revert n Hle. induction m as [|m IH]; intros n Hle; simpl.
    - by rewrite Nat.sub_0_r.
    - destruct n as [|n]; [lia|]. simpl. rewrite delete_notin by done. apply IH. lia.
  Qed.
  Lemma set_stale M items n b l k d :
    items !! b = None -> items !! k = None -> k <> b -> (S (size items) <= n)%nat ->
    exists m, (n <= m + S (size items))%nat /\
      step dnil (Cache M 0 items (replicate n b ++ l)) (OSet k d 0 0 zero_clock) =
      (Cache M 0 (<[k := Entry 0 0 0 d]> items) (replicate m b ++ l ++ [k]), RUnit).
  Proof.
    intros Hb Hk Hne Hn. simpl. unfold set. simpl. rewrite Hk.
    rewrite (bool_decide_eq_false_2 (is_Some (@None (entry D)))) by (by intros []). rewrite map_size_insert_None by done.
    destruct (bool_decide _).
    - unfold mclean. simpl. rewrite purge_zero, map_size_insert_None by done.
      rewrite <- app_assoc. set (q := Z.to_nat (quota (Z.of_nat (S (size items))) 10)).
      assert (q <= S (size items))%nat. { unfold q. rewrite quota_div by lia. lia. }
      rewrite evict_stale; [|lia|by rewrite lookup_insert_ne].
      exists (n - q)%nat. split; [lia|done].
    - exists n. split; [lia|]. by rewrite <- app_assoc.
  Qed.
  Lemma grow_run M d n i c tr :
    run dnil (Cache M 0 ∅ (replicate i (B "b"))) (grow_ops d n) = (c, tr) ->
    c = Cache M 0 ∅ (replicate (i + n) (B "b")).
  Proof.
    revert i tr. induction n as [|n IH]; intros i tr Hr.
    - simpl in Hr. injection Hr as <- <-. by rewrite Nat.add_0_r.
    - assert (Hs : set (Cache M 0 ∅ (replicate i (B "b"))) (B "b") d 0 0 zero_clock =
        (Cache M 0 (<[B "b" := Entry 0 0 0 d]> ∅) (replicate (S i) (B "b")), RUnit)).
      { unfold set. simpl. rewrite replicate_cons_app. by destruct (bool_decide _). }
      change (grow_ops d (S n)) with (OSet (B "b") d 0 0 zero_clock :: OFlush :: grow_ops d n) in Hr.
      cbn [run step] in Hr. rewrite Hs in Hr.
      change (flush _) with (Cache M 0 (∅ : gmap bytes (entry D)) (replicate (S i) (B "b"))) in Hr.
      destruct (run dnil (Cache M 0 ∅ (replicate (S i) (B "b"))) (grow_ops d n)) as [c2 tr2] eqn:E.
      injection Hr as <- <-. rewrite (IH _ _ E). f_equal. f_equal. lia.
  Qed.
  Lemma fill_run M d n m i items l c tr :
    (n * (i + n) <= m)%nat -> size items = i -> items !! B "b" = None ->
    (forall j, items !! replicate j "a"%char = None <-> (i <= j)%nat) ->
    run dnil (Cache M 0 items (replicate m (B "b") ++ l))
        ((fun i => OSet (replicate i "a"%char) d 0 0 zero_clock) <$> seq i n) = (c, tr) ->
    size (c_items c) = (i + n)%nat.
  Proof.
    revert m i items l tr. induction n as [|n IH]; intros m i items l tr Hm Hi Hb Ha Hr; simpl in Hr.
    - injection Hr as <- <-. simpl. lia.
    - destruct (set_stale M items m (B "b") l (replicate i "a"%char) d) as (m' & Hm' & Hs); [done|by apply Ha| |lia|].
      { intros Heq; destruct i as [|[|i]]; cbn in Heq; discriminate. }
      simpl in Hs. rewrite Hs in Hr.
      match type of Hr with context [run dnil ?y ?o] => destruct (run dnil y o) as [c2 tr2] eqn:E end.
      injection Hr as <- <-. apply IH in E.
      + lia.
      + lia.
      + rewrite map_size_insert_None; [lia|by apply Ha].
      + rewrite lookup_insert_ne; [done|]. intros Heq; destruct i as [|[|i]]; cbn in Heq; discriminate.
      + intros j. destruct (decide (j = i)) as [->|Hne].
        * rewrite lookup_insert. split; [done|lia].
        * rewrite lookup_insert_ne; [rewrite Ha; lia|].
          intros Heq. apply (f_equal length) in Heq. rewrite !replicate_length in Heq. done.
  Qed.
  Lemma unbounded M d N :
    exists ops, Forall (fun o => (exists k, o = OSet k d 0 0 zero_clock) \/ o = OFlush) ops /\
      (step dnil (run dnil (new_cache M 0) ops).1 OCount).2 = RInt (Z.of_nat N).
  Proof.
    exists (grow_ops d (N * N) ++ fill_ops d N). split.
    - apply Forall_app. split.
      + unfold grow_ops. induction (N * N)%nat as [|n IH]; simpl; [constructor|].
        constructor; [left; eauto|]. constructor; [by right|]. done.
      + unfold fill_ops. apply Forall_fmap, Forall_forall. intros i _. simpl. eauto.
    - rewrite run_app. destruct (run dnil (new_cache M 0) (grow_ops d (N * N))) as [c1 tr1] eqn:E1.
      apply (grow_run M d (N * N) 0) in E1. subst c1. rewrite Nat.add_0_l.
      destruct (run dnil (Cache M 0 ∅ (replicate (N * N) (B "b"))) (fill_ops d N)) as [c2 tr2] eqn:E2.
      simpl. rewrite <- (app_nil_r (replicate _ _)) in E2.
      rewrite (fill_run M d N (N * N) 0 ∅ [] c2 tr2); try done.
      + intros j. rewrite lookup_empty. split; [lia|done].
  Qed.
End CacheProofs3.
