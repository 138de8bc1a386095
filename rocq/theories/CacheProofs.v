(** * Proofs about the sequential cache model. *)
From Verif Require Import GoBase CacheModel CacheSpec.
From Coq Require Import Lia ZifyBool ZifyNat.
Local Open Scope Z_scope.
Ltac Zify.zify_post_hook ::= Z.to_euclidean_division_equations.

Section CacheProofs.
  Context {D : Type} (dnil : D).
  Implicit Types (k a b : bytes) (d : D) (c : cache D) (pile : list bytes) (items : gmap bytes (entry D)).
  Notation event := (op D * result D)%type.

  (** ** Recency list *)
  Lemma remove_first_sub k x pile : x ∈ remove_first k pile -> x ∈ pile.
  Proof.
    induction pile as [|y pile IH]; simpl; [done|].
    destruct (decide (y = k)) as [->|Hne]; [by right|].
    rewrite !elem_of_cons. naive_solver.
  Qed.
  Lemma remove_first_other k x pile : x <> k -> x ∈ pile -> x ∈ remove_first k pile.
  Proof.
    intros Hne. induction pile as [|y pile IH]; simpl; [done|].
    rewrite elem_of_cons. destruct (decide (y = k)) as [->|Hy]; [naive_solver|].
    rewrite elem_of_cons. naive_solver.
  Qed.
  Lemma remove_first_NoDup k pile : NoDup pile -> NoDup (remove_first k pile) /\ k ∉ remove_first k pile.
  Proof.
    induction 1 as [|y pile Hy Hn IH]; simpl; [split; [constructor|apply not_elem_of_nil]|].
    destruct (decide (y = k)) as [->|Hne]; [done|].
    split.
    - constructor; [|apply IH]. intros Hin%remove_first_sub. done.
    - rewrite elem_of_cons. intros [->|Hin]; [done|]. by apply IH.
  Qed.
  Lemma remove_first_notin k pile : k ∉ pile -> remove_first k pile = pile.
  Proof.
    induction pile as [|y pile IH]; simpl; [done|].
    rewrite not_elem_of_cons. intros [Hne Hni]. destruct (decide (y = k)) as [->|]; [done|]. by rewrite IH.
  Qed.
  Lemma remove_first_app k l1 l2 : k ∉ l1 -> remove_first k (l1 ++ k :: l2) = l1 ++ l2.
  Proof.
    induction l1 as [|y l1 IH]; simpl; [by rewrite decide_True|].
    rewrite not_elem_of_cons. intros [Hne Hni]. rewrite decide_False by done. by rewrite IH.
  Qed.
  Lemma remove_first_length k pile : k ∈ pile -> S (length (remove_first k pile)) = length pile.
  Proof.
    induction pile as [|y pile IH]; simpl; [by intros ?%elem_of_nil|].
    rewrite elem_of_cons. destruct (decide (y = k)) as [->|Hne]; [done|].
    intros [->|Hin]; [done|]. simpl. rewrite IH; done.
  Qed.

  (** ** Keys of a map *)
  Definition keys {E : Type} (items : gmap bytes E) : list bytes := (map_to_list items).*1.
  Lemma keys_length {E : Type} (items : gmap bytes E) : length (keys items) = size items.
  Proof. unfold keys. by rewrite fmap_length. Qed.
  Lemma keys_NoDup {E : Type} (items : gmap bytes E) : NoDup (keys items).
  Proof. apply NoDup_fst_map_to_list. Qed.
  Lemma elem_of_keys {E : Type} (items : gmap bytes E) k : k ∈ keys items <-> is_Some (items !! k).
  Proof.
    unfold keys. rewrite elem_of_list_fmap. split.
    - intros ([k' x] & -> & Hin). apply elem_of_map_to_list in Hin. simpl. eauto.
    - intros [x Hx]. exists (k, x). split; [done|]. by apply elem_of_map_to_list.
  Qed.
  Lemma size_same_keys {E : Type} (m1 : gmap bytes (entry D)) (m2 : gmap bytes E) :
    (forall k, is_Some (m1 !! k) <-> is_Some (m2 !! k)) -> size m1 = size m2.
  Proof.
    intros Hk. rewrite <- !size_dom. f_equal. apply leibniz_equiv.
    intros k. rewrite !elem_of_dom. apply Hk.
  Qed.

  (** ** Purge and eviction *)
  Lemma purge_lookup e now items k x :
    purge e now items !! k = Some x <->
    items !! k = Some x /\ (e = 0 \/ before_now (e_ctime x) e (now k) = false).
  Proof.
    unfold purge. destruct (decide (e = 0)) as [->|Hne]; [naive_solver|].
    rewrite map_filter_lookup_Some. simpl. naive_solver.
  Qed.
  Lemma purge_zero now items : purge 0 now items = items.
  Proof. done. Qed.
  Lemma purge_size e now items : (size (purge e now items) <= size items)%nat.
  Proof.
    unfold purge. destruct (decide (e = 0)) as [->|Hne]; [done|].
    rewrite <- !keys_length. apply submseteq_length, NoDup_submseteq; [apply keys_NoDup|].
    intros k [x [Hx _]%map_filter_lookup_Some]%elem_of_keys. apply elem_of_keys. eauto.
  Qed.

  Lemma evict_ok {E : Type} (n : nat) pile (items : gmap bytes E) :
    (n <= length pile)%nat ->
    exists (items' : gmap bytes E), evict n pile items = (false, items', drop n pile) /\
      (forall k, items' !! k = if decide (k ∈ take n pile) then None else items !! k).
  Proof.
    revert pile items. induction n as [|n IH]; intros pile items Hn.
    - exists items. split; [done|]. intros k. rewrite decide_False; [done|]. apply not_elem_of_nil.
    - destruct pile as [|x pile]; [simpl in Hn; lia|].
      destruct (IH pile (delete x items)) as (items' & He & Hl); [simpl in Hn; lia|].
      exists items'. split; [done|].
      intros k. rewrite Hl. simpl.
      destruct (decide (k ∈ take n pile)) as [Hin|Hni].
      + rewrite decide_True by by right. done.
      + destruct (decide (k = x)) as [->|Hne].
        * rewrite lookup_delete, decide_True by by left. done.
        * rewrite lookup_delete_ne by done. rewrite decide_False; [done|].
          rewrite elem_of_cons. naive_solver.
  Qed.
  Lemma evict_panic {E : Type} (n : nat) pile (items : gmap bytes E) :
    (length pile < n)%nat -> exists (items' : gmap bytes E), evict n pile items = (true, items', []) /\
      (forall k, items' !! k = if decide (k ∈ pile) then None else items !! k).
  Proof.
    revert pile items. induction n as [|n IH]; intros pile items Hn; [lia|].
    destruct pile as [|x pile].
    - exists items. split; [done|]. intros k. rewrite decide_False; [done|]. apply not_elem_of_nil.
    - destruct (IH pile (delete x items)) as (items' & He & Hl); [simpl in Hn; lia|].
      exists items'. split; [done|]. intros k. rewrite Hl.
      destruct (decide (k ∈ pile)) as [Hin|Hni].
      + rewrite decide_True by by right. done.
      + destruct (decide (k = x)) as [->|Hne].
        * rewrite lookup_delete, decide_True by by left. done.
        * rewrite lookup_delete_ne by done. rewrite decide_False; [done|].
          rewrite elem_of_cons. naive_solver.
  Qed.

  Lemma quota_nonneg n p : 0 <= n -> 0 <= p -> 0 <= quota n p.
  Proof. unfold quota. intros. apply Z.quot_pos; nia. Qed.
  Lemma quota_le n p : 0 <= n -> p <= 100 -> quota n p <= n.
  Proof. unfold quota. intros. nia. Qed.
  Lemma quota_neg n p : 0 <= n -> p <= 0 -> quota n p <= 0.
  Proof. unfold quota. intros. nia. Qed.
  Lemma quota_div n p : 0 <= n -> 0 <= p -> quota n p = n * p / 100.
  Proof. unfold quota. intros. apply Z.quot_div_nonneg; nia. Qed.

  (** ** First invariant: every stored key is in the recency list *)
  Definition covered {E : Type} (items : gmap bytes E) pile : Prop := forall k, is_Some (items !! k) -> k ∈ pile.

  Lemma covered_size {E : Type} (items : gmap bytes E) pile : covered items pile -> (size items <= length pile)%nat.
  Proof.
    intros Hc. rewrite <- keys_length. apply submseteq_length, NoDup_submseteq; [apply keys_NoDup|].
    intros k Hk%elem_of_keys. by apply Hc.
  Qed.

  (** The cleaning, when every stored key is in the recency list. *)
  Lemma mclean_ok c perc now :
    covered (c_items c) (c_pile c) -> perc <= 100 ->
    let items1 := purge (c_expire c) now (c_items c) in
    let n := Z.to_nat (quota (Z.of_nat (size items1)) perc) in
    exists items',
      mclean c perc now = (Cache (c_max c) (c_expire c) items' (drop n (c_pile c)), RInt (Z.of_nat n)) /\
      (n <= length (c_pile c))%nat /\
      (forall k, items' !! k = if decide (k ∈ take n (c_pile c)) then None else items1 !! k).
  Proof.
    intros Hc Hp items1 n.
    assert (Hn : (n <= length (c_pile c))%nat).
    { assert (size items1 <= size (c_items c))%nat by apply purge_size.
      pose proof (covered_size _ _ Hc).
      pose proof (quota_le (Z.of_nat (size items1)) perc). lia. }
    destruct (evict_ok n (c_pile c) items1 Hn) as (items' & He & Hl).
    exists items'. split_and!; [|done|done].
    unfold mclean. fold items1. fold n. rewrite He. f_equal. f_equal. lia.
  Qed.

  Lemma mclean_covered c perc now :
    covered (c_items c) (c_pile c) -> perc <= 100 ->
    covered (c_items (mclean c perc now).1) (c_pile (mclean c perc now).1) /\
    (mclean c perc now).2 <> RPanic.
  Proof.
    intros Hc Hp. destruct (mclean_ok c perc now Hc Hp) as (items' & -> & Hn & Hl).
    simpl. split; [|done].
    intros k. rewrite Hl. destruct (decide _) as [Hin|Hni]; [by intros []|].
    intros [x [Hx _]%purge_lookup].
    assert (Hk : k ∈ c_pile c) by (apply Hc; eauto).
    rewrite <- (take_drop (Z.to_nat (quota (Z.of_nat (size (purge (c_expire c) now (c_items c)))) perc)) (c_pile c)) in Hk.
    apply elem_of_app in Hk. naive_solver.
  Qed.

  Lemma set_covered c k d tc tr now :
    covered (c_items c) (c_pile c) ->
    covered (c_items (set c k d tc tr now).1) (c_pile (set c k d tc tr now).1) /\
    (set c k d tc tr now).2 <> RPanic.
  Proof.
    intros Hc. unfold set.
    match goal with |- context [mclean ?x 10 now] => set (c1 := x) end.
    assert (Hc1 : covered (c_items c1) (c_pile c1)).
    { intros k'. simpl. rewrite elem_of_app, elem_of_list_singleton.
      destruct (decide (k' = k)) as [->|Hne]; [by right|].
      rewrite lookup_insert_ne by done. intros Hs. left.
      apply Hc in Hs. destruct (bool_decide _); [|done]. by apply remove_first_other. }
    destruct (bool_decide (c_max c > 0 /\ _)); [|done].
    destruct (mclean_covered c1 10 now Hc1) as [H1 H2]; [lia|].
    destruct (mclean c1 10 now) as [c2 r] eqn:E. simpl in *. by destruct r.
  Qed.

  Lemma del_covered c k : covered (c_items c) (c_pile c) -> covered (c_items (del c k)) (c_pile (del c k)).
  Proof.
    intros Hc k'. simpl. destruct (decide (k' = k)) as [->|Hne].
    - rewrite lookup_delete. by intros [].
    - rewrite lookup_delete_ne by done. intros Hs. apply remove_first_other; [done|]. by apply Hc.
  Qed.

  Lemma get_covered c k v t1 t2 t3 :
    covered (c_items c) (c_pile c) ->
    covered (c_items (get dnil c k v t1 t2 t3).1) (c_pile (get dnil c k v t1 t2 t3).1) /\
    (get dnil c k v t1 t2 t3).2 <> RPanic.
  Proof.
    intros Hc. unfold get. destruct (c_items c !! k) as [x|] eqn:Hx; [|done].
    destruct (rejected _ _ _ _ _ _); [by split; [apply del_covered|]|].
    split; [|done]. intros k'. simpl. rewrite elem_of_app, elem_of_list_singleton.
    destruct (decide (k' = k)) as [->|Hne]; [by right|].
    rewrite lookup_insert_ne by done. intros Hs. left. apply remove_first_other; [done|]. by apply Hc.
  Qed.

  Lemma verify_loop_covered f order c i :
    covered (c_items c) (c_pile c) ->
    covered (c_items (verify_loop f order c i).1) (c_pile (verify_loop f order c i).1).
  Proof.
    revert c i. induction order as [|k order IH]; intros c i Hc; simpl; [done|].
    destruct (c_items c !! k) as [x|]; [|by apply IH].
    destruct (f k (e_ctime x)); [by apply IH|]. apply IH. by apply del_covered.
  Qed.

  Lemma step_covered c o :
    perc_ok o -> covered (c_items c) (c_pile c) ->
    covered (c_items (step dnil c o).1) (c_pile (step dnil c o).1) /\ (step dnil c o).2 <> RPanic.
  Proof.
    intros Hp Hc. destruct o; simpl.
    - by apply set_covered.
    - split; [|done]. unfold set_ttl. destruct (c_items c !! k) as [x|] eqn:Hx; [|done].
      intros k'. simpl. destruct (decide (k' = k)) as [->|Hne]; [|rewrite lookup_insert_ne by done; apply Hc].
      intros _. apply Hc. eauto.
    - by apply get_covered.
    - split; [|done]. by apply del_covered.
    - done.
    - simpl in Hp. apply mclean_covered; [done|lia].
    - unfold verify. destruct (mclean_covered c 0 now Hc) as [H1 H2]; [lia|].
      destruct (mclean c 0 now) as [c1 r]. simpl in *.
      destruct r; try done. destruct v as [f|]; [|done].
      pose proof (verify_loop_covered f (order (c_items c1)) c1 n H1) as Hv.
      destruct (verify_loop _ _ _ _) as [c2 i2]. done.
    - split; [|done]. intros k. simpl. rewrite lookup_empty. by intros [].
    - done.
    - done.
  Qed.

  Lemma run_app c ops1 ops2 :
    run dnil c (ops1 ++ ops2) =
    let '(c1, tr1) := run dnil c ops1 in let '(c2, tr2) := run dnil c1 ops2 in (c2, tr1 ++ tr2).
  Proof.
    revert c. induction ops1 as [|o ops1 IH]; intros c; simpl.
    - by destruct (run dnil c ops2).
    - destruct (step dnil c o) as [c1 r]. rewrite IH.
      destruct (run dnil c1 ops1) as [c2 tr1]. by destruct (run dnil c2 ops2).
  Qed.
  Lemma run_snoc c ops o :
    run dnil c (ops ++ [o]) =
    let '(c1, tr1) := run dnil c ops in let '(c2, r) := step dnil c1 o in (c2, tr1 ++ [(o, r)]).
  Proof.
    rewrite run_app. destruct (run dnil c ops) as [c1 tr1]. simpl. by destruct (step dnil c1 o).
  Qed.

  (** Invariants over histories. *)
  Lemma run_invariant (P : cache D -> list event -> Prop) (Q : op D -> Prop) c0 :
    P c0 [] ->
    (forall c tr o c' r, P c tr -> Q o -> step dnil c o = (c', r) -> P c' (tr ++ [(o, r)])) ->
    forall ops c tr, Forall Q ops -> run dnil c0 ops = (c, tr) -> P c tr.
  Proof.
    intros H0 HS ops. induction ops as [|o ops IH] using rev_ind; intros c tr Hf Hr.
    - simpl in Hr. by simplify_eq.
    - rewrite run_snoc in Hr. apply Forall_app in Hf as [Hf1 Hf2].
      rewrite Forall_singleton in Hf2.
      destruct (run dnil c0 ops) as [c1 tr1] eqn:E1. destruct (step dnil c1 o) as [c2 r] eqn:E2.
      injection Hr as <- <-. eapply HS; [by apply (IH c1 tr1)|exact Hf2|exact E2].
  Qed.

  Lemma run_covered mx ex ops c tr :
    Forall perc_ok ops -> run dnil (new_cache mx ex) ops = (c, tr) ->
    covered (c_items c) (c_pile c) /\ Forall (fun e => e.2 <> RPanic) tr.
  Proof.
    intros Hf Hr.
    apply (run_invariant (fun c tr => covered (c_items c) (c_pile c) /\ Forall (fun e : event => e.2 <> RPanic) tr)
             perc_ok (new_cache mx ex)) with (ops := ops); try done.
    - split; [|constructor]. intros k. simpl. rewrite lookup_empty. by intros [].
    - intros c1 tr1 o c2 r [H1 H2] Ho Hs.
      destruct (step_covered c1 o Ho H1) as [H3 H4]. rewrite Hs in H3, H4. simpl in *.
      split; [done|]. apply Forall_app. split; [done|]. by apply Forall_singleton.
  Qed.

  (** ** What a hit returns *)
  Lemma latest_snoc k (tr : list event) e : latest k (tr ++ [e]) = latest_ev k (latest k tr) e.
  Proof. unfold latest. by rewrite fold_left_app. Qed.

  Definition faithful c tr : Prop := forall k x, c_items c !! k = Some x -> latest k tr = Some (e_data x).

  Lemma mclean_sub c perc now k x :
    c_items (mclean c perc now).1 !! k = Some x -> c_items c !! k = Some x.
  Proof.
    unfold mclean. set (n := Z.to_nat _). set (i1 := purge _ _ _).
    destruct (decide (n <= length (c_pile c))%nat) as [Hle|Hgt].
    - destruct (evict_ok n (c_pile c) i1 Hle) as (i2 & -> & Hl). simpl. rewrite Hl.
      destruct (decide _); [done|]. intros H. by apply purge_lookup in H as [H _].
    - destruct (evict_panic n (c_pile c) i1) as (i2 & -> & Hl); [lia|]. simpl. rewrite Hl.
      destruct (decide _); [done|]. intros H. by apply purge_lookup in H as [H _].
  Qed.

  Lemma verify_loop_sub f order c i k x :
    c_items (verify_loop f order c i).1 !! k = Some x -> c_items c !! k = Some x.
  Proof.
    revert c i. induction order as [|k' order IH]; intros c i; simpl; [done|].
    destruct (c_items c !! k') as [y|] eqn:E; [|apply IH].
    destruct (f k' (e_ctime y)); [apply IH|]. intros H. apply IH in H. simpl in H.
    by apply lookup_delete_Some in H as [_ H].
  Qed.

  Lemma step_faithful c tr o c' r :
    faithful c tr -> step dnil c o = (c', r) -> faithful c' (tr ++ [(o, r)]).
  Proof.
    intros HF Hs k x Hx. rewrite latest_snoc.
    destruct o; simpl in Hs |- *.
    - (* Set *)
      assert (Hor : (k = k0 /\ e_data x = d) \/ (k <> k0 /\ c_items c !! k = Some x)).
      { unfold set in Hs.
        match type of Hs with context [mclean ?y 10 now] => set (c1 := y) in * end.
        assert (H1 : c_items c1 !! k = Some x).
        { destruct (bool_decide (c_max c > 0 /\ _)).
          - destruct (mclean c1 10 now) as [c2 r2] eqn:E.
            assert (c' = c2) as -> by (destruct r2; by simplify_eq).
            apply (mclean_sub c1 10 now). by rewrite E.
          - by simplify_eq. }
        simpl in H1. apply lookup_insert_Some in H1 as [[-> <-]|[Hne H1]]; [by left|by right]. }
      destruct Hor as [[-> <-]|[Hne H1]].
      + destruct r; by rewrite decide_True.
      + destruct r; rewrite decide_False by done; by apply HF.
    - simplify_eq. unfold set_ttl in Hx. destruct (c_items c !! k0) as [y|] eqn:E; [|by apply HF].
      simpl in Hx. apply lookup_insert_Some in Hx as [[-> <-]|[Hne Hx]]; [|by apply HF].
      simpl. by apply (HF k y).
    - unfold get in Hs. destruct (c_items c !! k0) as [y|] eqn:E.
      + destruct (rejected _ _ _ _ _ _); simplify_eq; simpl in Hx |- *.
        * apply lookup_delete_Some in Hx as [Hne Hx]. rewrite decide_False by done. by apply HF.
        * apply lookup_insert_Some in Hx as [[-> <-]|[Hne Hx]]; [|by apply HF]. simpl. by apply (HF k y).
      + simplify_eq. by apply HF.
    - simplify_eq. simpl in Hx. apply lookup_delete_Some in Hx as [Hne Hx].
      rewrite decide_False by done. by apply HF.
    - simplify_eq. by apply HF.
    - apply HF. assert (c' = (mclean c perc now).1) as -> by by rewrite Hs.
      by apply mclean_sub in Hx.
    - apply HF. unfold verify in Hs. destruct (mclean c 0 now) as [c1 r1] eqn:E.
      apply (mclean_sub c 0 now). rewrite E. simpl.
      destruct r1; simplify_eq; try done. destruct v as [f|]; [|by simplify_eq].
      destruct (verify_loop f (order (c_items c1)) c1 n) as [c2 i2] eqn:E2. simplify_eq.
      apply (verify_loop_sub f (order (c_items c1)) c1 n). by rewrite E2.
    - injection Hs as <- <-. simpl in Hx. by rewrite lookup_empty in Hx.
    - simplify_eq. by apply HF.
    - simplify_eq. by apply HF.
  Qed.

  Lemma run_faithful mx ex ops c tr : run dnil (new_cache mx ex) ops = (c, tr) -> faithful c tr.
  Proof.
    intros Hr. eapply (run_invariant faithful (fun _ => True)); [| |by apply Forall_true|done].
    - intros k x. simpl. by rewrite lookup_empty.
    - intros c1 tr1 o c2 r HF _ Hs. by eapply step_faithful.
  Qed.

  Lemma hit_is_latest mx ex ops c tr k v t1 t2 t3 c' d :
    run dnil (new_cache mx ex) ops = (c, tr) ->
    step dnil c (OGet k v t1 t2 t3) = (c', RGet d false) ->
    (d = dnil /\ c' = c) \/ latest k tr = Some d.
  Proof.
    intros Hr. simpl. unfold get. pose proof (run_faithful _ _ _ _ _ Hr k) as HF.
    destruct (c_items c !! k) as [x|] eqn:E; [|intros; simplify_eq; by left].
    destruct (rejected _ _ _ _ _ _); intros; simplify_eq. right. by apply HF.
  Qed.
End CacheProofs.
