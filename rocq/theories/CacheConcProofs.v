(** * Invariants of the concurrent cache. *)
From Verif Require Import GoBase CacheModel CacheProofs CacheConc.
From Coq Require Import Lia ZifyBool ZifyNat.
Local Open Scope Z_scope.
Ltac Zify.zify_post_hook ::= Z.to_euclidean_division_equations.

Section CacheConcProofs.
  Context {D : Type} (dnil : D).
  Implicit Types (k : bytes) (d : D) (s : shared D) (g : config D) (t : nat) (x : positive).
  Notation trace := (list (label D * shared D)).

  (** ** Executions *)
  Lemma exec_app g acts1 acts2 :
    exec dnil g (acts1 ++ acts2) =
    match exec dnil g acts1 with
    | None => None
    | Some (g1, tr1) => match exec dnil g1 acts2 with None => None | Some (g2, tr2) => Some (g2, tr1 ++ tr2) end
    end.
  Proof.
    revert g. induction acts1 as [|a acts1 IH]; intros g; simpl.
    - by destruct (exec dnil g acts2) as [[]|].
    - destruct (cstep dnil g a) as [[g1 l]|]; [|done]. rewrite IH.
      destruct (exec dnil g1 acts1) as [[g2 tr2]|]; [|done].
      by destruct (exec dnil g2 acts2) as [[]|].
  Qed.
  Lemma exec_snoc g acts a :
    exec dnil g (acts ++ [a]) =
    match exec dnil g acts with
    | None => None
    | Some (g1, tr1) => match cstep dnil g1 a with None => None | Some (g2, l) => Some (g2, tr1 ++ [(l, g_shared g2)]) end
    end.
  Proof.
    rewrite exec_app. destruct (exec dnil g acts) as [[g1 tr1]|]; [|done]. simpl.
    by destruct (cstep dnil g1 a) as [[]|].
  Qed.
  Lemma exec_invariant (P : config D -> trace -> Prop) (Q : action D -> Prop) g0 :
    P g0 [] ->
    (forall g tr a g' l, P g tr -> Q a -> cstep dnil g a = Some (g', l) -> P g' (tr ++ [(l, g_shared g')])) ->
    forall acts g tr, Forall Q acts -> exec dnil g0 acts = Some (g, tr) -> P g tr.
  Proof.
    intros H0 HS acts. induction acts as [|a acts IH] using rev_ind; intros g tr Hq He.
    - simpl in He. by simplify_eq.
    - apply Forall_app in Hq as [Hq Ha]. rewrite Forall_singleton in Ha.
      rewrite exec_snoc in He. destruct (exec dnil g0 acts) as [[g1 tr1]|] eqn:E; [|done].
      destruct (cstep dnil g1 a) as [[g2 l]|] eqn:E2; [|done]. simplify_eq.
      eapply HS; [|done|done]. by apply IH.
  Qed.

  Lemma upd_same f t (v : tstate (D:=D)) : upd f t v t = v.
  Proof. unfold upd. by rewrite decide_True. Qed.
  Lemma upd_other f t t' (v : tstate (D:=D)) : t' <> t -> upd f t v t' = f t'.
  Proof. intros. unfold upd. by rewrite decide_False. Qed.

  (** ** The recency list covers the items *)
  Definition ccovered s : Prop := covered (h_items s) (h_pile s).

  Lemma covered_del {E : Type} (items : gmap bytes E) pile k :
    covered items pile -> covered (delete k items) (remove_first k pile).
  Proof.
    intros Hc k'. destruct (decide (k' = k)) as [->|Hne].
    - rewrite lookup_delete. by intros [].
    - rewrite lookup_delete_ne by done. intros Hs. apply remove_first_other; [done|]. by apply Hc.
  Qed.
  Lemma covered_sub {E : Type} (items items' : gmap bytes E) pile :
    covered items pile -> items' ⊆ items -> covered items' pile.
  Proof. intros Hc Hs k [x Hx]. apply Hc. exists x. by eapply lookup_weaken. Qed.
  Lemma covered_touch {E : Type} (items : gmap bytes E) pile k :
    covered items pile -> covered items (remove_first k pile ++ [k]).
  Proof.
    intros Hc k' Hk. apply elem_of_app. destruct (decide (k' = k)) as [->|Hne]; [right; by left|].
    left. apply remove_first_other; [done|]. by apply Hc.
  Qed.

  Lemma cclean_covered s p now rd s' r :
    ccovered s -> p <= 100 -> cclean s p now rd = (s', r) ->
    ccovered s' /\ (exists n, r = RInt n) /\ h_heap s' = h_heap s /\ h_items s' ⊆ h_items s.
  Proof.
    intros Hc Hp Hs. unfold cclean in Hs. set (i1 := if decide _ then _ else _) in Hs.
    assert (Hsub : i1 ⊆ h_items s).
    { unfold i1. destruct (decide _); [done|]. apply map_filter_subseteq. }
    assert (Hc1 : covered i1 (h_pile s)) by by eapply covered_sub.
    pose proof (covered_size _ _ Hc1) as Hle.
    set (n := Z.to_nat _) in Hs.
    assert (Hn : (n <= length (h_pile s))%nat).
    { unfold n. pose proof (quota_le (Z.of_nat (size i1)) p). lia. }
    destruct (evict_ok n (h_pile s) i1 Hn) as (i2 & He & Hl). rewrite He in Hs. injection Hs as <- <-.
    split_and!; simpl; [|eauto|done|].
    - intros k [x Hx]. simpl in Hx |- *. rewrite Hl in Hx.
      destruct (decide (k ∈ take n (h_pile s))) as [|Hni]; [done|].
      assert (Hk : k ∈ h_pile s) by (apply Hc1; eauto).
      rewrite <- (take_drop n (h_pile s)) in Hk. apply elem_of_app in Hk. naive_solver.
    - apply map_subseteq_spec. intros k x. rewrite Hl. destruct (decide (k ∈ take n (h_pile s))); [done|].
      intros Hx. by eapply lookup_weaken.
  Qed.
  Lemma cset_covered s k d i s' r :
    ccovered s -> cset s k d i = (s', r) ->
    ccovered s' /\ r = RUnit /\ h_heap s' = <[in_loc i := Entry (in_t1 i) (in_t2 i) 0 d]> (h_heap s) /\
    h_items s' ⊆ <[k := in_loc i]> (h_items s).
  Proof.
    intros Hc Hs. unfold cset in Hs.
    match type of Hs with context [cclean ?y 10 _ _] => set (s1 := y) in * end.
    assert (Hc1 : ccovered s1).
    { intros k'. simpl. destruct (decide (k' = k)) as [->|Hne].
      - intros _. apply elem_of_app. right. by left.
      - rewrite lookup_insert_ne by done. intros Hk%Hc. apply elem_of_app. left.
        destruct (bool_decide (is_Some _)); [by apply remove_first_other|done]. }
    destruct (bool_decide (rd_max1 _ > 0 /\ _)).
    - destruct (cclean s1 10 (in_now i) (reads s i)) as [s2 r2] eqn:E.
      apply cclean_covered in E as (H1 & (n & ->) & H3 & H4); [|done|lia]. by simplify_eq.
    - by simplify_eq.
  Qed.

  (** ** Every step *)
  Ltac open_lookups Ht :=
    repeat match type of Ht with
    | match ?a !! ?b with _ => _ end = _ => destruct (a !! b) eqn:?; simplify_eq
    | Some _ = Some _ => simplify_eq
    end.
  Definition no_panic (p : pc D) : Prop := p <> Exit RPanic.
  Definition call_ok (c : call D) : Prop := match c with CClean p => -100 <= p <= 100 | _ => True end.
  Definition action_ok (a : action D) : Prop := match a with AInv _ c => call_ok c | _ => True end.

  Lemma verify_head s v m start visited n i s' p' : tstep dnil s (CVerify v) (VLoop m start visited n) i = Some (s', p') ->
    s' = s /\ ((exists k x, p' = VVal k x m start (<[k := x]> visited) n) \/ p' = Exit (RInt n)).
  Proof.
    simpl. (destruct (in_key i) as [k|]; [destruct (map_no s m !! k) as [x|]; [|done]|]); case_decide; intros; simplify_eq; eauto.
  Qed.
  Lemma verify_val s v k x m start visited n i s' p' : tstep dnil s (CVerify v) (VVal k x m start visited n) i = Some (s', p') ->
    s' = s /\ (p' = VLoop m start visited n \/ p' = VDel k m start visited n \/ (p' = Exit RPanic /\ in_says i = Some Crash)).
  Proof.
    simpl. destruct v as [f|]; [|done]. destruct (h_heap s !! x) as [e|]; [|done]. intros. simplify_eq. unfold ruling.
    destruct (in_says i) as [[]|]; [..|destruct (f k (e_ctime e))]; eauto 10.
  Qed.
  Lemma tstep_covered s c p i s' p' :
    ccovered s -> call_ok c -> tstep dnil s c p i = Some (s', p') -> ccovered s' /\ (in_says i <> Some Crash -> no_panic p').
  Proof.
    intros Hc Hok Ht. unfold no_panic. destruct c, p; try (apply verify_head in Ht as [-> [(? & ? & ->)| ->]]; done); try (apply verify_val in Ht as [-> [->|[->|[-> ?]]]]; done); simpl in Ht; try done; open_lookups Ht; try done.
    - destruct (cset s k d i) as [s1 r] eqn:E. apply cset_covered in E as (H1 & -> & _); [|done]. by simplify_eq.
    - by destruct (decide _).
    - by destruct (before_now _ _ _).
    - destruct v as [f|]; simplify_eq; [|done]. split; [done|]. intros Hn. unfold ruling. destruct (in_says i) as [[]|]; [done..|by destruct (f k _)].
    - by destruct (decide _).
    - by destruct (before_now _ _ _).
    - split; [|done]. by apply covered_del.
    - split; [|done]. by apply covered_touch.
    - split; [|done]. by apply covered_del.
    - destruct (cclean s perc (in_now i) (reads s i)) as [s1 r] eqn:E.
      apply cclean_covered in E as (H1 & (n & ->) & _); [|done|simpl in *; lia]. by simplify_eq.
    - destruct (cclean s 0 (in_now i) (reads s i)) as [s1 r] eqn:E.
      apply cclean_covered in E as (H1 & (n & ->) & _); [|done|lia]. destruct v; by simplify_eq.
    - split; [|done]. by apply covered_del.
    - split; [|done]. intros k. simpl. rewrite lookup_empty. by intros [].
  Qed.

  (** The validator of thread [t] does not panic. *)
  Definition sound_for (t : nat) (acts : list (action D)) : Prop := forall i, AStep t i ∈ acts -> in_says i <> Some Crash.
  Lemma conc_covered mx ex acts g tr :
    Forall action_ok acts -> exec dnil (cinit mx ex) acts = Some (g, tr) -> ccovered (g_shared g).
  Proof.
    intros Hq He.
    eapply (exec_invariant (fun g tr => ccovered (g_shared g) /\ (forall t c p, g_threads g t = Some (c, p) -> call_ok c)) action_ok); [| |done|done].
    - split; [|done]. intros k. simpl. rewrite lookup_empty. by intros [].
    - clear. intros g tr a g' l (Hc & Ht) Ha Hs. destruct a as [t c|t i|t|mx'|ex']; simpl in Hs; [| | |by simplify_eq..].
      + destruct (g_threads g t) eqn:E; [done|]. simplify_eq. split; simpl; [done|].
        intros t' c' p'. destruct (decide (t' = t)) as [->|Hne]; [rewrite upd_same; intros; by simplify_eq|].
        rewrite upd_other by done. apply Ht.
      + destruct (g_threads g t) as [[c p]|] eqn:E; [|done].
        destruct (tstep _ _ _ _ _) as [[s' p']|] eqn:E2; [|done]. simplify_eq.
        pose proof (Ht _ _ _ E) as Hok. destruct (tstep_covered _ _ _ _ _ _ Hc Hok E2) as [H1 _]. split; simpl; [done|].
        intros t' c' p''. destruct (decide (t' = t)) as [->|Hne]; [rewrite upd_same; intros; by simplify_eq|].
        rewrite upd_other by done. apply Ht.
      + destruct (g_threads g t) as [[c [| | | | | | | | | | | | |r]]|] eqn:E; simplify_eq. split; simpl; [done|].
        intros t' c' p''. destruct (decide (t' = t)) as [->|Hne]; [by rewrite upd_same|]. rewrite upd_other by done. apply Ht.
  Qed.
  Lemma conc_safe mx ex acts g tr :
    Forall action_ok acts -> exec dnil (cinit mx ex) acts = Some (g, tr) ->
    (forall k, is_Some (h_items (g_shared g) !! k) -> k ∈ h_pile (g_shared g)) /\
    forall t, sound_for t acts -> (forall c, g_threads g t <> Some (c, Exit RPanic)) /\ Forall (fun ls => forall c, ls.1 <> LRet t c RPanic) tr.
  Proof.
    intros Hq He. split; [by eapply conc_covered|]. intros t0 Hsd.
    set (good a := action_ok a /\ match a with AStep t i => t = t0 -> in_says i <> Some Crash | _ => True end).
    assert (Hg : Forall good acts).
    { apply Forall_forall. intros a Hin. split; [by eapply Forall_forall in Hq|]. destruct a as [|t i| | |]; try done. intros ->. by apply Hsd. }
    assert (ccovered (g_shared g) /\
      (forall t c p, g_threads g t = Some (c, p) -> (t = t0 -> no_panic p) /\ call_ok c) /\
      Forall (fun ls : label D * shared D => forall c, ls.1 <> LRet t0 c RPanic) tr) as (H1 & H2 & H3).
    - eapply (exec_invariant (fun g tr => ccovered (g_shared g) /\
        (forall t c p, g_threads g t = Some (c, p) -> (t = t0 -> no_panic p) /\ call_ok c) /\
        Forall (fun ls : label D * shared D => forall c, ls.1 <> LRet t0 c RPanic) tr) good); [| |done|done].
      + split_and!; try done. intros k. simpl. rewrite lookup_empty. by intros [].
      + clear. intros g tr a g' l (Hc & Ht & Htr) [Ha Hb] Hs. destruct a as [t c|t i|t|mx'|ex']; simpl in Hs; [| | |simplify_eq; split_and!; [done..|apply Forall_app; split; [done|]; by apply Forall_singleton]..].
        * destruct (g_threads g t) eqn:E; [done|]. simplify_eq. split_and!; simpl; try done.
          -- intros t' c' p'. destruct (decide (t' = t)) as [->|Hne].
             ++ rewrite upd_same. intros. by simplify_eq.
             ++ rewrite upd_other by done. apply Ht.
          -- apply Forall_app. split; [done|]. by apply Forall_singleton.
        * destruct (g_threads g t) as [[c p]|] eqn:E; [|done].
          destruct (tstep _ _ _ _ _) as [[s' p']|] eqn:E2; [|done]. simplify_eq.
          destruct (Ht _ _ _ E) as [_ Hok].
          destruct (tstep_covered _ _ _ _ _ _ Hc Hok E2) as [H1 H2]. split_and!; simpl; try done.
          -- intros t' c' p''. destruct (decide (t' = t)) as [->|Hne].
             ++ rewrite upd_same. intros. simplify_eq. auto.
             ++ rewrite upd_other by done. apply Ht.
          -- apply Forall_app. split; [done|]. by apply Forall_singleton.
        * destruct (g_threads g t) as [[c [| | | | | | | | | | | | |r]]|] eqn:E; simplify_eq.
          destruct (Ht _ _ _ E) as [Hp _]. split_and!; simpl; try done.
          -- intros t' c' p''. destruct (decide (t' = t)) as [->|Hne].
             ++ by rewrite upd_same.
             ++ rewrite upd_other by done. apply Ht.
          -- apply Forall_app. split; [done|]. apply Forall_singleton. simpl. intros c' [=]. subst. by apply Hp.
    - split; [|done]. intros c Ht. apply H2 in Ht as [Hp _]. by apply Hp.
  Qed.

  (** ** What a Get returns *)
  Definition current s k d : Prop := exists x e, h_items s !! k = Some x /\ h_heap s !! x = Some e /\ e_data e = d.
  Definition borders t (l : label D) : Prop :=
    match l with LInv t' _ => t' = t | LRet t' _ _ => t' = t | LTau _ | LAssign => False end.

  (** [tr] ends inside a call [c] of thread [t]; [tr2] is the part since its start. *)
  Definition inside t (c : call D) (tr tr2 : trace) : Prop :=
    exists tr1 s0, tr = tr1 ++ (LInv t c, s0) :: tr2 /\ Forall (fun ls => ~ borders t ls.1) tr2.

  Lemma inside_snoc t c tr tr2 l s :
    inside t c tr tr2 -> ~ borders t l -> inside t c (tr ++ [(l, s)]) (tr2 ++ [(l, s)]).
  Proof.
    intros (tr1 & s0 & -> & Hf) Hl. exists tr1, s0. split; [by rewrite <- app_assoc|].
    apply Forall_app. split; [done|]. by apply Forall_singleton.
  Qed.

  (** Heap evolution: entries are never freed; creation time and data never change. *)
  Definition grows (h h' : gmap positive (entry D)) : Prop :=
    forall x e, h !! x = Some e -> exists e', h' !! x = Some e' /\ e_data e' = e_data e /\ e_ctime e' = e_ctime e.
  Lemma grows_refl h : grows h h.
  Proof. intros x e H. eauto. Qed.
  Lemma grows_alter h x f :
    (forall e, e_data (f e) = e_data e /\ e_ctime (f e) = e_ctime e) -> grows h (alter f x h).
  Proof.
    intros Hf y e He. destruct (decide (y = x)) as [->|Hne].
    - rewrite lookup_alter, He. simpl. exists (f e). naive_solver.
    - rewrite lookup_alter_ne by done. eauto.
  Qed.
  Lemma grows_insert h x e : h !! x = None -> grows h (<[x := e]> h).
  Proof.
    intros Hx y e' He. destruct (decide (y = x)) as [->|Hne]; [congruence|].
    rewrite lookup_insert_ne by done. eauto.
  Qed.

  Definition allocated s : Prop := forall k x, h_items s !! k = Some x -> is_Some (h_heap s !! x).

  Lemma cclean_sub s p now rd s' r :
    cclean s p now rd = (s', r) -> h_heap s' = h_heap s /\ h_items s' ⊆ h_items s.
  Proof.
    intros Hs. unfold cclean in Hs. set (i1 := if decide _ then _ else _) in Hs.
    assert (Hsub : i1 ⊆ h_items s).
    { unfold i1. destruct (decide _); [done|]. apply map_filter_subseteq. }
    set (n := Z.to_nat _) in Hs.
    destruct (decide (n <= length (h_pile s))%nat) as [Hn|Hn].
    - destruct (evict_ok n (h_pile s) i1 Hn) as (i2 & He & Hl). rewrite He in Hs. injection Hs as <- <-. simpl.
      split; [done|]. apply map_subseteq_spec. intros k x. rewrite Hl. destruct (decide (k ∈ take n (h_pile s))); [done|].
      intros Hx. by eapply lookup_weaken.
    - destruct (evict_panic n (h_pile s) i1 ltac:(lia)) as (i2 & He & Hl). rewrite He in Hs. injection Hs as <- <-. simpl.
      split; [done|]. apply map_subseteq_spec. intros k x. rewrite Hl. destruct (decide (k ∈ h_pile s)); [done|].
      intros Hx. by eapply lookup_weaken.
  Qed.
  Lemma allocated_sub s s' : allocated s -> grows (h_heap s) (h_heap s') -> h_items s' ⊆ h_items s -> allocated s'.
  Proof.
    intros Ha Hg Hs k x Hx. destruct (Ha k x) as [e He]; [by eapply lookup_weaken|].
    destruct (Hg _ _ He) as (e' & ? & _). eauto.
  Qed.

  Lemma tstep_grows s c p i s' p' :
    allocated s -> tstep dnil s c p i = Some (s', p') -> allocated s' /\ grows (h_heap s) (h_heap s').
  Proof.
    intros Ha Ht.
    assert (Hsub : forall s', h_heap s' = h_heap s -> h_items s' ⊆ h_items s -> allocated s' /\ grows (h_heap s) (h_heap s')).
    { intros s2 Hh Hi. assert (Hg : grows (h_heap s) (h_heap s2)) by (rewrite Hh; apply grows_refl).
      split; [|done]. by eapply allocated_sub. }
    assert (Halt : forall x f, (forall e, e_data (f e) = e_data e /\ e_ctime (f e) = e_ctime e) ->
      allocated (Shared (h_max s) (h_expire s) (alter f x (h_heap s)) (h_items s) (h_pile s) (h_gone s)) /\
      grows (h_heap s) (alter f x (h_heap s))).
    { intros x f Hf. pose proof (grows_alter (h_heap s) x f Hf). split; [|done]. by eapply allocated_sub. }
    destruct c, p; try (apply verify_head in Ht as [-> [(? & ? & ->)| ->]]; by apply Hsub); try (apply verify_val in Ht as [-> _]; by apply Hsub); simpl in Ht; try done; open_lookups Ht; try (by apply Hsub);
      try (apply Halt; done); try (apply Hsub; [done|]; simpl; by apply delete_subseteq).
    - unfold cset in *. 
      match type of Ht with context [cclean ?y 10 _ _] => set (s1 := y) in * end.
      assert (H1 : allocated s1).
      { intros k' x'. simpl. destruct (decide (k' = k)) as [->|Hne].
        - rewrite lookup_insert. intros. simplify_eq. rewrite lookup_insert. eauto.
        - rewrite lookup_insert_ne by done. intros Hx. destruct (Ha _ _ Hx) as [e' He'].
          destruct (decide (x' = in_loc i)) as [->|Hx']; [rewrite lookup_insert|rewrite lookup_insert_ne by done]; eauto. }
      assert (H2 : grows (h_heap s) (h_heap s1)) by (by apply grows_insert).
      destruct (bool_decide (rd_max1 _ > 0 /\ _)).
      + destruct (cclean s1 10 (in_now i) (reads s i)) as [s2 r2] eqn:E.
        apply cclean_sub in E as [H3 H4].
        assert (s' = s2) as -> by (destruct r2; by simplify_eq).
        split; [|by rewrite H3]. eapply allocated_sub; [exact H1| |done]. rewrite H3. apply grows_refl.
      + by simplify_eq.
    - destruct v as [f|]; simplify_eq; by apply Hsub.
    - destruct (cclean s perc (in_now i) (reads s i)) as [s1 r] eqn:E. apply cclean_sub in E as [? ?]. simplify_eq. by apply Hsub.
    - destruct (cclean s 0 (in_now i) (reads s i)) as [s1 r] eqn:E. apply cclean_sub in E as [? ?].
      destruct v; [destruct r|]; simplify_eq; by apply Hsub.
    - apply Hsub; [done|]. simpl. apply map_empty_subseteq.
  Qed.

  (** What is known of a Get at each point, from the part [tr2] of the trace since its start. *)
  Definition saw t k x (tr2 : trace) (h : gmap positive (entry D)) : Prop :=
    exists sj e e', (LTau t, sj) ∈ tr2 /\ h_items sj !! k = Some x /\ h_heap sj !! x = Some e /\
      h !! x = Some e' /\ e_data e' = e_data e.
  Definition answered t k (r : result D) (tr2 : trace) : Prop :=
    match r with
    | RGet d false => (exists sj, (LTau t, sj) ∈ tr2 /\ current sj k d) \/
                      (d = dnil /\ exists sj, (LTau t, sj) ∈ tr2 /\ h_items sj !! k = None)
    | RGet d true => d = dnil /\ exists sj, (LTau t, sj) ∈ tr2 /\ is_Some (h_items sj !! k)
    | RPanic => True
    | _ => False
    end.
  Definition get_fact t k (p : pc D) (tr2 : trace) (h : gmap positive (entry D)) : Prop :=
    match p with
    | Start => True
    | GTtl x | GTtl2 x | GVal x | GExp x | GExp2 x | GRtime x | GTouch x => saw t k x tr2 h
    | GDel => exists sj, (LTau t, sj) ∈ tr2 /\ is_Some (h_items sj !! k)
    | VRange _ | VLoop _ _ _ _ | VVal _ _ _ _ _ _ | VDel _ _ _ _ _ => False
    | Exit r => answered t k r tr2
    end.

  Lemma saw_snoc t k x tr2 h h' ls : saw t k x tr2 h -> grows h h' -> saw t k x (tr2 ++ [ls]) h'.
  Proof.
    intros (sj & e & e' & H1 & H2 & H3 & H4 & H5) Hg.
    destruct (Hg _ _ H4) as (e2 & H6 & H7 & _).
    exists sj, e, e2. split_and!; try done; [|congruence]. apply elem_of_app. by left.
  Qed.
  Lemma answered_snoc t k r tr2 ls : answered t k r tr2 -> answered t k r (tr2 ++ [ls]).
  Proof.
    destruct r as [| |d [|]|]; simpl; try done.
    - intros (-> & sj & H & ?). split; [done|]. exists sj. split; [|done]. apply elem_of_app. by left.
    - intros [(sj & H & ?)|(-> & sj & H & ?)]; [left|right; split; [done|]]; exists sj; (split; [|done]);
        apply elem_of_app; by left.
  Qed.
  Lemma get_fact_snoc t k p tr2 h h' ls : get_fact t k p tr2 h -> grows h h' -> get_fact t k p (tr2 ++ [ls]) h'.
  Proof.
    intros Hf Hg. destruct p; simpl in *; try done; try by eapply saw_snoc.
    - destruct Hf as (sj & H & ?). exists sj. split; [|done]. apply elem_of_app. by left.
    - by apply answered_snoc.
  Qed.

  Lemma get_fact_step t k v p i s s' p' tr2 :
    allocated s -> get_fact t k p tr2 (h_heap s) ->
    tstep dnil s (CGet k v) p i = Some (s', p') -> grows (h_heap s) (h_heap s') ->
    get_fact t k p' (tr2 ++ [(LTau t, s')]) (h_heap s').
  Proof.
    intros Ha Hf Ht Hg.
    assert (Hw : forall x, saw t k x tr2 (h_heap s) ->
       exists sj, (LTau t, sj) ∈ tr2 ++ [(LTau t, s')] /\ is_Some (h_items sj !! k)).
    { intros x (sj & e & e' & H1 & H2 & _). exists sj. split; [apply elem_of_app; by left|eauto]. }
    destruct p; simpl in Ht, Hf; try done; open_lookups Ht; try done;
      try (by eapply saw_snoc).
    - destruct (Ha k _ ltac:(eassumption)) as [e He]. exists s', e, e. split_and!; try done.
      apply elem_of_app. right. by left.
    - right. split; [done|]. exists s'. split; [apply elem_of_app; right; by left|done].
    - destruct (decide _); by eapply saw_snoc.
    - destruct (before_now _ _ _); simpl; [by eapply Hw|by eapply saw_snoc].
    - destruct v as [f|]; simplify_eq; [destruct (ruling i (f k _))|]; simpl; try (by eapply saw_snoc); [by eapply Hw|done].
    - destruct (decide _); by eapply saw_snoc.
    - destruct (before_now _ _ _); simpl; [by eapply Hw|by eapply saw_snoc].
    - split; [done|]. destruct Hf as (sj & H & ?). exists sj. split; [|done]. apply elem_of_app. by left.
    - destruct Hf as (sj & e1 & e2 & H1 & H2 & H3 & H4 & H5). left. exists sj.
      split; [apply elem_of_app; by left|]. exists x, e1. split_and!; try done. congruence.
  Qed.

  Lemma conc_get mx ex acts g tr t k v r g' :
    exec dnil (cinit mx ex) acts = Some (g, tr) ->
    cstep dnil g (ARet t) = Some (g', LRet t (CGet k v) r) ->
    exists tr2, inside t (CGet k v) tr tr2 /\ answered t k r tr2.
  Proof.
    intros He Hr.
    assert (HI : allocated (g_shared g) /\
      (forall t k v p, g_threads g t = Some (CGet k v, p) ->
         exists tr2, inside t (CGet k v) tr tr2 /\ get_fact t k p tr2 (h_heap (g_shared g)))).
    { eapply (exec_invariant (fun g tr => allocated (g_shared g) /\
        (forall t k v p, g_threads g t = Some (CGet k v, p) ->
         exists tr2, inside t (CGet k v) tr tr2 /\ get_fact t k p tr2 (h_heap (g_shared g)))) (fun _ => True));
        [| |by apply Forall_true|exact He].
      - split; [|done]. intros k' x'. simpl. by rewrite lookup_empty.
      - clear. intros g tr a g' l (Ha & Ht) _ Hs. destruct a as [t c|t i|t|mx'|ex']; simpl in Hs;
          [| | |simplify_eq; split; [done|]; intros t' k v p H; destruct (Ht _ _ _ _ H) as (tr2 & H1 & H2); eexists;
                split; [apply inside_snoc; [exact H1|intros []]|eapply get_fact_snoc; [exact H2|apply grows_refl]]..].
        + destruct (g_threads g t) eqn:E; [done|]. simplify_eq. split; simpl; [done|].
          intros t' k v p. destruct (decide (t' = t)) as [->|Hne].
          * rewrite upd_same. intros. simplify_eq. exists []. split; [|done]. exists tr, (g_shared g). done.
          * rewrite upd_other by done. intros H. destruct (Ht _ _ _ _ H) as (tr2 & H1 & H2).
            exists (tr2 ++ [(LInv t c, g_shared g)]). split.
            -- apply inside_snoc; [done|]. simpl. congruence.
            -- eapply get_fact_snoc; [done|apply grows_refl].
        + destruct (g_threads g t) as [[c p]|] eqn:E; [|done].
          destruct (tstep _ _ _ _ _) as [[s' p']|] eqn:E2; [|done]. simplify_eq. simpl.
          destruct (tstep_grows _ _ _ _ _ _ Ha E2) as [Ha' Hg]. split; [done|].
          intros t' k v p2. destruct (decide (t' = t)) as [->|Hne].
          * rewrite upd_same. intros. simplify_eq. destruct (Ht _ _ _ _ E) as (tr2 & H1 & H2).
            exists (tr2 ++ [(LTau t, s')]). split; [apply inside_snoc; [done|intros []]|]. eapply get_fact_step; [exact Ha|exact H2|exact E2|exact Hg].
          * rewrite upd_other by done. intros H. destruct (Ht _ _ _ _ H) as (tr2 & H1 & H2).
            exists (tr2 ++ [(LTau t, s')]). split; [apply inside_snoc; [done|intros []]|]. by eapply get_fact_snoc.
        + destruct (g_threads g t) as [[c [| | | | | | | | | | | | |r]]|] eqn:E; simplify_eq. split; simpl; [done|].
          intros t' k v p. destruct (decide (t' = t)) as [->|Hne]; [by rewrite upd_same|].
          rewrite upd_other by done. intros H. destruct (Ht _ _ _ _ H) as (tr2 & H1 & H2).
          eexists. split; [apply inside_snoc; [done|]; simpl; congruence|].
          eapply get_fact_snoc; [done|apply grows_refl]. }
    destruct HI as [_ HI]. simpl in Hr.
    destruct (g_threads g t) as [[c [| | | | | | | | | | | | |r']]|] eqn:E; simplify_eq.
    destruct (HI _ _ _ _ E) as (tr2 & H1 & H2). eauto.
  Qed.

  Lemma conc_get_hit mx ex acts g tr t k v d g' :
    exec dnil (cinit mx ex) acts = Some (g, tr) ->
    cstep dnil g (ARet t) = Some (g', LRet t (CGet k v) (RGet d false)) ->
    exists tr2, inside t (CGet k v) tr tr2 /\
      ((exists sj, (LTau t, sj) ∈ tr2 /\ current sj k d) \/
       (d = dnil /\ exists sj, (LTau t, sj) ∈ tr2 /\ h_items sj !! k = None)).
  Proof. intros He Hr. by destruct (conc_get _ _ _ _ _ _ _ _ _ _ He Hr) as (tr2 & H1 & H2); eauto. Qed.
  Lemma conc_get_invalid mx ex acts g tr t k v d g' :
    exec dnil (cinit mx ex) acts = Some (g, tr) ->
    cstep dnil g (ARet t) = Some (g', LRet t (CGet k v) (RGet d true)) ->
    d = dnil /\ exists tr2 sj, inside t (CGet k v) tr tr2 /\ (LTau t, sj) ∈ tr2 /\ is_Some (h_items sj !! k).
  Proof.
    intros He Hr. destruct (conc_get _ _ _ _ _ _ _ _ _ _ He Hr) as (tr2 & H1 & -> & sj & H2 & H3).
    split; [done|]. eauto.
  Qed.
End CacheConcProofs.
