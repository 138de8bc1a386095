(** * Verify while other threads use the cache: what it leaves, what it deletes. *)
From Verif Require Import GoBase CacheModel CacheProofs CacheConc CacheConcProofs CacheConcSpec CacheConcProofs2 SettingsSpec SettingsProofs.
From Coq Require Import Lia ZifyBool ZifyNat.
Local Open Scope Z_scope.

Section P.
  Context {D : Type} (dnil : D).
  Implicit Types (k : bytes) (d : D) (s : shared D) (g : config D) (t : nat) (x : positive) (a : action D).
  Notation trace := (list (label D * shared D)).

  (** ** The maps that Flush has replaced *)
  Lemma cclean_gone s perc now rd s' r : cclean s perc now rd = (s', r) -> h_gone s' = h_gone s.
  Proof. unfold cclean. destruct (evict _ _ _) as [[[] ?] ?]; intros; by simplify_eq. Qed.
  Lemma tstep_gone s c p i s' p' : tstep dnil s c p i = Some (s', p') ->
    h_gone s' = h_gone s \/ (h_gone s' = h_gone s ++ [h_items s] /\ h_items s' = ∅).
  Proof.
    intros Ht. destruct c, p; try (apply verify_head in Ht as [-> _]; by left); try (apply verify_val in Ht as [-> _]; by left); simpl in Ht; try done;
      repeat match type of Ht with
      | match ?a !! ?b with _ => _ end = _ => destruct (a !! b) eqn:?; simplify_eq
      | Some _ = Some _ => simplify_eq
      end; try (by left); try (by right); left.
    - unfold cset in Ht. match type of Ht with context [cclean ?y ?q ?n ?rd] => destruct (cclean y q n rd) as [s2 r2] eqn:E end.
      apply cclean_gone in E. simpl in E. destruct (bool_decide (rd_max1 _ > 0 /\ _)); [destruct r2|]; by simplify_eq.
    - destruct v; by simplify_eq.
    - destruct (cclean s perc (in_now i) (reads s i)) as [s2 r2] eqn:E. apply cclean_gone in E. by simplify_eq.
    - destruct (cclean s 0 (in_now i) (reads s i)) as [s2 r2] eqn:E. apply cclean_gone in E. destruct v, r2; by simplify_eq.
  Qed.

  Definition in_place (trb : trace) k x : Prop := forall l s, (l, s) ∈ trb -> h_items s !! k = Some x.
  Definition accepted t (qs : list question) k x s : Prop := forall e, h_heap s !! x = Some e -> (t, k, e_ctime e, Yes) ∈ qs.
  Definition found (trb : trace) k x (h : gmap positive (entry D)) : Prop :=
    exists l s e e', (l, s) ∈ trb /\ h_items s !! k = Some x /\ h_heap s !! x = Some e /\ h !! x = Some e' /\ e_ctime e' = e_ctime e.

  (** What is known of a Verify at each point. *)
  Definition seen_so_far t (qs : list question) (m : nat) (start visited : gmap bytes positive) s (trb : trace) (but : bytes -> positive -> Prop) : Prop :=
    forall k x, in_place trb k x -> m = length (h_gone s) /\ start !! k = Some x /\ (visited !! k = Some x -> accepted t qs k x s \/ but k x).
  Definition walks (m : nat) s (trb : trace) : Prop :=
    (m <= length (h_gone s))%nat /\ (forall k x, map_no s m !! k = Some x -> found trb k x (h_heap s)).
  Definition vfact (p : pc D) s (b : list (action D)) (trb : trace) (qs : list question) t : Prop :=
    match p with
    | Start => forall i, AStep t i ∉ b
    | VLoop m start visited n => seen_so_far t qs m start visited s trb (fun _ _ => False) /\ walks m s trb
    | VVal k' x' m start visited n =>
        seen_so_far t qs m start visited s trb (fun k x => k = k' /\ x = x') /\ walks m s trb /\ found trb k' x' (h_heap s)
    | VDel k' m start visited n =>
        seen_so_far t qs m start visited s trb (fun k _ => k = k') /\ walks m s trb /\
        exists l s0 x e, (l, s0) ∈ trb /\ h_items s0 !! k' = Some x /\ h_heap s0 !! x = Some e /\ (t, k', e_ctime e, No) ∈ qs
    | Exit (RInt n) => forall k x, in_place trb k x -> accepted t qs k x s
    | _ => True
    end.

  Lemma in_place_snoc trb k x ls : in_place (trb ++ [ls]) k x -> in_place trb k x /\ h_items ls.2 !! k = Some x.
  Proof.
    intros H. split.
    - intros l s Hs. eapply H, elem_of_app. left. exact Hs.
    - destruct ls as [l s]. apply (H l s), elem_of_app. right. by apply elem_of_list_singleton.
  Qed.
  Lemma found_snoc trb k x h h' ls : found trb k x h -> grows h h' -> found (trb ++ [ls]) k x h'.
  Proof.
    intros (l & s & e & e' & H1 & H2 & H3 & H4 & H5) Hg. destruct (Hg _ _ H4) as (e2 & H6 & _ & H7). exists l, s, e, e2.
    split_and!; try done; [apply elem_of_app; by left|congruence].
  Qed.
  Lemma found_last trb k x l s : allocated s -> h_items s !! k = Some x -> found (trb ++ [(l, s)]) k x (h_heap s).
  Proof.
    intros Ha Hx. destruct (Ha _ _ Hx) as [e He]. exists l, s, e, e. split_and!; try done. apply elem_of_app. right. by apply elem_of_list_singleton.
  Qed.
  Lemma accepted_grows t qs q k x s s' : is_Some (h_heap s !! x) -> grows (h_heap s) (h_heap s') -> accepted t qs k x s -> accepted t (qs ++ q) k x s'.
  Proof.
    intros [e He] Hg Ha e' He'. destruct (Hg _ _ He) as (e2 & H1 & _ & H2). rewrite H1 in He'. simplify_eq. rewrite H2. apply elem_of_app. left. by apply Ha.
  Qed.
  Definition evolves s s' : Prop := h_gone s' = h_gone s \/ (h_gone s' = h_gone s ++ [h_items s] /\ h_items s' = ∅).

  (** The facts survive what other threads do; [trb] ends with the state before. *)
  Lemma seen_snoc t qs q m start visited s s' trb but l :
    allocated s -> grows (h_heap s) (h_heap s') -> evolves s s' -> last (snd <$> trb) = Some s ->
    seen_so_far t qs m start visited s trb but -> seen_so_far t (qs ++ q) m start visited s' (trb ++ [(l, s')]) but.
  Proof.
    intros Ha Hg Hv Hlast Hs k x Hp. apply in_place_snoc in Hp as [Hp Hp']. simpl in Hp'. destruct (Hs _ _ Hp) as (Hm & Hst & Hvis).
    split_and!; [|done|].
    - destruct Hv as [->|[_ Hv]]; [done|]. rewrite Hv, lookup_empty in Hp'. done.
    - intros H. destruct (Hvis H) as [H1|H1]; [left|by right]. eapply accepted_grows; [|done|done].
      apply last_Some in Hlast as [l0 Hl0]. assert (Hin : s ∈ snd <$> trb) by (rewrite Hl0; apply elem_of_app; right; by left).
      apply elem_of_list_fmap in Hin as ([l1 s1] & -> & Hin). apply Hp in Hin. by eapply Ha.
  Qed.
  Lemma walks_snoc m s s' trb l :
    allocated s -> allocated s' -> grows (h_heap s) (h_heap s') -> evolves s s' -> last (snd <$> trb) = Some s ->
    walks m s trb -> walks m s' (trb ++ [(l, s')]).
  Proof.
    intros Ha Ha' Hg Hv Hlast [Hm Hw]. split; [destruct Hv as [->|[-> _]]; rewrite ?app_length; lia|].
    intros k x. unfold map_no. case_decide as Hd; [apply found_last; done|]. intros Hk.
    eapply found_snoc; [|done]. apply Hw. unfold map_no. destruct Hv as [Hv|[Hv _]]; rewrite Hv in Hd, Hk.
    - by rewrite decide_False.
    - rewrite app_length in Hd. simpl in Hd. case_decide as Hd2.
      + subst m. by rewrite lookup_total_app_r, Nat.sub_diag in Hk by lia.
      + rewrite lookup_total_app_l in Hk by lia. done.
  Qed.
  Lemma vfact_snoc p s s' b a trb qs q t l :
    allocated s -> allocated s' -> grows (h_heap s) (h_heap s') -> evolves s s' -> (p <> Start -> last (snd <$> trb) = Some s) ->
    (forall i, a <> AStep t i) -> vfact p s b trb qs t -> vfact p s' (b ++ [a]) (trb ++ [(l, s')]) (qs ++ q) t.
  Proof.
    intros Ha Ha' Hg Hv Hlast Hna Hf.
    destruct p as [| | | | | | | | | |m start visited n|k x m start visited n|k m start visited n|r]; simpl in *; try done;
      try (specialize (Hlast ltac:(done))).
    - intros i. rewrite elem_of_app, elem_of_list_singleton. intros [H|H]; [by eapply Hf|by eapply Hna].
    - destruct Hf as [H1 H2]. split; [eapply seen_snoc; [exact Ha|exact Hg|exact Hv|exact Hlast|exact H1]|eapply walks_snoc; [exact Ha|exact Ha'|exact Hg|exact Hv|exact Hlast|exact H2]].
    - destruct Hf as (H1 & H2 & H3). split_and!; [eapply seen_snoc; [exact Ha|exact Hg|exact Hv|exact Hlast|exact H1]|eapply walks_snoc; [exact Ha|exact Ha'|exact Hg|exact Hv|exact Hlast|exact H2]|eapply found_snoc; [exact H3|exact Hg]].
    - destruct Hf as (H1 & H2 & l0 & s0 & x & e & H3 & H4). split_and!; [eapply seen_snoc; [exact Ha|exact Hg|exact Hv|exact Hlast|exact H1]|eapply walks_snoc; [exact Ha|exact Ha'|exact Hg|exact Hv|exact Hlast|exact H2]|].
      exists l0, s0, x, e. destruct H4 as (H4 & H5 & H6). split_and!; try done; apply elem_of_app; by left.
    - destruct r as [|n| |]; try done. intros k x Hp. apply in_place_snoc in Hp as [Hp Hp']. eapply accepted_grows; [|done|by apply Hf].
      apply last_Some in Hlast as [l0 Hl0]. assert (Hin : s ∈ snd <$> trb) by (rewrite Hl0; apply elem_of_app; right; by left).
      apply elem_of_list_fmap in Hin as ([l1 s1] & -> & Hin). apply Hp in Hin. by eapply Ha.
  Qed.

  (** Its own steps. *)
  Lemma vfact_step f p i g s s' p' b trb qs t :
    s = g_shared g -> g_threads g t = Some (CVerify (Some f), p) ->
    allocated s -> allocated s' -> grows (h_heap s) (h_heap s') -> evolves s s' -> (p <> Start -> last (snd <$> trb) = Some s) ->
    vfact p s b trb qs t -> tstep dnil s (CVerify (Some f)) p i = Some (s', p') ->
    vfact p' s' (b ++ [AStep t i]) (trb ++ [(LTau t, s')]) (qs ++ asks g (AStep t i)) t.
  Proof.
    intros Hsh Hth Ha Ha' Hg Hv Hlast Hf Ht. unfold asks. rewrite Hth, <- Hsh. clear Hth Hsh g.
    destruct p as [| | | | | | | | |n|m start visited n|k x m start visited n|k m start visited n|r]; try done.
    - simpl in Ht. unfold cclean in Ht. destruct (evict _ _ _) as [[[] ?] ?]; by simplify_eq.
    - simpl in Ht. simplify_eq. simpl. split; [|split; [lia|]].
      + intros k x Hp. apply in_place_snoc in Hp as [_ Hp]. simpl in Hp. split_and!; done.
      + intros k x. unfold map_no. rewrite decide_True by done. apply found_last. done.
    - destruct Hf as [H1 H2]. specialize (Hlast ltac:(done)).
      pose proof (fun q => seen_snoc _ _ q _ _ _ _ _ _ _ (LTau t) Ha Hg Hv Hlast H1) as H1'.
      pose proof (walks_snoc _ _ _ _ (LTau t) Ha Ha' Hg Hv Hlast H2) as H2'. simpl in Ht.
      destruct (in_key i) as [k|].
      + destruct (map_no s m !! k) as [x|] eqn:Ex; [|done]. case_decide as Hd; [done|]. simplify_eq. simpl. split_and!; [|done|].
        * intros k' x' Hp. match goal with |- context [qs ++ ?q] => destruct (H1' q _ _ Hp) as (Hm & Hst & Hvis) end. split_and!; try done.
          destruct (decide (k' = k)) as [->|Hne].
          -- rewrite lookup_insert. intros. simplify_eq. by right.
          -- rewrite lookup_insert_ne by done. intros H. destruct (Hvis H) as [?|[]]. by left.
        * by apply H2'.
      + case_decide as Hall; [|done]. simplify_eq. simpl. intros k x Hp. match goal with |- context [qs ++ ?q] => destruct (H1' q _ _ Hp) as (Hm & Hst & Hvis) end.
        apply in_place_snoc in Hp as [_ Hp]. simpl in Hp. pose proof (Hall _ _ Hst) as Hv2. unfold map_no in Hv2. rewrite decide_True in Hv2 by done.
        destruct (Hvis (Hv2 Hp)) as [?|[]]. done.
    - destruct Hf as (H1 & H2 & H3). specialize (Hlast ltac:(done)).
      pose proof (fun q => seen_snoc _ _ q _ _ _ _ _ _ _ (LTau t) Ha Hg Hv Hlast H1) as H1'.
      pose proof (walks_snoc _ _ _ _ (LTau t) Ha Ha' Hg Hv Hlast H2) as H2'.
      pose proof (found_snoc _ _ _ _ _ (LTau t, s') H3 Hg) as H3'. simpl in Ht.
      destruct (h_heap s !! x) as [e|] eqn:Ex; [|done]. destruct (ruling i (f k (e_ctime e))) eqn:Ef; simplify_eq; simpl; [| |done].
      + split; [|done]. intros k' x' Hp. match goal with |- context [qs ++ ?q] => destruct (H1' q _ _ Hp) as (Hm & Hst & Hvis) end. split_and!; try done.
        intros H. left. destruct (Hvis H) as [?|[-> ->]]; [done|]. intros e' He'. rewrite Ex in He'. simplify_eq. apply elem_of_app. right. by left.
      + split_and!; [|done|].
        * intros k' x' Hp. match goal with |- context [qs ++ ?q] => destruct (H1' q _ _ Hp) as (Hm & Hst & Hvis) end. split_and!; try done.
          intros H. destruct (Hvis H) as [?|[-> ->]]; [by left|by right].
        * destruct H3' as (l & s0 & e0 & e' & G1 & G2 & G3 & G4 & G5). exists l, s0, x, e0. split_and!; try done.
          rewrite Ex in G4. simplify_eq. rewrite <- G5. apply elem_of_app. right. by left.
    - destruct Hf as (H1 & H2 & H3). specialize (Hlast ltac:(done)).
      pose proof (fun q => seen_snoc _ _ q _ _ _ _ _ _ _ (LTau t) Ha Hg Hv Hlast H1) as H1'.
      pose proof (walks_snoc _ _ _ _ (LTau t) Ha Ha' Hg Hv Hlast H2) as H2'. simpl in Ht. simplify_eq. simpl. split; [|done].
      intros k' x' Hp. match goal with |- context [qs ++ ?q] => destruct (H1' q _ _ Hp) as (Hm & Hst & Hvis) end. split_and!; try done.
      intros H. destruct (Hvis H) as [?| ->]; [by left|]. apply in_place_snoc in Hp as [_ Hp]. simpl in Hp. by rewrite lookup_delete in Hp.
  Qed.

  Lemma last_snoc_state (trb : trace) l s : last (snd <$> trb ++ [(l, s)]) = Some s.
  Proof. rewrite fmap_app. simpl. by rewrite last_snoc. Qed.

  Lemma verify_inv mx ex acts g tr :
    exec dnil (cinit mx ex) acts = Some (g, tr) ->
    allocated (g_shared g) /\ forall t f p, g_threads g t = Some (CVerify (Some f), p) ->
      exists b trb qs, during dnil (cinit mx ex) t (CVerify (Some f)) acts tr b trb qs /\ (p <> Start -> last (snd <$> trb) = Some (g_shared g)) /\
        vfact p (g_shared g) b trb qs t.
  Proof.
    revert acts g tr. apply (exec_ind dnil (fun acts g tr => allocated (g_shared g) /\
        forall t f p, g_threads g t = Some (CVerify (Some f), p) ->
        exists b trb qs, during dnil (cinit mx ex) t (CVerify (Some f)) acts tr b trb qs /\ (p <> Start -> last (snd <$> trb) = Some (g_shared g)) /\
          vfact p (g_shared g) b trb qs t)).
    - split; [|done]. intros k' x'. simpl. by rewrite lookup_empty.
    - intros acts g tr a g' l He [Ha Ht] Hs. pose proof Hs as Hs0.
      assert (Hother : forall t' f p, g_threads g t' = Some (CVerify (Some f), p) -> (forall c', a <> AInv t' c') -> a <> ARet t' ->
        (forall i, a <> AStep t' i) -> allocated (g_shared g') -> grows (h_heap (g_shared g)) (h_heap (g_shared g')) -> evolves (g_shared g) (g_shared g') ->
        exists b trb qs, during dnil (cinit mx ex) t' (CVerify (Some f)) (acts ++ [a]) (tr ++ [(l, g_shared g')]) b trb qs /\
          (p <> Start -> last (snd <$> trb) = Some (g_shared g')) /\ vfact p (g_shared g') b trb qs t').
      { intros t' f p H Ha1 Ha2 Ha3 Ha' Hg Hv. destruct (Ht _ _ _ H) as (b & trb & qs & H1 & H2 & H3).
        exists (b ++ [a]), (trb ++ [(l, g_shared g')]), (qs ++ asks g a). split_and!; [by eapply during_snoc|intros _; apply last_snoc_state|].
        eapply vfact_snoc; [exact Ha|exact Ha'|exact Hg|exact Hv|exact H2|exact Ha3|exact H3]. }
      destruct a as [t0 c|t0 i|t0|mx'|ex']; simpl in Hs.
      + destruct (g_threads g t0) eqn:E; [done|]. simplify_eq. simpl. split; [done|].
        intros t' f p. destruct (decide (t' = t0)) as [->|Hne].
        * rewrite upd_same. intros. simplify_eq. exists [], [], []. split_and!; [by eapply (during_start _ _ _ _ _ _ _ _ _ He Hs0)|done|].
          simpl. intros i H. by apply elem_of_nil in H.
        * rewrite upd_other by done. intros H. eapply Hother; [done|congruence..|done|apply grows_refl|by left].
      + destruct (g_threads g t0) as [[c p]|] eqn:E; [|done].
        destruct (tstep _ _ _ _ _) as [[s' p']|] eqn:E2; [|done]. simplify_eq. simpl.
        destruct (tstep_grows _ _ _ _ _ _ _ Ha E2) as [Ha' Hg]. split; [done|]. pose proof (tstep_gone _ _ _ _ _ _ E2) as Hv.
        intros t' f p2. destruct (decide (t' = t0)) as [->|Hne].
        * rewrite upd_same. intros. simplify_eq. destruct (Ht _ _ _ E) as (b & trb & qs & H1 & H2 & H3).
          exists (b ++ [AStep t0 i]), (trb ++ [(LTau t0, s')]), (qs ++ asks g (AStep t0 i)).
          split_and!; [by eapply (during_snoc _ _ _ _ _ _ _ _ _ _ _ _ _ He Hs0)|intros _; apply last_snoc_state|].
          eapply vfact_step; [done|exact E|exact Ha|exact Ha'|exact Hg|exact Hv|exact H2|exact H3|exact E2].
        * rewrite upd_other by done. intros H. eapply Hother; [done|congruence..|done|done|done].
      + destruct (g_threads g t0) as [[c [| | | | | | | | | | | | |r]]|] eqn:E; simplify_eq. simpl. split; [done|].
        intros t' f p. destruct (decide (t' = t0)) as [->|Hne]; [by rewrite upd_same|].
        rewrite upd_other by done. intros H. eapply Hother; [done|congruence..|done|apply grows_refl|by left].
      + simplify_eq. split; [done|]. simpl. intros t' f p H. eapply Hother; [done|done|done|done|done|apply grows_refl|by left].
      + simplify_eq. split; [done|]. simpl. intros t' f p H. eapply Hother; [done|done|done|done|done|apply grows_refl|by left].
  Qed.

  Lemma verify_leaves mx ex acts g tr t f n g' :
    exec dnil (cinit mx ex) acts = Some (g, tr) ->
    cstep dnil g (ARet t) = Some (g', LRet t (CVerify (Some f)) (RInt n)) ->
    exists b trb qs, during dnil (cinit mx ex) t (CVerify (Some f)) acts tr b trb qs /\
      forall k x, (forall l s, (l, s) ∈ trb -> h_items s !! k = Some x) ->
        exists e, h_heap (g_shared g) !! x = Some e /\ (t, k, e_ctime e, Yes) ∈ qs.
  Proof.
    intros He Hr. destruct (verify_inv _ _ _ _ _ He) as [Ha HI]. simpl in Hr.
    destruct (g_threads g t) as [[c [| | | | | | | | | | | | |r]]|] eqn:E; simplify_eq.
    destruct (HI _ _ _ E) as (b & trb & qs & H1 & H2 & H3). exists b, trb, qs. split; [done|]. intros k x Hp.
    specialize (H2 ltac:(done)). apply last_Some in H2 as [l0 Hl0].
    assert (Hin : g_shared g ∈ snd <$> trb) by (rewrite Hl0; apply elem_of_app; right; by left).
    apply elem_of_list_fmap in Hin as ([l1 s1] & Hs1 & Hin). simpl in Hs1. subst s1. pose proof (Hp _ _ Hin) as Hx.
    destruct (Ha _ _ Hx) as [e Hex]. exists e. split; [done|]. simpl in H3. by apply (H3 k x Hp).
  Qed.

  Lemma verify_deletes mx ex acts g tr t f p i g' l k y :
    exec dnil (cinit mx ex) acts = Some (g, tr) -> g_threads g t = Some (CVerify (Some f), p) ->
    cstep dnil g (AStep t i) = Some (g', l) ->
    h_items (g_shared g) !! k = Some y -> h_items (g_shared g') !! k = None ->
    exists b trb qs, during dnil (cinit mx ex) t (CVerify (Some f)) acts tr b trb qs /\
      (((forall i', AStep t i' ∉ b) /\ exists e, h_heap (g_shared g) !! y = Some e /\
          rd_exp1 (reads (g_shared g) i) <> 0 /\ e_ctime e + rd_exp2 (reads (g_shared g) i) k < in_now i k) \/
       exists l0 s0 x e, (l0, s0) ∈ trb /\ h_items s0 !! k = Some x /\ h_heap s0 !! x = Some e /\ (t, k, e_ctime e, No) ∈ qs).
  Proof.
    intros He E Hs Hk Hk'. destruct (verify_inv _ _ _ _ _ He) as [Ha HI]. destruct (HI _ _ _ E) as (b & trb & qs & H1 & H2 & H3).
    exists b, trb, qs. split; [done|]. unfold cstep in Hs. rewrite E in Hs.
    destruct (tstep dnil (g_shared g) _ p i) as [[s' p']|] eqn:E2; [|done]. simplify_eq. simpl in Hk'.
    destruct p as [| | | | | | | | |n|m start visited n|k0 x m start visited n|k0 m start visited n|r]; try done.
    - left. split; [done|]. destruct (Ha _ _ Hk) as [e Hey]. exists e. split; [done|].
      assert (Hq : forall z, quota z 0 = 0) by (intros z; unfold quota; by rewrite Z.mul_0_r).
      simpl in E2. unfold cclean in E2. rewrite Hq in E2. simpl in E2. simplify_eq. simpl in Hk'.
      case_decide as Hd; [by rewrite Hk' in Hk|]. split; [done|].
      apply map_filter_lookup_None in Hk' as [Hn|Hn]; [by rewrite Hn in Hk|]. specialize (Hn _ Hk). simpl in Hn. unfold ctime_of in Hn. rewrite Hey in Hn.
      unfold before_now in Hn. destruct (e_ctime e + rd_exp2 (reads (g_shared g) i) k <? in_now i k) eqn:Eb; [lia|done].
    - simpl in E2. by simplify_eq.
    - apply verify_head in E2 as [-> _]. by simplify_eq.
    - apply verify_val in E2 as [-> _]. by simplify_eq.
    - simpl in E2. simplify_eq. simpl in Hk'. destruct (decide (k = k0)) as [->|Hne]; [|rewrite lookup_delete_ne in Hk' by done; by rewrite Hk in Hk'].
      right. destruct H3 as (_ & _ & H3). done.
  Qed.
End P.
