(** * Why a Get calls an entry invalid, with Maxitems and Expire assigned meanwhile. *)
From Verif Require Import GoBase CacheModel CacheProofs CacheConc CacheConcProofs CacheConcSpec CacheConcProofs2 CacheConcWitness SettingsSpec.
From Coq Require Import Lia ZifyBool ZifyNat.
Local Open Scope Z_scope.

Section P.
  Context {D : Type} (dnil : D).
  Implicit Types (k : bytes) (d : D) (s : shared D) (g : config D) (t : nat) (x : positive) (a : action D).
  Notation trace := (list (label D * shared D)).

  Lemma asked_snoc g acts g' tr a g2 l : exec dnil g acts = Some (g', tr) -> cstep dnil g' a = Some (g2, l) ->
    asked dnil g (acts ++ [a]) = asked dnil g acts ++ asks g' a.
  Proof.
    revert g tr. induction acts as [|a0 acts IH]; intros g tr He Hs; simpl in He |- *.
    - simplify_eq. rewrite Hs. by rewrite app_nil_r.
    - destruct (cstep dnil g a0) as [[g1 l1]|]; [|done]. destruct (exec dnil g1 acts) as [[g3 tr3]|] eqn:E; [|done]. simplify_eq.
      by rewrite <- app_assoc, (IH _ _ E Hs).
  Qed.
  Lemma during_exec g0 acts g tr t c b trb qs : exec dnil g0 acts = Some (g, tr) -> during dnil g0 t c acts tr b trb qs ->
    exists g1, exec dnil g1 b = Some (g, trb) /\ qs = asked dnil g1 b /\ exists p, g_threads g1 t = Some (c, p).
  Proof.
    intros He (a & tra & s0 & g1 & -> & -> & Hl & _ & _ & H1 & ->). exists g1.
    replace (a ++ AInv t c :: b) with ((a ++ [AInv t c]) ++ b) in He by (by rewrite <- app_assoc).
    rewrite exec_app, H1 in He. destruct (exec dnil g1 b) as [[g2 tr2]|]; [|done]. injection He as <- Htr.
    replace (tra ++ (LInv t c, s0) :: trb) with ((tra ++ [(LInv t c, s0)]) ++ trb) in Htr by (by rewrite <- app_assoc).
    apply app_inv_head in Htr as ->. split_and!; try done.
    rewrite exec_snoc in H1. destruct (exec dnil g0 a) as [[g3 tr3]|]; [|done]. simpl in H1. destruct (g_threads g3 t); [done|].
    simplify_eq. simpl. rewrite upd_same. by exists Start.
  Qed.
  Lemma during_start g0 t c acts g tr g' l : exec dnil g0 acts = Some (g, tr) -> cstep dnil g (AInv t c) = Some (g', l) ->
    during dnil g0 t c (acts ++ [AInv t c]) (tr ++ [(l, g_shared g')]) [] [] [].
  Proof.
    intros He Hs. assert (l = LInv t c) as -> by (simpl in Hs; destruct (g_threads g t); by simplify_eq).
    exists acts, tr, (g_shared g'), g'. split_and!; try done; [intros c' H; by apply elem_of_nil in H|intros H; by apply elem_of_nil in H|].
    by rewrite exec_snoc, He, Hs.
  Qed.
  Lemma during_snoc g0 t c acts g (tr : trace) b trb qs a g' l :
    exec dnil g0 acts = Some (g, tr) -> cstep dnil g a = Some (g', l) ->
    during dnil g0 t c acts tr b trb qs -> (forall c', a <> AInv t c') -> a <> ARet t ->
    during dnil g0 t c (acts ++ [a]) (tr ++ [(l, g_shared g')]) (b ++ [a]) (trb ++ [(l, g_shared g')]) (qs ++ asks g a).
  Proof.
    intros He Hs Hd Ha1 Ha2. pose proof (during_exec _ _ _ _ _ _ _ _ _ He Hd) as (g2 & He2 & Hq & _).
    destruct Hd as (a0 & tra & s0 & g1 & -> & -> & Hl & H1 & H2 & H3 & ->). exists a0, tra, s0, g1.
    rewrite <- !app_assoc, <- !app_comm_cons, !app_length. split_and!; try done; [simpl; lia| | |].
    - intros c'. rewrite elem_of_app, elem_of_list_singleton. intros [H|H]; [by eapply H1|by eapply Ha1].
    - rewrite elem_of_app, elem_of_list_singleton. intros [H|H]; by auto.
    - symmetry. replace (a0 ++ AInv t c :: b) with ((a0 ++ [AInv t c]) ++ b) in He by (by rewrite <- app_assoc).
      rewrite exec_app, H3 in He. destruct (exec dnil g1 b) as [[g4 tr4]|] eqn:E4; [|done]. simplify_eq. by eapply asked_snoc.
  Qed.
  (** With a function as validator the answers are those of the function. *)
  Lemma asked_function g1 b t c p f g tr : exec dnil g1 b = Some (g, tr) -> g_threads g1 t = Some (c, p) -> (forall c', AInv t c' ∉ b) -> ARet t ∉ b ->
    (c = CVerify (Some f) \/ exists k, c = CGet k (Some f)) -> (forall i, AStep t i ∈ b -> in_says i = None) ->
    forall k z w, (t, k, z, w) ∈ asked dnil g1 b -> w = if f k z then Yes else No.
  Proof.
    revert g1 p tr. induction b as [|a b IH]; intros g1 p tr He Ht H1 H2 Hc Hi k z w; simpl in He |- *; [by intros ?%elem_of_nil|].
    destruct (cstep dnil g1 a) as [[g2 l]|] eqn:Es; [|done]. destruct (exec dnil g2 b) as [[g3 tr3]|] eqn:E; [|done]. simplify_eq.
    rewrite elem_of_app. intros [Hq|Hq].
    - destruct a as [|t0 i| | |]; simpl in Hq; try (by apply elem_of_nil in Hq).
      destruct (decide (t0 = t)) as [->|Hne].
      + rewrite Ht in Hq. assert (Hn : in_says i = None) by (apply Hi; by left). unfold ruling in Hq. rewrite Hn in Hq.
        destruct Hc as [-> | [k0 ->]]; destruct p; try (by apply elem_of_nil in Hq);
          (destruct (h_heap (g_shared g1) !! x) as [e|]; [|by apply elem_of_nil in Hq]); apply elem_of_list_singleton in Hq; by simplify_eq.
      + exfalso. repeat (case_match; try (by apply elem_of_nil in Hq)); apply elem_of_list_singleton in Hq; by simplify_eq.
    - assert (Ht2 : exists p2, g_threads g2 t = Some (c, p2)).
      { destruct a as [t0 c0|t0 i|t0|mx'|ex']; simpl in Es.
        - destruct (g_threads g1 t0) eqn:E0; [done|]. simplify_eq. simpl. destruct (decide (t = t0)) as [->|]; [congruence|]. rewrite upd_other by done. eauto.
        - destruct (g_threads g1 t0) as [[c0 p0]|] eqn:E0; [|done]. destruct (tstep _ _ _ _ _) as [[s' p']|]; [|done]. simplify_eq. simpl.
          destruct (decide (t = t0)) as [->|]; [rewrite upd_same; simplify_eq; eauto|rewrite upd_other by done; eauto].
        - destruct (decide (t = t0)) as [->|]; [destruct H2; by left|].
          destruct (g_threads g1 t0) as [[c0 [| | | | | | | | | | | | |r]]|]; simplify_eq. simpl. rewrite upd_other by done. eauto.
        - simplify_eq. simpl. eauto.
        - simplify_eq. simpl. eauto. }
      destruct Ht2 as [p2 Ht2].
      eapply (IH _ _ _ E Ht2); [intros c' H; eapply H1; by right|intros H; apply H2; by right|done|intros i0 H; apply Hi; by right|exact Hq].
  Qed.
  Lemma during_function g0 acts g tr t c b trb qs f : exec dnil g0 acts = Some (g, tr) -> during dnil g0 t c acts tr b trb qs ->
    (c = CVerify (Some f) \/ exists k, c = CGet k (Some f)) -> (forall i, AStep t i ∈ b -> in_says i = None) ->
    forall k z w, (t, k, z, w) ∈ qs -> w = if f k z then Yes else No.
  Proof.
    intros He Hd Hc Hi. pose proof (during_exec _ _ _ _ _ _ _ _ _ He Hd) as (g1 & E1 & -> & p & Hp).
    destruct Hd as (a0 & tra & s0 & g2 & _ & _ & _ & H1 & H2 & _). by eapply asked_function.
  Qed.

  Lemma stored_snoc t trb k x (e : entry D) ls : stored t trb k x e -> stored t (trb ++ [ls]) k x e.
  Proof. intros (s & H & ?). exists s. split; [|done]. apply elem_of_app. by left. Qed.
  Lemma clock_snoc t b now a : clock t b now -> clock t (b ++ [a]) now.
  Proof. intros (i & H & ?). exists i. split; [|done]. apply elem_of_app. by left. Qed.
  Lemma expire_was_snoc t (trb : trace) z ls : expire_was t trb z -> expire_was t (trb ++ [ls]) z.
  Proof. intros (s & H & ?). exists s. split; [|done]. apply elem_of_app. by left. Qed.
  Lemma ttl_was_snoc t (trb : trace) x z ls : ttl_was t trb x z -> ttl_was t (trb ++ [ls]) x z.
  Proof. intros (s & e & H & ?). exists s, e. split; [|done]. apply elem_of_app. by left. Qed.
  Lemma reason_snoc t k v b (trb : trace) qs a ls q : reason t k v b trb qs -> reason t k v (b ++ [a]) (trb ++ [ls]) (qs ++ q).
  Proof.
    intros (x & e & Hs & Hr). exists x, e. split; [by apply stored_snoc|].
    destruct Hr as [(d1 & d2 & now & H1 & H2 & H3 & H4 & H5)|[Hf|(d1 & d2 & now & H1 & H2 & H3 & H4 & H5)]].
    - left. exists d1, d2, now. split_and!; try done; eauto using ttl_was_snoc, clock_snoc.
    - right. left. split; [apply Hf|]. apply elem_of_app. left. apply Hf.
    - right. right. exists d1, d2, now. split_and!; try done; eauto using expire_was_snoc, clock_snoc.
  Qed.

  (** The entry of [k] found at the beginning, still at [x], with the same creation time. *)
  Definition known t k x (trb : trace) (h : gmap positive (entry D)) : Prop :=
    exists e e', stored t trb k x e /\ h !! x = Some e' /\ e_ctime e' = e_ctime e.
  Definition why t k (v : validator) (p : pc D) b (trb : trace) (qs : list question) (h : gmap positive (entry D)) : Prop :=
    match p with
    | Start | VRange _ | VLoop _ _ _ _ | VVal _ _ _ _ _ _ | VDel _ _ _ _ _ => True
    | GTtl x | GVal x | GExp x | GRtime x | GTouch x => known t k x trb h
    | GTtl2 x => known t k x trb h /\ exists z, ttl_was t trb x z /\ z <> 0
    | GExp2 x => known t k x trb h /\ exists z, expire_was t trb z /\ z <> 0
    | GDel => reason t k v b trb qs
    | Exit r => forall d, r = RGet d true -> reason t k v b trb qs
    end.
  Lemma known_snoc t k x trb h h' ls : known t k x trb h -> grows h h' -> known t k x (trb ++ [ls]) h'.
  Proof.
    intros (e & e' & H1 & H2 & H3) Hg. destruct (Hg _ _ H2) as (e2 & H4 & _ & H5). exists e, e2. split; [by apply stored_snoc|].
    split; [done|congruence].
  Qed.
  Lemma why_snoc t k v p b trb qs h h' a ls q : why t k v p b trb qs h -> grows h h' -> why t k v p (b ++ [a]) (trb ++ [ls]) (qs ++ q) h'.
  Proof.
    intros Hw Hg. destruct p; simpl in *; try done; try (by eapply known_snoc).
    - destruct Hw as [H1 (z & H2 & H3)]. split; [by eapply known_snoc|]. exists z. split; [by apply ttl_was_snoc|done].
    - destruct Hw as [H1 (z & H2 & H3)]. split; [by eapply known_snoc|]. exists z. split; [by apply expire_was_snoc|done].
    - by apply reason_snoc.
    - intros d Hd. apply reason_snoc. by eapply Hw.
  Qed.

  Lemma why_step t k v p i g s' p' b trb qs :
    allocated (g_shared g) -> g_threads g t = Some (CGet k v, p) -> why t k v p b trb qs (h_heap (g_shared g)) ->
    tstep dnil (g_shared g) (CGet k v) p i = Some (s', p') -> grows (h_heap (g_shared g)) (h_heap s') ->
    why t k v p' (b ++ [AStep t i]) (trb ++ [(LTau t, s')]) (qs ++ asks g (AStep t i)) (h_heap s').
  Proof.
    intros Ha Hth Hw Ht Hg. unfold asks. rewrite Hth. clear Hth. remember (g_shared g) as s eqn:Hs. clear Hs g.
    assert (Hnow : clock t (b ++ [AStep t i]) (in_t1 i)).
    { exists i. split; [|done]. apply elem_of_app. right. by apply elem_of_list_singleton. }
    assert (Hlast : forall P : shared D -> Prop, P s' -> exists s0, (LTau t, s0) ∈ trb ++ [(LTau t, s')] /\ P s0).
    { intros P HP. exists s'. split; [|done]. apply elem_of_app. right. by apply elem_of_list_singleton. }
    pose proof (fun x (H : known t k x trb (h_heap s)) => known_snoc _ _ _ _ _ _ (LTau t, s') H Hg) as Hkn.
    destruct p; simpl in Ht; try done.
    - destruct (h_items s !! k) as [x|] eqn:Ex; simplify_eq; [|done]. destruct (Ha _ _ Ex) as [e He].
      exists e, e. split; [|done]. destruct (Hlast (fun s => h_items s !! k = Some x /\ h_heap s !! x = Some e)) as (s0 & H1 & H2 & H3); [done|].
      exists s0. done.
    - simpl in Hw. destruct (h_heap s !! x) as [e|] eqn:Ex; simplify_eq. destruct (decide (e_ttl e = 0)); simpl; [by apply Hkn|].
      split; [by apply Hkn|]. exists (e_ttl e). split; [|done].
      destruct (Hlast (fun s => h_heap s !! x = Some e)) as (s0 & H1 & H2); [done|]. exists s0, e. done.
    - simpl in Hw. destruct Hw as [Hk (z & Hz & Hz0)]. destruct (h_heap s !! x) as [e|] eqn:Ex; simplify_eq.
      destruct (before_now (e_ctime e) (e_ttl e) (in_t1 i)) eqn:Eb; simpl; [|by apply Hkn].
      destruct (Hkn _ Hk) as (e0 & e' & H1 & H2 & H3). exists x, e0. split; [done|]. left. exists z, (e_ttl e), (in_t1 i).
      rewrite H2 in Ex. simplify_eq. split_and!; try done; [by apply ttl_was_snoc| |unfold before_now in Eb; lia].
      destruct (Hlast (fun s => h_heap s !! x = Some e)) as (s0 & H4 & H5); [done|]. exists s0, e. done.
    - simpl in Hw. destruct (h_heap s !! x) as [e|] eqn:Ex; [|done]. destruct v as [f|]; simplify_eq; [|by apply Hkn].
      destruct (ruling i (f k (e_ctime e))) eqn:Ef; simpl; [by apply Hkn| |done].
      destruct (Hkn _ Hw) as (e0 & e' & H1 & H2 & H3). rewrite H2 in Ex. simplify_eq. exists x, e0. split; [done|]. right. left.
      split; [done|]. apply elem_of_app. right. rewrite <- H3. by left.
    - simpl in Hw. destruct (h_heap s !! x) as [e|] eqn:Ex; simplify_eq. destruct (decide (h_expire s' = 0)); simpl; [by apply Hkn|].
      split; [by apply Hkn|]. exists (h_expire s'). split; [|done]. by apply (Hlast (fun s => h_expire s = h_expire s')).
    - simpl in Hw. destruct Hw as [Hk (z & Hz & Hz0)]. destruct (h_heap s !! x) as [e|] eqn:Ex; simplify_eq.
      destruct (before_now (e_ctime e) (h_expire s') (in_t1 i)) eqn:Eb; simpl; [|by apply Hkn].
      destruct (Hkn _ Hk) as (e0 & e' & H1 & H2 & H3). exists x, e0. split; [done|]. right. right. exists z, (h_expire s'), (in_t1 i).
      rewrite H2 in Ex. simplify_eq. split_and!; try done; [by apply expire_was_snoc| |unfold before_now in Eb; lia].
      by apply (Hlast (fun s => h_expire s = h_expire s')).
    - simplify_eq. simpl in Hw |- *. intros d _. by apply reason_snoc.
    - simpl in Hw. simplify_eq. by apply Hkn.
    - destruct (h_heap s !! x) as [e|]; simplify_eq. done.
  Qed.

  Lemma conc_reason mx ex acts g tr t k v d g' :
    exec dnil (cinit mx ex) acts = Some (g, tr) ->
    cstep dnil g (ARet t) = Some (g', LRet t (CGet k v) (RGet d true)) ->
    exists b trb qs, during dnil (cinit mx ex) t (CGet k v) acts tr b trb qs /\ reason t k v b trb qs.
  Proof.
    intros He Hr.
    assert (HI : allocated (g_shared g) /\ forall t k v p, g_threads g t = Some (CGet k v, p) ->
       exists b trb qs, during dnil (cinit mx ex) t (CGet k v) acts tr b trb qs /\ why t k v p b trb qs (h_heap (g_shared g))).
    { clear Hr g' t k v d. revert acts g tr He. apply (exec_ind dnil (fun acts g tr => allocated (g_shared g) /\
        forall t k v p, g_threads g t = Some (CGet k v, p) ->
        exists b trb qs, during dnil (cinit mx ex) t (CGet k v) acts tr b trb qs /\ why t k v p b trb qs (h_heap (g_shared g)))).
      - split; [|done]. intros k' x'. simpl. by rewrite lookup_empty.
      - intros acts g tr a g' l He [Ha Ht] Hs. pose proof Hs as Hs0.
        assert (Hother : forall t' k v p, g_threads g t' = Some (CGet k v, p) -> (forall c', a <> AInv t' c') -> a <> ARet t' ->
          grows (h_heap (g_shared g)) (h_heap (g_shared g')) ->
          exists b trb qs, during dnil (cinit mx ex) t' (CGet k v) (acts ++ [a]) (tr ++ [(l, g_shared g')]) b trb qs /\ why t' k v p b trb qs (h_heap (g_shared g'))).
        { intros t' k' v' p H Ha1 Ha2 Hg. destruct (Ht _ _ _ _ H) as (b & trb & qs & H1 & H2).
          exists (b ++ [a]), (trb ++ [(l, g_shared g')]), (qs ++ asks g a). split; [by eapply during_snoc|by eapply why_snoc]. }
        destruct a as [t0 c|t0 i|t0|mx'|ex']; simpl in Hs.
        + destruct (g_threads g t0) eqn:E; [done|]. simplify_eq. simpl. split; [done|].
          intros t' k' v' p. destruct (decide (t' = t0)) as [->|Hne].
          * rewrite upd_same. intros. simplify_eq. exists [], [], []. split; [by eapply (during_start _ _ _ _ _ _ _ _ He Hs0)|done].
          * rewrite upd_other by done. intros H. eapply Hother; [done| | |apply grows_refl]; congruence.
        + destruct (g_threads g t0) as [[c p]|] eqn:E; [|done].
          destruct (tstep _ _ _ _ _) as [[s' p']|] eqn:E2; [|done]. simplify_eq. simpl.
          destruct (tstep_grows _ _ _ _ _ _ _ Ha E2) as [Ha' Hg]. split; [done|].
          intros t' k' v' p2. destruct (decide (t' = t0)) as [->|Hne].
          * rewrite upd_same. intros. simplify_eq. destruct (Ht _ _ _ _ E) as (b & trb & qs & H1 & H2).
            exists (b ++ [AStep t0 i]), (trb ++ [(LTau t0, s')]), (qs ++ asks g (AStep t0 i)).
            split; [by eapply (during_snoc _ _ _ _ _ _ _ _ _ _ _ _ He Hs0)|]. eapply why_step; [exact Ha|exact E|exact H2|exact E2|exact Hg].
          * rewrite upd_other by done. intros H. eapply Hother; [done|congruence|congruence|done].
        + destruct (g_threads g t0) as [[c [| | | | | | | | | | | | |r]]|] eqn:E; simplify_eq. simpl. split; [done|].
          intros t' k' v' p. destruct (decide (t' = t0)) as [->|Hne]; [by rewrite upd_same|].
          rewrite upd_other by done. intros H. eapply Hother; [done| | |apply grows_refl]; congruence.
        + simplify_eq. split; [done|]. simpl. intros t' k' v' p H. eapply Hother; [done|done|done|apply grows_refl].
        + simplify_eq. split; [done|]. simpl. intros t' k' v' p H. eapply Hother; [done|done|done|apply grows_refl]. }
    destruct HI as [_ HI]. simpl in Hr.
    destruct (g_threads g t) as [[c [| | | | | | | | | | | | |r]]|] eqn:E; simplify_eq.
    destruct (HI _ _ _ _ E) as (b & trb & qs & H1 & H2). exists b, trb, qs. split; [done|]. by eapply H2.
  Qed.

  (** ** Expire not assigned during the call *)
  Lemma tstep_expire s c p i s' p' : tstep dnil s c p i = Some (s', p') -> h_expire s' = h_expire s /\ h_max s' = h_max s.
  Proof.
    assert (Hclean : forall s perc now rd s' r, cclean (D:=D) s perc now rd = (s', r) -> h_expire s' = h_expire s /\ h_max s' = h_max s).
    { clear. intros s perc now rd s' r. unfold cclean. destruct (evict _ _ _) as [[[] ?] ?]; intros; by simplify_eq. }
    intros Ht. destruct c, p; try (apply verify_head in Ht as [-> _]; done); try (apply verify_val in Ht as [-> _]; done); simpl in Ht; try done;
      repeat match type of Ht with
      | match ?a !! ?b with _ => _ end = _ => destruct (a !! b) eqn:?; simplify_eq
      | Some _ = Some _ => simplify_eq
      end; try done.
    - unfold cset in Ht. match type of Ht with context [cclean ?y ?q ?n ?rd] => destruct (cclean y q n rd) as [s2 r2] eqn:E end.
      apply Hclean in E. simpl in E. destruct (bool_decide (rd_max1 _ > 0 /\ _)); [destruct r2|]; by simplify_eq.
    - destruct v; by simplify_eq.
    - destruct (cclean s perc (in_now i) (reads s i)) as [s2 r2] eqn:E. apply Hclean in E. by simplify_eq.
    - destruct (cclean s 0 (in_now i) (reads s i)) as [s2 r2] eqn:E. apply Hclean in E. destruct v, r2; by simplify_eq.
  Qed.
  Lemma exec_expire g acts g' (tr : trace) :
    exec dnil g acts = Some (g', tr) -> (forall z, AExpire z ∉ acts) ->
    h_expire (g_shared g') = h_expire (g_shared g) /\ forall l s, (l, s) ∈ tr -> h_expire s = h_expire (g_shared g).
  Proof.
    revert g g' tr. induction acts as [|a acts IH]; intros g g' tr He Hn; simpl in He.
    - simplify_eq. split; [done|]. intros l s H. by apply elem_of_nil in H.
    - destruct (cstep dnil g a) as [[g1 l1]|] eqn:E; [|done]. destruct (exec dnil g1 acts) as [[g2 tr2]|] eqn:E2; [|done]. simplify_eq.
      assert (H1 : h_expire (g_shared g1) = h_expire (g_shared g)).
      { destruct a as [t0 c|t0 i|t0|mx'|ex']; simpl in E.
        - destruct (g_threads g t0); by simplify_eq.
        - destruct (g_threads g t0) as [[c p]|]; [|done]. destruct (tstep _ _ _ _ _) as [[s' p']|] eqn:E3; [|done]. simplify_eq.
          by apply tstep_expire in E3 as [? _].
        - destruct (g_threads g t0) as [[c [| | | | | | | | | | | | |r]]|]; by simplify_eq.
        - by simplify_eq.
        - destruct (Hn ex'). by left. }
      destruct (IH _ _ _ E2) as [H2 H3]; [intros z Hz; apply (Hn z); by right|]. rewrite H2, H1. split; [done|].
      intros l s. rewrite elem_of_cons. intros [H|H]; [by simplify_eq|]. rewrite <- H1. by eapply H3.
  Qed.
  Lemma during_expire mx ex acts g (tr : trace) t c b trb qs :
    exec dnil (cinit mx ex) acts = Some (g, tr) -> during dnil (cinit mx ex) t c acts tr b trb qs -> (forall z, AExpire z ∉ b) ->
    forall z, expire_was t trb z -> z = h_expire (g_shared g).
  Proof.
    intros He Hd Hn z (s & Hs & <-). destruct (during_exec _ _ _ _ _ _ _ _ _ He Hd) as (g1 & E2 & _).
    destruct (exec_expire _ _ _ _ E2 Hn) as [H1 H2]. rewrite H1. by eapply H2.
  Qed.

  (** An entry that never had a ttl, no validator, Expire not assigned during the call: it has expired. *)
  Lemma conc_expired mx ex acts g tr t k d g' :
    exec dnil (cinit mx ex) acts = Some (g, tr) ->
    cstep dnil g (ARet t) = Some (g', LRet t (CGet k None) (RGet d true)) ->
    exists b trb qs, during dnil (cinit mx ex) t (CGet k None) acts tr b trb qs /\
      ((forall z, AExpire z ∉ b) -> (forall x z, ttl_was t trb x z -> z = 0) ->
       h_expire (g_shared g) <> 0 /\
       exists x e now, stored t trb k x e /\ clock t b now /\ e_ctime e + h_expire (g_shared g) < now).
  Proof.
    intros He Hr. destruct (conc_reason _ _ _ _ _ _ _ _ _ _ He Hr) as (b & trb & qs & Hd & x & e & Hs & Hre). exists b, trb, qs. split; [done|].
    intros Hn Ht. destruct Hre as [(d1 & d2 & now & H1 & H2 & _)|[[? _]|(d1 & d2 & now & H1 & H2 & H3 & H4 & H5)]]; [|done|].
    - apply Ht in H1. done.
    - apply (during_expire _ _ _ _ _ _ _ _ _ _ He Hd Hn) in H1, H3. subst. split; [done|]. by exists x, e, now.
  Qed.
End P.

(** ** Switching expiry off, switching the limit off *)
(** Expire is 100; the entry is one unit old when thread 1 asks for it; thread 0 sets Expire to 0 between the two
    readings of the field. *)
Definition off_acts : list (action Z) :=
  let k := B "k" in
  [AInv 0 (CSet k 1); AStep 0 (in_ 1 0); ARet 0;
   AInv 1 (CGet k None); AStep 1 (in_ 1 1); AStep 1 (in_ 1 1); AStep 1 (in_ 1 1); AStep 1 (in_ 1 1);
   AExpire 0;
   AStep 1 (in_ 1 1); AStep 1 (in_ 1 1); ARet 1;
   AInv 0 (CGet k None); AStep 0 (in_ 1 2); ARet 0].
Definition no_assignment (a : action Z) : Prop := match a with AExpire _ | AMax _ => False | AStep _ i => in_mid i = None | _ => True end.
Lemma switch_off :
  exists acts pre post, acts = pre ++ AExpire 0 :: post /\ Forall no_assignment (pre ++ post) /\ Sorted Z.le (clocks acts) /\
    (exists pre', pre = [AInv 0 (CSet (B "k") 1); AStep 0 (in_ 1 0); ARet 0] ++ AInv 1 (CGet (B "k") None) :: pre') /\
    Forall (fun z => z <= 2) (clocks acts) /\
    returns acts (cinit 0 100) = [(0%nat, RUnit); (1%nat, RGet 0 true); (0%nat, RGet 0 false)].
Proof.
  exists off_acts, (take 8 off_acts), (drop 9 off_acts). split_and!; [reflexivity| | |eexists; reflexivity| |vm_compute; done].
  - repeat constructor.
  - vm_compute. repeat constructor; vm_compute; discriminate.
  - vm_compute. repeat constructor; vm_compute; discriminate.
Qed.
(** The limit is 1000 and there are nine entries; while thread 0 sets the tenth, another goroutine sets Maxitems to 0:
    Set reads 1000 and then 0. *)
Definition key_no (n : nat) : bytes := [Ascii.ascii_of_nat (97 + n)].
Definition ten_acts (last : input) : list (action Z) :=
  flat_map (fun n => [AInv 0 (CSet (key_no n) (Z.of_nat (S n))); AStep 0 (in_ (Pos.of_succ_nat n) 0); ARet 0]) (seq 0 9) ++
  [AInv 0 (CSet (key_no 9) 10); AStep 0 last; AMax 0; ARet 0;
   AInv 0 (CGet (key_no 0) None); AStep 0 (in_ 1 1); ARet 0].
Definition between : input := Input 10 0 0 (fun _ => 0) None (Some (Readings 1000 0 0 (fun _ => 0))) None.
Lemma limit_off :
  returns (ten_acts between) (cinit 1000 0) = repeat (0%nat, RUnit) 10 ++ [(0%nat, RGet 0 false)] /\
  match exec 0 (cinit 1000 0) (ten_acts between) with Some (g, _) => size (h_items (g_shared g)) = 9%nat | None => False end.
Proof. vm_compute. done. Qed.
