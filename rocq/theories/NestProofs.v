(** * Validators that call the cache: proofs. *)
From Verif Require Import GoBase CacheModel CacheProofs CacheConc CacheConcProofs CacheConcSpec CacheConcProofs2 SettingsSpec SettingsProofs VerifyProofs NestSpec.
From Coq Require Import Lia ZifyBool ZifyNat.
Local Open Scope Z_scope.

Scheme prog_runs_mut := Minimality for prog_runs Sort Prop
  with call_runs_mut := Minimality for call_runs Sort Prop
  with steps_run_mut := Minimality for steps_run Sort Prop.
Combined Scheme nest_ind from prog_runs_mut, call_runs_mut, steps_run_mut.

Section P.
  Context {D : Type} (dnil : D) (F : bytes -> Z -> vprog D).
  Implicit Types (k : bytes) (s : shared D) (g : config D) (t d : nat) (x : positive) (a : action D) (acts : list (action D)).

  (** ** They are executions *)
  Lemma exec_trans g acts g1 tr acts2 g2 tr2 : exec dnil g acts = Some (g1, tr) -> exec dnil g1 acts2 = Some (g2, tr2) ->
    exec dnil g (acts ++ acts2) = Some (g2, tr ++ tr2).
  Proof. intros H1 H2. by rewrite exec_app, H1, H2. Qed.
  Lemma exec_cons g a g1 l acts g2 tr : cstep dnil g a = Some (g1, l) -> exec dnil g1 acts = Some (g2, tr) ->
    exec dnil g (a :: acts) = Some (g2, (l, g_shared g1) :: tr).
  Proof. intros H1 H2. simpl. by rewrite H1, H2. Qed.
  Lemma nest_exec :
    (forall d p g acts g' w, prog_runs dnil F d p g acts g' w -> exists tr, exec dnil g acts = Some (g', tr)) /\
    (forall d c g acts g' r, call_runs dnil F d c g acts g' r -> exists tr, exec dnil g acts = Some (g', tr)) /\
    (forall d g acts g', steps_run dnil F d g acts g' -> exists tr, exec dnil g acts = Some (g', tr)).
  Proof.
    apply nest_ind; intros; repeat match goal with H : exists _, _ |- _ => destruct H end; try (eexists; by simpl);
      eauto using exec_trans, exec_cons.
  Qed.

  (** ** The threads *)
  Definition above d a : Prop := match a with AInv t _ | AStep t _ | ARet t => (d <= t)%nat | _ => True end.
  Definition inner d a : Prop := match a with AInv t _ | ARet t => (d < t)%nat | AStep t _ => (d <= t)%nat | _ => True end.
  Lemma above_inner d acts : Forall (above (S d)) acts -> Forall (inner d) acts.
  Proof. intros H. eapply Forall_impl; [exact H|]. intros []; simpl; lia. Qed.
  Lemma inner_above d acts : Forall (inner d) acts -> Forall (above d) acts.
  Proof. intros H. eapply Forall_impl; [exact H|]. intros []; simpl; lia. Qed.
  Lemma nest_above :
    (forall d p g acts g' w, prog_runs dnil F d p g acts g' w -> Forall (above d) acts) /\
    (forall d c g acts g' r, call_runs dnil F d c g acts g' r -> Forall (above d) acts) /\
    (forall d g acts g', steps_run dnil F d g acts g' -> Forall (inner d) acts).
  Proof.
    apply nest_ind; intros; try (by constructor).
    - by apply Forall_app.
    - done.
    - constructor; [simpl; lia|]. apply Forall_app. split; [by apply inner_above|]. repeat constructor.
    - constructor; [simpl; lia|done].
    - apply Forall_app. split; [by apply above_inner|]. constructor; [simpl; lia|done].
  Qed.
  Lemma other_thread g acts g' tr d : exec dnil g acts = Some (g', tr) -> Forall (above (S d)) acts -> g_threads g' d = g_threads g d.
  Proof.
    revert g tr. induction acts as [|a acts IH]; intros g tr He Ha; simpl in He; [by simplify_eq|].
    destruct (cstep dnil g a) as [[g1 l]|] eqn:E; [|done]. destruct (exec dnil g1 acts) as [[g2 tr2]|] eqn:E2; [|done]. simplify_eq.
    inversion Ha as [|? ? Ha1 Ha2]; subst. rewrite (IH _ _ E2 Ha2). destruct a as [t c|t i|t| |]; simpl in E, Ha1.
    - destruct (g_threads g t); simplify_eq. simpl. by rewrite upd_other by lia.
    - destruct (g_threads g t) as [[c p]|]; [|done]. destruct (tstep _ _ _ _ _) as [[]|]; simplify_eq. simpl. by rewrite upd_other by lia.
    - destruct (g_threads g t) as [[c [| | | | | | | | | | | | |r]]|]; simplify_eq. simpl. by rewrite upd_other by lia.
    - by simplify_eq.
    - by simplify_eq.
  Qed.
  Lemma grows_trans (h1 h2 h3 : gmap positive (entry D)) : grows h1 h2 -> grows h2 h3 -> grows h1 h3.
  Proof.
    intros H1 H2 x e He. destruct (H1 _ _ He) as (e1 & He1 & ? & ?). destruct (H2 _ _ He1) as (e2 & He2 & ? & ?).
    exists e2. split_and!; [done|congruence..].
  Qed.
  Lemma exec_grows g acts g' tr : exec dnil g acts = Some (g', tr) -> allocated (g_shared g) ->
    allocated (g_shared g') /\ grows (h_heap (g_shared g)) (h_heap (g_shared g')).
  Proof.
    revert g tr. induction acts as [|a acts IH]; intros g tr He Ha; simpl in He; [simplify_eq; split; [done|apply grows_refl]|].
    destruct (cstep dnil g a) as [[g1 l]|] eqn:E; [|done]. destruct (exec dnil g1 acts) as [[g2 tr2]|] eqn:E2; [|done]. simplify_eq.
    assert (H : allocated (g_shared g1) /\ grows (h_heap (g_shared g)) (h_heap (g_shared g1))).
    { destruct a as [t c|t i|t| |]; simpl in E.
      - destruct (g_threads g t); simplify_eq. split; [done|apply grows_refl].
      - destruct (g_threads g t) as [[c p]|]; [|done]. destruct (tstep _ _ _ _ _) as [[]|] eqn:Et; simplify_eq. by eapply tstep_grows.
      - destruct (g_threads g t) as [[c [| | | | | | | | | | | | |r]]|]; simplify_eq. split; [done|apply grows_refl].
      - simplify_eq. split; [done|apply grows_refl].
      - simplify_eq. split; [done|apply grows_refl]. }
    destruct H as [H1 H2]. destruct (IH _ _ E2 H1) as [H3 H4]. split; [done|by eapply grows_trans].
  Qed.
  Lemma asked_steps g acts t k z w : (t, k, z, w) ∈ asked dnil g acts -> exists i, AStep t i ∈ acts.
  Proof.
    revert g. induction acts as [|a acts IH]; intros g; simpl; [by intros ?%elem_of_nil|].
    destruct (cstep dnil g a) as [[g1 l]|]; [|by intros ?%elem_of_nil]. rewrite elem_of_app. intros [H|H].
    - destruct a as [|t0 i| | |]; simpl in H; try (by apply elem_of_nil in H).
      assert (t0 = t) as ->; [|exists i; by left].
      repeat (case_match; try (by apply elem_of_nil in H)); apply elem_of_list_singleton in H; by simplify_eq.
    - destruct (IH _ H) as [i Hi]. exists i. by right.
  Qed.
  Lemma asked_app g acts g1 tr acts2 : exec dnil g acts = Some (g1, tr) -> asked dnil g (acts ++ acts2) = asked dnil g acts ++ asked dnil g1 acts2.
  Proof.
    revert g tr. induction acts as [|a acts IH]; intros g tr He; simpl in He |- *; [by simplify_eq|].
    destruct (cstep dnil g a) as [[g2 l]|]; [|done]. destruct (exec dnil g2 acts) as [[g3 tr3]|] eqn:E; [|done]. simplify_eq.
    by rewrite (IH _ _ E), <- app_assoc.
  Qed.

  (** ** Every question is a run of the program *)
  Lemma ran_more d g acts g1 tr acts2 k z w : exec dnil g acts = Some (g1, tr) -> ran dnil F d g1 acts2 k z w -> ran dnil F d g (acts ++ acts2) k z w.
  Proof.
    intros He (a1 & a2 & a3 & ga & gb & tr2 & -> & H1 & H2). exists (acts ++ a1), a2, a3, ga, gb, (tr ++ tr2).
    split; [by rewrite <- app_assoc|]. split; [by eapply exec_trans|done].
  Qed.
  Lemma asks_again g d i k z w g0 tr acts0 : allocated (g_shared g) -> asks g (AStep d i) = [(d, k, z, w)] -> exec dnil g acts0 = Some (g0, tr) ->
    Forall (above (S d)) acts0 -> asks g0 (AStep d i) = [(d, k, z, w)].
  Proof.
    intros Ha Hq He Hab. pose proof (other_thread _ _ _ _ _ He Hab) as Ht. destruct (exec_grows _ _ _ _ He Ha) as [_ Hg].
    unfold asks in *. rewrite Ht. destruct (g_threads g d) as [[c p]|]; [|done].
    destruct c as [| |k0 [f|]| | | |[f|]|]; try done; destruct p; try done;
      (destruct (h_heap (g_shared g) !! x) as [e|] eqn:Ee; [|done]); destruct (Hg _ _ Ee) as (e' & -> & _ & Hc); by rewrite Hc.
  Qed.
  Lemma questions_ran d g acts g' : steps_run dnil F d g acts g' -> allocated (g_shared g) ->
    forall k z w, (d, k, z, w) ∈ asked dnil g acts -> ran dnil F d g acts k z w.
  Proof.
    induction 1 as [d g|d g i g1 l acts g2 Hq Hn Hs Hr IH|d g i k z w acts0 g0 g1 l acts g2 Hq Hi Hp Hs Hr IH]; intros Ha k' z' w' Hin.
    - by apply elem_of_nil in Hin.
    - cbn [asked] in Hin. rewrite Hs, Hq in Hin. simpl in Hin.
      assert (He : exec dnil g [AStep d i] = Some (g1, [(l, g_shared g1)])) by (cbn [exec]; by rewrite Hs).
      apply (ran_more d g [AStep d i] g1 _ acts _ _ _ He). apply IH; [|done]. by destruct (exec_grows _ _ _ _ He Ha).
    - destruct (proj1 nest_exec _ _ _ _ _ _ Hp) as [tr0 He0]. pose proof (proj1 nest_above _ _ _ _ _ _ Hp) as Hab.
      rewrite (asked_app _ _ _ _ _ He0) in Hin. apply elem_of_app in Hin as [Hin|Hin].
      + apply asked_steps in Hin as [i0 Hi0]. eapply Forall_forall in Hi0; [|exact Hab]. simpl in Hi0. lia.
      + cbn [asked] in Hin. rewrite Hs, (asks_again _ _ _ _ _ _ _ _ _ Ha Hq He0 Hab) in Hin.
        apply elem_of_app in Hin as [Hin|Hin].
        * apply elem_of_list_singleton in Hin. simplify_eq. exists [], acts0, (AStep d i :: acts), g, g0, []. split_and!; done.
        * destruct (exec_grows _ _ _ _ He0 Ha) as [Ha0 _].
          assert (He : exec dnil g0 [AStep d i] = Some (g1, [(l, g_shared g1)])) by (cbn [exec]; by rewrite Hs).
          eapply ran_more; [exact He0|]. apply (ran_more d g0 [AStep d i] g1 _ acts _ _ _ He). apply IH; [|done]. by destruct (exec_grows _ _ _ _ He Ha0).
  Qed.

  Lemma exec_allocated mx ex acts g tr : exec dnil (cinit mx ex) acts = Some (g, tr) -> allocated (g_shared g).
  Proof. intros He. eapply exec_grows in He as [? _]; [done|]. intros k x. simpl. by rewrite lookup_empty. Qed.
  Lemma split_inv t (c : call D) (a b a' b' : list (action D)) : a ++ AInv t c :: b = a' ++ AInv t c :: b' -> (forall c', AInv t c' ∉ b) -> (forall c', AInv t c' ∉ b') -> a = a' /\ b = b'.
  Proof.
    intros H Hb Hb'. revert a' H. induction a as [|y a IH]; intros [|y' a'] H; simpl in H.
    - by injection H as ->.
    - injection H as <- ->. destruct (Hb c). rewrite elem_of_app, elem_of_cons. auto.
    - injection H as -> <-. destruct (Hb' c). rewrite elem_of_app, elem_of_cons. auto.
    - injection H as -> H. destruct (IH _ H) as [-> ->]. done.
  Qed.
  Lemma nest_verify mx ex acts0 g0 tr0 d v acts g1 n :
    exec dnil (cinit mx ex) acts0 = Some (g0, tr0) -> call_runs dnil F d (CVerify v) g0 acts g1 (RInt n) ->
    exists tr, exec dnil g0 acts = Some (g1, tr) /\
      forall k x, (forall l s, (l, s) ∈ tr -> h_items s !! k = Some x) ->
        exists e, h_heap (g_shared g1) !! x = Some e /\ ran dnil F d g0 acts k (e_ctime e) Yes.
  Proof.
    intros He0 Hc. destruct (proj1 (proj2 nest_exec) _ _ _ _ _ _ Hc) as [tr He]. exists tr. split; [done|]. intros k x Hp.
    inversion Hc as [d' c' g0' g2 l2 acts2 g3 g4 r' Hv Hi Hs Hr]; subst. destruct Hv as [f ->].
    destruct (proj2 (proj2 nest_exec) _ _ _ _ Hs) as [tr2 He2]. pose proof (proj2 (proj2 nest_above) _ _ _ _ Hs) as Hab.
    assert (Hi1 : exec dnil g0 [AInv d (CVerify (Some f))] = Some (g2, [(l2, g_shared g2)])) by (cbn [exec]; by rewrite Hi).
    assert (E : exec dnil (cinit mx ex) (acts0 ++ AInv d (CVerify (Some f)) :: acts2) = Some (g3, tr0 ++ (l2, g_shared g2) :: tr2)).
    { eapply exec_trans; [done|]. by eapply exec_cons. }
    destruct (verify_leaves dnil _ _ _ _ _ _ _ _ _ E Hr) as (b & trb & qs & Hd & Hl).
    destruct Hd as (a & tra & s0 & gb & Hacts & Htr & Hlen & Hn1 & Hn2 & Hex & ->).
    assert (Hno : forall c', AInv d c' ∉ acts2).
    { intros c' Hin. eapply Forall_forall in Hin; [|exact Hab]. simpl in Hin. lia. }
    apply split_inv in Hacts as [<- <-]; [|done..].
    rewrite (exec_trans _ _ _ _ _ _ _ He0 Hi1) in Hex. injection Hex as -> Htr2. apply app_inj_tail in Htr2 as [<- [= -> _]].
    apply app_inv_head in Htr. injection Htr as _ <-.
    assert (Htr3 : tr = (LInv d (CVerify (Some f)), g_shared gb) :: tr2 ++ [(LRet d (CVerify (Some f)) (RInt n), g_shared g1)]).
    { assert (He3 : exec dnil g3 [ARet d] = Some (g1, [(LRet d (CVerify (Some f)) (RInt n), g_shared g1)])) by (cbn [exec]; by rewrite Hr).
      pose proof (exec_cons _ _ _ _ _ _ _ Hi (exec_trans _ _ _ _ _ _ _ He2 He3)) as He'. rewrite He in He'. by injection He'. }
    destruct (Hl k x) as (e & Hex & Hq).
    { intros l s Hin. apply (Hp l). rewrite Htr3. right. apply elem_of_app. by left. }
    assert (Hsame : g_shared g1 = g_shared g3).
    { simpl in Hr. destruct (g_threads g3 d) as [[c [| | | | | | | | | | | | |r]]|]; by simplify_eq. }
    exists e. rewrite Hsame. split; [done|]. assert (Ha2 : allocated (g_shared gb)).
    { eapply exec_grows in Hi1 as [? _]; [done|]. by eapply exec_allocated. }
    pose proof (questions_ran _ _ _ _ Hs Ha2 _ _ _ Hq) as (a1 & a2 & a3 & ga & gc & tr4 & -> & H1 & H2).
    exists (AInv d (CVerify (Some f)) :: a1), a2, (a3 ++ [ARet d]), ga, gc, ((LInv d (CVerify (Some f)), g_shared gb) :: tr4).
    split_and!; [|by eapply exec_cons|done]. rewrite <- !app_assoc. done.
  Qed.

  (** ** No panic *)
  Definition wf g : Prop := ccovered (g_shared g) /\ forall t c p, g_threads g t = Some (c, p) -> call_ok c.
  Lemma wf_step g a g' l : wf g -> action_ok a -> cstep dnil g a = Some (g', l) -> wf g'.
  Proof.
    intros [Hc Ht] Ha Hs. destruct a as [t c|t i|t|mx'|ex']; simpl in Hs; [| | |by simplify_eq..].
    - destruct (g_threads g t) eqn:E; [done|]. simplify_eq. split; simpl; [done|].
      intros t' c' p'. destruct (decide (t' = t)) as [->|Hne]; [rewrite upd_same; intros; by simplify_eq|].
      rewrite upd_other by done. apply Ht.
    - destruct (g_threads g t) as [[c p]|] eqn:E; [|done].
      destruct (tstep _ _ _ _ _) as [[s' p']|] eqn:E2; [|done]. simplify_eq.
      pose proof (Ht _ _ _ E) as Hok. destruct (tstep_covered _ _ _ _ _ _ _ Hc Hok E2) as [H1 _]. split; simpl; [done|].
      intros t' c' p''. destruct (decide (t' = t)) as [->|Hne]; [rewrite upd_same; intros; by simplify_eq|].
      rewrite upd_other by done. apply Ht.
    - destruct (g_threads g t) as [[c [| | | | | | | | | | | | |r]]|] eqn:E; simplify_eq. split; simpl; [done|].
      intros t' c' p''. destruct (decide (t' = t)) as [->|Hne]; [by rewrite upd_same|]. rewrite upd_other by done. apply Ht.
  Qed.
  Definition fine d g : Prop := forall c p, g_threads g d = Some (c, p) -> no_panic p.
  Lemma fine_step d g i g' l : wf g -> in_says i <> Some Crash -> cstep dnil g (AStep d i) = Some (g', l) -> fine d g'.
  Proof.
    intros [Hc Ht] Hi Hs c p. simpl in Hs. destruct (g_threads g d) as [[c0 p0]|] eqn:E; [|done].
    destruct (tstep _ _ _ _ _) as [[s' p']|] eqn:E2; [|done]. simplify_eq. simpl. rewrite upd_same. intros [= <- <-].
    by apply (tstep_covered _ _ _ _ _ _ _ Hc (Ht _ _ _ E) E2).
  Qed.
  Lemma nest_quiet : (forall k z, quiet (F k z)) ->
    (forall d p g acts g' w, prog_runs dnil F d p g acts g' w -> quiet p -> wf g -> w <> Crash /\ wf g') /\
    (forall d c g acts g' r, call_runs dnil F d c g acts g' r -> call_ok c -> wf g -> r <> RPanic /\ wf g') /\
    (forall d g acts g', steps_run dnil F d g acts g' -> wf g -> fine d g -> wf g' /\ fine d g').
  Proof.
    intros HF. apply nest_ind.
    - intros d b g _ Hw. split; [by destruct b|done].
    - intros d g Hq. inversion Hq.
    - intros d c next g acts g1 r acts2 g2 w _ IH1 _ _ IH2 Hq Hw. inversion Hq as [|? ? Hl Hn| |]; subst.
      destruct (IH1 Hl Hw) as [_ Hw1]. by apply IH2.
    - intros d c next g acts g1 _ IH1 Hq Hw. inversion Hq as [|? ? Hl Hn| |]; subst. by destruct (IH1 Hl Hw).
    - intros d z next g g1 l acts g2 w Hs _ IH Hq Hw. inversion Hq; subst. apply IH; [done|]. exact (wf_step _ (AMax z) _ _ Hw I Hs).
    - intros d z next g g1 l acts g2 w Hs _ IH Hq Hw. inversion Hq; subst. apply IH; [done|]. exact (wf_step _ (AExpire z) _ _ Hw I Hs).
    - intros d c g g1 l acts g2 g3 r _ Hi _ IH Hr Hok Hw.
      destruct IH as [Hw2 Hf2]; [exact (wf_step _ (AInv d c) _ _ Hw Hok Hi)| |].
      { intros c0 p0. simpl in Hi. destruct (g_threads g d); simplify_eq. simpl. rewrite upd_same. by intros [= <- <-]. }
      split; [|exact (wf_step _ (ARet d) _ _ Hw2 I Hr)]. simpl in Hr. destruct (g_threads g2 d) as [[c0 [| | | | | | | | | | | | |r0]]|] eqn:E; simplify_eq.
      intros ->. by apply (Hf2 _ _ E).
    - done.
    - intros d g i g1 l acts g2 _ Hn Hs _ IH Hw _. apply IH; [exact (wf_step _ (AStep d i) _ _ Hw I Hs)|]. eapply fine_step; [exact Hw| |done]. by rewrite Hn.
    - intros d g i k z w acts0 g0 g1 l acts g2 _ Hn _ IH1 Hs _ IH Hw _. destruct (IH1 (HF k z) Hw) as [Hne Hw0].
      apply IH; [exact (wf_step _ (AStep d i) _ _ Hw0 I Hs)|]. eapply fine_step; [exact Hw0| |done]. rewrite Hn. congruence.
  Qed.
  Lemma exec_wf mx ex acts g tr : Forall action_ok acts -> exec dnil (cinit mx ex) acts = Some (g, tr) -> wf g.
  Proof.
    intros Hq He. eapply (exec_invariant dnil (fun g tr => wf g) action_ok); [| |done|done].
    - split; [|done]. intros k. simpl. rewrite lookup_empty. by intros [].
    - intros ? ? ? ? ? ? ? ?. by eapply wf_step.
  Qed.
  Lemma nest_no_panic mx ex acts0 g0 tr0 d c acts g1 r : (forall k z, quiet (F k z)) -> Forall action_ok acts0 ->
    exec dnil (cinit mx ex) acts0 = Some (g0, tr0) -> legal c -> call_runs dnil F d c g0 acts g1 r ->
    r <> RPanic /\ forall k, is_Some (h_items (g_shared g1) !! k) -> k ∈ h_pile (g_shared g1).
  Proof.
    intros HF Hq He Hl Hc. destruct (proj1 (proj2 (nest_quiet HF)) _ _ _ _ _ _ Hc Hl (exec_wf _ _ _ _ _ Hq He)) as [H1 [H2 _]].
    by split.
  Qed.

  (** ** Computed from a schedule (without the beginnings of calls); also gives what is left of it *)
  Definition has_validator (c : call D) : bool := match c with CGet _ None | CVerify None => false | _ => true end.
  Definition same_says (w w' : says) : bool := match w, w' with Yes, Yes | No, No | Crash, Crash => true | _, _ => false end.
  Inductive task := TProg (p : vprog D) | TCall (c : call D) | TSteps.
  Inductive outc := DProg (w : says) | DCall (r : result D) | DSteps.
  Fixpoint follow (fuel : nat) (d : nat) (q : task) (g : config D) (acts : list (action D)) : option (config D * outc * list (action D)) :=
    match fuel with
    | O => None
    | S n =>
        match q with
        | TProg (Says b) => Some (g, DProg (if b then Yes else No), acts)
        | TProg Panics => Some (g, DProg Crash, acts)
        | TProg (Do c next) =>
            match follow n d (TCall c) g acts with
            | Some (g1, DCall RPanic, rest) => Some (g1, DProg Crash, rest)
            | Some (g1, DCall r, rest) => follow n d (TProg (next r)) g1 rest
            | _ => None
            end
        | TProg (PutMax z next) =>
            match acts, cstep dnil g (AMax z) with
            | AMax z' :: rest, Some (g1, _) => if decide (z' = z) then follow n d (TProg next) g1 rest else None
            | _, _ => None
            end
        | TProg (PutExpire z next) =>
            match acts, cstep dnil g (AExpire z) with
            | AExpire z' :: rest, Some (g1, _) => if decide (z' = z) then follow n d (TProg next) g1 rest else None
            | _, _ => None
            end
        | TCall c =>
            match cstep dnil g (AInv d c) with
            | Some (g1, _) =>
                if has_validator c then
                  match follow n d TSteps g1 acts with
                  | Some (g2, DSteps, ARet d' :: rest) =>
                      match cstep dnil g2 (ARet d) with
                      | Some (g3, LRet _ _ r) => if decide (d' = d) then Some (g3, DCall r, rest) else None
                      | _ => None
                      end
                  | _ => None
                  end
                else None
            | None => None
            end
        | TSteps =>
            match asks g (AStep d (Input 1 0 0 (fun _ => 0) None None None)) with
            | [] =>
                match acts with
                | AStep d' i :: rest =>
                    if decide (d' = d) then
                      match asks g (AStep d i), in_says i, cstep dnil g (AStep d i) with
                      | [], None, Some (g1, _) => follow n d TSteps g1 rest
                      | _, _, _ => None
                      end
                    else Some (g, DSteps, acts)
                | _ => Some (g, DSteps, acts)
                end
            | (_, k, z, _) :: _ =>
                match follow n (S d) (TProg (F k z)) g acts with
                | Some (g0, DProg w, AStep d' i :: rest) =>
                    if decide (d' = d) then
                      match asks g (AStep d i), in_says i, cstep dnil g0 (AStep d i) with
                      | [(d1, k1, z1, w1)], Some w2, Some (g1, _) =>
                          if bool_decide (d1 = d /\ k1 = k /\ z1 = z) && same_says w1 w && same_says w2 w
                          then follow n d TSteps g1 rest else None
                      | _, _, _ => None
                      end
                    else None
                | _ => None
                end
            end
        end
    end.

  Lemma same_says_eq w w' : same_says w w' = true -> w = w'.
  Proof. by destruct w, w'. Qed.
  Definition follows d (q : task) g g' (r : outc) : Prop := exists acts, match q, r with
    | TProg p, DProg w => prog_runs dnil F d p g acts g' w
    | TCall c, DCall r => call_runs dnil F d c g acts g' r
    | TSteps, DSteps => steps_run dnil F d g acts g'
    | _, _ => False
    end.
  Lemma follow_sound n : forall d q g acts g' r rest, follow n d q g acts = Some (g', r, rest) -> follows d q g g' r.
  Proof.
    induction n as [|n IH]; intros d q g acts g' r rest H; [done|]. cbn [follow] in H. destruct q as [[b| |c next|z next|z next]|c|].
    - simplify_eq. eexists. constructor.
    - simplify_eq. eexists. constructor.
    - destruct (follow n d (TCall c) g acts) as [[[g1 r1] rest1]|] eqn:E; [|done]. apply IH in E. destruct r1 as [|r1|]; [done| |done]. destruct E as [acts1 E].
      assert (Hr : r1 = RPanic \/ (r1 <> RPanic /\ follow n d (TProg (next r1)) g1 rest1 = Some (g', r, rest))) by (destruct r1; auto; right; done).
      destruct Hr as [->|[Hr H2]].
      + simplify_eq. eexists. by eapply pr_do_panic.
      + apply IH in H2 as [acts2 H2]. destruct r as [w| |]; try done. eexists. by eapply pr_do.
    - destruct acts as [|[| | |z'|] acts]; try done. destruct (cstep dnil g (AMax z)) as [[g1 l]|] eqn:E; [|done]. destruct (decide (z' = z)); [|done].
      apply IH in H as [acts2 H]. destruct r; try done. eexists. by eapply pr_max.
    - destruct acts as [|[| | | |z'] acts]; try done. destruct (cstep dnil g (AExpire z)) as [[g1 l]|] eqn:E; [|done]. destruct (decide (z' = z)); [|done].
      apply IH in H as [acts2 H]. destruct r; try done. eexists. by eapply pr_expire.
    - destruct (cstep dnil g (AInv d c)) as [[g1 l]|] eqn:E; [|done]. destruct (has_validator c) eqn:Hv; [|done].
      destruct (follow n d TSteps g1 acts) as [[[g2 []] [|[| |d'| |] rest1]]|] eqn:E2; try done. apply IH in E2 as [acts2 E2].
      destruct (cstep dnil g2 (ARet d)) as [[g3 [| |t0 c0 r0|]]|] eqn:E3; try done. destruct (decide (d' = d)); [|done]. simplify_eq.
      assert (Ht : g_threads g1 d = Some (c, Start)).
      { simpl in E. destruct (g_threads g d); simplify_eq. simpl. by rewrite upd_same. }
      assert (Hc : forall g acts g', steps_run dnil F d g acts g' -> forall c p, g_threads g d = Some (c, p) -> exists p', g_threads g' d = Some (c, p')).
      { clear. induction 1 as [d g|d g i g1 l acts g2 Hq Hn Hs Hr IH|d g i k z w acts0 g0 g1 l acts g2 Hq Hi Hp Hs Hr IH]; intros c p Ht; [by exists p| |].
        - simpl in Hs. rewrite Ht in Hs. destruct (tstep _ _ _ _ _) as [[s' p']|]; [|done]. simplify_eq. eapply IH. simpl. by rewrite upd_same.
        - destruct (proj1 nest_exec _ _ _ _ _ _ Hp) as [tr0 He0]. pose proof (proj1 nest_above _ _ _ _ _ _ Hp) as Hab.
          rewrite <- (other_thread _ _ _ _ _ He0 Hab) in Ht. simpl in Hs. rewrite Ht in Hs.
          destruct (tstep _ _ _ _ _) as [[s' p']|]; [|done]. simplify_eq. eapply IH. simpl. by rewrite upd_same. }
      destruct (Hc _ _ _ E2 _ _ Ht) as [p' Ht2].
      assert (t0 = d /\ c0 = c) as [-> ->]. { simpl in E3. rewrite Ht2 in E3. destruct p'; by simplify_eq. }
      eexists. eapply cr; [|done..]. destruct c as [| |? []| | | |[]|]; simpl in *; try done; by eexists.
    - destruct (asks g (AStep d (Input 1 0 0 (fun _ => 0) None None None))) as [|[[[d0 k] z] w0] qs] eqn:E.
      + destruct acts as [|a acts]; [simplify_eq; eexists; constructor|].
        destruct a as [|d' i| | |]; try (simplify_eq; eexists; constructor).
        destruct (decide (d' = d)) as [->|]; [|simplify_eq; eexists; constructor].
        destruct (asks g (AStep d i)) eqn:Ea; [|done]. destruct (in_says i) eqn:Es; [done|]. destruct (cstep dnil g (AStep d i)) as [[g1 l]|] eqn:Ec; [|done].
        apply IH in H as [acts2 H]. destruct r; try done. eexists. by eapply sr_plain.
      + destruct (follow n (S d) (TProg (F k z)) g acts) as [[[g0 [w| |]] [|[|d' i| | |] rest1]]|] eqn:E2; try done. apply IH in E2 as [acts2 E2].
        destruct (decide (d' = d)) as [->|]; [|done]. destruct (asks g (AStep d i)) as [|[[[d1 k1] z1] w1] [|]] eqn:Ea; [done| |done].
        destruct (in_says i) as [w2|] eqn:Es; [|done]. destruct (cstep dnil g0 (AStep d i)) as [[g1 l]|] eqn:Ec; [|done].
        destruct (bool_decide (d1 = d /\ k1 = k /\ z1 = z)) eqn:Hb; [|done]. apply bool_decide_eq_true in Hb as (-> & -> & ->).
        destruct (same_says w1 w) eqn:H1; [|done]. destruct (same_says w2 w) eqn:H2; [|done]. apply same_says_eq in H1 as ->. apply same_says_eq in H2 as ->.
        apply IH in H as [acts3 H]. destruct r; try done. eexists. by eapply sr_ask.
  Qed.
End P.
