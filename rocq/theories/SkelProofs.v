(** * A disciplined object has no race, no self blocking call and no deadlock. *)
From Verif Require Import GoBase SkelModel.

Section SkelProofs.
  Context {V : Type} (guarded : V -> bool).
  Implicit Types (p q : list (instr V)) (c : cmd V) (s : state V) (h : held) (t : nat).

  Lemma follow_app h p q :
    follow guarded h (p ++ q) = match follow guarded h p with None => None | Some h' => follow guarded h' q end.
  Proof.
    revert h. induction p as [|i p IH]; intros h; simpl; [done|]. by destruct (follow1 guarded h i).
  Qed.
  Lemma check_path c p h h' : path c p -> check guarded h c = Some h' -> follow guarded h p = Some h'.
  Proof.
    intros Hp. revert h h'. induction Hp as [|i|a b p q _ IH1 _ IH2|a b p _ IH|a b p _ IH|a|a p q _ IH1 _ IH2]; intros h h' Hc; simpl in *.
    - done.
    - by destruct (follow1 guarded h i).
    - rewrite follow_app. destruct (check guarded h a) as [h1|] eqn:E; [|done]. rewrite (IH1 _ _ E). by apply IH2.
    - destruct (check guarded h a) as [h1|] eqn:E1; [|done]. destruct (check guarded h b) as [h2|] eqn:E2; [|done].
      destruct (decide (h1 = h2)); simplify_eq. by apply IH.
    - destruct (check guarded h a) as [h1|] eqn:E1; [|done]. destruct (check guarded h b) as [h2|] eqn:E2; [|done].
      destruct (decide (h1 = h2)); simplify_eq. by apply IH.
    - destruct (check guarded h a) as [h1|]; [|done]. by destruct (decide (h1 = h)); simplify_eq.
    - rewrite follow_app. destruct (check guarded h a) as [h1|] eqn:E; [|done]. destruct (decide (h1 = h)) as [->|]; [|done].
      simplify_eq. rewrite (IH1 _ _ E). apply IH2. by rewrite E, decide_True.
  Qed.

  Definition holding (k : rw) t : held :=
    if decide (r_writer k = Some t) then HWrite else if decide (t ∈ r_readers k) then HRead else HNone.

  Definition ok s : Prop :=
    let k := s_lock s in
    (forall t, follow guarded (holding k t) (s_code s t) = Some HNone) /\
    NoDup (r_readers k) /\
    (r_writer k <> None -> r_readers k = []) /\
    (forall t, r_pending k = Some t -> r_writer k = None /\ t ∉ r_readers k /\ exists rest, s_code s t = Lock :: rest).

  Lemma setc_same f t p : @setc V f t p t = p.
  Proof. unfold setc. by rewrite decide_True. Qed.
  Lemma setc_other f t t' p : t' <> t -> @setc V f t p t' = f t'.
  Proof. intros. unfold setc. by rewrite decide_False. Qed.
  Lemma remove1_in t t' l : t' ∈ remove1 t l -> t' ∈ l.
  Proof.
    induction l as [|x l IH]; simpl; [done|]. destruct (decide (x = t)); rewrite ?elem_of_cons; tauto.
  Qed.
  Lemma remove1_other t t' l : t' <> t -> t' ∈ l -> t' ∈ remove1 t l.
  Proof.
    intros Hne. induction l as [|x l IH]; simpl; [done|].
    rewrite elem_of_cons. destruct (decide (x = t)) as [->|]; [naive_solver|]. rewrite elem_of_cons. naive_solver.
  Qed.
  Lemma remove1_nodup t l : NoDup l -> NoDup (remove1 t l) /\ t ∉ remove1 t l.
  Proof.
    induction 1 as [|x l Hx Hl [IH1 IH2]]; simpl; [split; [constructor|set_solver]|].
    destruct (decide (x = t)) as [->|]; [done|]. split.
    - constructor; [|done]. intros Hin. apply Hx. by eapply remove1_in.
    - rewrite elem_of_cons. naive_solver.
  Qed.

  Lemma holding_other k k' t :
    (r_writer k' = Some t <-> r_writer k = Some t) -> (t ∈ r_readers k' <-> t ∈ r_readers k) ->
    holding k' t = holding k t.
  Proof.
    intros H1 H2. unfold holding.
    destruct (decide (r_writer k' = Some t)), (decide (r_writer k = Some t)); try tauto.
    destruct (decide (t ∈ r_readers k')), (decide (t ∈ r_readers k)); tauto.
  Qed.

  Lemma step_ok s a s' :
    ok s -> (match a with Begin _ p => follow guarded HNone p = Some HNone | Go _ => True end) ->
    step s a = Some s' -> ok s'.
  Proof.
    destruct s as [k f]. intros (HF & HN & HX & HP) Ha Hs. simpl in *. destruct a as [t p|t]; simpl in Hs.
    - destruct (f t) eqn:E; [|done]. simplify_eq. split_and!; simpl; [|done|done|].
      + intros t'. unfold setc. destruct (decide (t' = t)) as [->|]; [|done].
        pose proof (HF t) as Hf. rewrite E in Hf. simpl in Hf. by injection Hf as ->.
      + intros t' Hp. destruct (HP t' Hp) as (H1 & H2 & rest & H3). split_and!; [done|done|].
        exists rest. rewrite setc_other; [done|]. intros ->. congruence.
    - destruct (f t) as [|i rest] eqn:E; [done|]. pose proof (HF t) as Hf. rewrite E in Hf. simpl in Hf.
      destruct (follow1 guarded (holding k t) i) as [h1|] eqn:E1; [|done].
      (* a change of the lock that only concerns [t] *)
      assert (Hgen : forall k', s' = State k' (setc f t rest) -> holding k' t = h1 ->
        (forall t', t' <> t -> (r_writer k' = Some t' <-> r_writer k = Some t') /\ (t' ∈ r_readers k' <-> t' ∈ r_readers k)) ->
        NoDup (r_readers k') -> (r_writer k' <> None -> r_readers k' = []) ->
        (forall t', r_pending k' = Some t' -> r_pending k = Some t' /\ t' <> t /\ r_writer k' = None) -> ok s').
      { intros k' -> Hh Ho Hn' Hx' Hp'. split_and!; simpl; [|done|done|].
        - intros t'. unfold setc. destruct (decide (t' = t)) as [->|Hne]; [by rewrite Hh|].
          destruct (Ho t' Hne). rewrite (holding_other k); done.
        - intros t' Hpt. destruct (Hp' t' Hpt) as (H1 & H2 & H3). destruct (HP t' H1) as (_ & H5 & rs & H6).
          split_and!; [done| |].
          + intros Hin. apply H5. by apply (Ho t').
          + exists rs. by rewrite setc_other. }
      assert (Hpt : forall i', i = i' -> i' <> Lock -> r_pending k <> Some t).
      { intros i' -> Hl Hp. destruct (HP t Hp) as (_ & _ & rs & H6). congruence. }
      destruct i; simpl in Hs.
      + (* Lock *)
        unfold follow1 in E1. destruct (holding k t) eqn:Eh; try done. injection E1 as <-.
        destruct (r_writer k) eqn:Ew; [done|]. destruct (r_pending k) as [t'|] eqn:Ep.
        * destruct (decide (t' = t /\ r_readers k = [])) as [[-> Hr]|]; [|done]. injection Hs as <-.
          eapply Hgen; [done|..]; simpl.
          -- unfold holding. simpl. by rewrite decide_True.
          -- intros t' Hne. rewrite Hr. split; [|done]. split; congruence.
          -- constructor.
          -- done.
          -- done.
        * injection Hs as <-. split_and!; simpl; [|done|done|].
          -- intros t'. rewrite <- (HF t'). f_equal. apply holding_other; simpl; [by rewrite Ew|done].
          -- intros t' [= <-]. split_and!; [done| |by exists rest]. unfold holding in Eh.
             rewrite decide_False in Eh by (by rewrite Ew). by destruct (decide (t ∈ r_readers k)).
      + (* Unlock *)
        destruct (decide (r_writer k = Some t)) as [Hw|]; [|done]. injection Hs as <-.
        unfold follow1 in E1. destruct (holding k t); try done. injection E1 as <-.
        assert (Hr : r_readers k = []) by (apply HX; by rewrite Hw).
        eapply Hgen; [done|..]; simpl.
        * unfold holding. simpl. rewrite Hr. done.
        * intros t' Hne. split; [|done]. rewrite Hw. split; [done|congruence].
        * done.
        * done.
        * intros t' Hp. split_and!; [done| |done]. intros ->. by eapply (Hpt Unlock).
      + (* RLock *)
        unfold follow1 in E1. destruct (holding k t) eqn:Eh; try done. injection E1 as <-.
        destruct (r_writer k) eqn:Ew; [done|]. destruct (r_pending k) eqn:Ep; [done|]. injection Hs as <-.
        eapply Hgen; [done|..]; simpl.
        * unfold holding. cbn [r_writer r_readers]. rewrite decide_False by done. rewrite decide_True; [done|]. by left.
        * intros t' Hne. split; [done|]. rewrite elem_of_cons. naive_solver.
        * constructor; [|done]. unfold holding in Eh. rewrite decide_False in Eh by (by rewrite Ew).
          by destruct (decide (t ∈ r_readers k)).
        * done.
        * done.
      + (* RUnlock *)
        destruct (decide (t ∈ r_readers k)) as [Hin|]; [|done]. injection Hs as <-.
        unfold follow1 in E1. destruct (holding k t) eqn:Eh; try done. injection E1 as <-.
        assert (Hw : r_writer k = None).
        { destruct (r_writer k) eqn:Ew; [|done]. rewrite HX in Hin by done. set_solver. }
        destruct (remove1_nodup t _ HN) as [Hn1 Hn2].
        eapply Hgen; [done|..]; simpl.
        * unfold holding. simpl. rewrite decide_False by (by rewrite Hw). by rewrite decide_False.
        * intros t' Hne. split; [done|]. split; [apply remove1_in|by apply remove1_other].
        * done.
        * by rewrite Hw.
        * intros t' Hp. split_and!; [done| |done]. intros ->. by eapply (Hpt RUnlock).
      + (* Rd *)
        injection Hs as <-. assert (h1 = holding k t) as ->.
        { simpl in E1. by destruct (guarded x && _); simplify_eq. }
        eapply Hgen; try done. intros t' Hp. split_and!; [done| |by apply HP in Hp as [? _]]. intros ->. by eapply (Hpt (Rd x)).
      + (* Wr *)
        injection Hs as <-. assert (h1 = holding k t) as ->.
        { simpl in E1. by destruct (guarded x && _); simplify_eq. }
        eapply Hgen; try done. intros t' Hp. split_and!; [done| |by apply HP in Hp as [? _]]. intros ->. by eapply (Hpt (Wr x)).
  Qed.

  Lemma exec_app s acts1 acts2 :
    @exec V s (acts1 ++ acts2) = match exec s acts1 with None => None | Some s1 => exec s1 acts2 end.
  Proof. revert s. induction acts1 as [|a acts IH]; intros s; simpl; [done|]. by destruct (step s a). Qed.

  Lemma exec_ok methods acts s :
    Forall (fun c => disciplined guarded c = true) methods -> calls_of methods acts ->
    exec start acts = Some s -> ok s.
  Proof.
    intros Hm. revert s. induction acts as [|a acts IH] using rev_ind; intros s Hc He.
    - simpl in He. simplify_eq. split_and!; simpl; try done. constructor.
    - apply Forall_app in Hc as [Hc Ha]. rewrite Forall_singleton in Ha.
      rewrite exec_app in He. destruct (exec start acts) as [s1|] eqn:E; [|done]. simpl in He.
      destruct (step s1 a) as [s2|] eqn:E2; [|done]. simplify_eq.
      eapply step_ok; [by apply IH| |done]. destruct a as [t p|]; [|done]. destruct Ha as (c & Hin & Hp).
      eapply check_path; [done|]. rewrite Forall_forall in Hm. specialize (Hm _ Hin).
      unfold disciplined in Hm. by apply bool_decide_eq_true in Hm.
  Qed.

  Lemma ok_no_race s x : ok s -> guarded x = true -> ~ race s x.
  Proof.
    intros (HF & HN & HX & HP) Hg (t1 & t2 & Hne & [r1 Hw] & Hr).
    pose proof (HF t1) as F1. rewrite Hw in F1. simpl in F1. rewrite Hg in F1. simpl in F1.
    assert (Hh1 : holding (s_lock s) t1 = HWrite) by (by destruct (holding (s_lock s) t1)).
    assert (H1 : r_writer (s_lock s) = Some t1).
    { unfold holding in Hh1. destruct (decide (r_writer _ = Some t1)); [done|]. by destruct (decide (_ ∈ _)). }
    assert (Hh2 : holding (s_lock s) t2 = HNone).
    { unfold holding. rewrite decide_False by congruence. rewrite decide_False; [done|].
      rewrite HX by (by rewrite H1). set_solver. }
    pose proof (HF t2) as F2. rewrite Hh2 in F2.
    destruct Hr as [[r2 Hr]|[r2 Hr]]; rewrite Hr in F2; simpl in F2; by rewrite Hg in F2.
  Qed.
  Lemma ok_no_self_block s t : ok s -> ~ self_block s t.
  Proof.
    intros (HF & HN & HX & HP) [[rest Hl] Hh]. pose proof (HF t) as F.
    assert (holding (s_lock s) t <> HNone).
    { unfold holding. destruct (decide (r_writer _ = Some t)); [done|]. destruct (decide (_ ∈ _)); [done|]. tauto. }
    destruct Hl as [Hl|Hl]; rewrite Hl in F; simpl in F; by destruct (holding (s_lock s) t).
  Qed.
  Lemma holder_moves s t : ok s -> holding (s_lock s) t <> HNone -> s_code s t <> [] /\ step s (Go t) <> None.
  Proof.
    intros (HF & HN & HX & HP) Hh. pose proof (HF t) as F. destruct (s_code s t) as [|i rest] eqn:E.
    { simpl in F. by injection F as ?. }
    split; [done|]. simpl. rewrite E. simpl in F. destruct (follow1 guarded (holding (s_lock s) t) i) eqn:E1; [|done].
    unfold holding in *. destruct i; simpl in E1; try done.
    - by destruct (decide (r_writer _ = Some t)); [|destruct (decide (t ∈ _))].
    - destruct (decide (r_writer _ = Some t)); [done|]. by destruct (decide (t ∈ _)).
    - by destruct (decide (r_writer _ = Some t)); [|destruct (decide (t ∈ _))].
    - destruct (decide (r_writer _ = Some t)); [done|]. by destruct (decide (t ∈ _)).
  Qed.
  Lemma ok_not_stuck s : ok s -> ~ stuck s.
  Proof.
    intros Hok [[t Ht] Hst]. pose proof Hok as (HF & HN & HX & HP).
    assert (Hno : forall t, holding (s_lock s) t = HNone).
    { intros t'. destruct (decide (holding (s_lock s) t' = HNone)) as [|Hn]; [done|].
      destruct (holder_moves s t' Hok Hn) as [H1 H2]. by specialize (Hst t' H1). }
    assert (Hw : r_writer (s_lock s) = None).
    { destruct (r_writer (s_lock s)) as [t'|] eqn:E; [|done]. specialize (Hno t'). unfold holding in Hno.
      by rewrite decide_True in Hno. }
    assert (Hr : r_readers (s_lock s) = []).
    { destruct (r_readers (s_lock s)) as [|t' l] eqn:E; [done|]. specialize (Hno t'). unfold holding in Hno.
      rewrite decide_False in Hno by (by rewrite Hw). rewrite E, decide_True in Hno; [done|]. by left. }
    destruct (r_pending (s_lock s)) as [t'|] eqn:Ep.
    - destruct (HP t' eq_refl) as (_ & _ & rest & Hc).
      assert (Hg : step s (Go t') = None) by (apply Hst; by rewrite Hc).
      simpl in Hg. by rewrite Hc, Hw, Ep, decide_True in Hg.
    - pose proof (Hst t Ht) as Hg. simpl in Hg. pose proof (HF t) as F. rewrite Hno in F.
      destruct (s_code s t) as [|i rest] eqn:E; [done|]. simpl in F.
      destruct i; simpl in F; rewrite ?Hw, ?Ep in Hg; try done.
  Qed.

  Lemma discipline methods acts s :
    Forall (fun c => disciplined guarded c = true) methods -> calls_of methods acts ->
    exec start acts = Some s ->
    (forall x, guarded x = true -> ~ race s x) /\ (forall t, ~ self_block s t) /\ ~ stuck s.
  Proof.
    intros Hm Hc He. pose proof (exec_ok _ _ _ Hm Hc He) as Hok. split_and!.
    - intros x Hx. by apply ok_no_race.
    - intros t. by apply ok_no_self_block.
    - by apply ok_not_stuck.
  Qed.
End SkelProofs.
