(** * Objects protected by a RWMutex: mutual exclusion, linearizability, progress, poisoning. *)
From Verif Require Import GoBase LockModel.

Section LockProofs.
  Context {S L : Type}.
  Notation method := (method S L).
  Notation config := (config S L).
  Notation label := (label S L).
  Notation action := (action S L).
  Notation tstate := (tstate (S:=S) (L:=L)).
  Implicit Types (m : method) (g : config) (t : nat) (s : S) (tr : list label) (l : L) (b : list (act S L)).

  Lemma upd_same (f : nat -> tstate) t v : upd f t v t = v.
  Proof. unfold upd. by rewrite decide_True. Qed.
  Lemma upd_other (f : nat -> tstate) t t' v : t' <> t -> upd f t v t' = f t'.
  Proof. intros. unfold upd. by rewrite decide_False. Qed.

  Lemma exec_app g acts1 acts2 :
    exec g (acts1 ++ acts2) =
    match exec g acts1 with
    | None => None
    | Some (g1, tr1) => match exec g1 acts2 with None => None | Some (g2, tr2) => Some (g2, tr1 ++ tr2) end
    end.
  Proof.
    revert g. induction acts1 as [|a acts1 IH]; intros g; simpl.
    - by destruct (exec g acts2) as [[]|].
    - destruct (step g a) as [[g1 l]|]; [|done]. rewrite IH.
      destruct (exec g1 acts1) as [[g2 tr2]|]; [|done]. by destruct (exec g2 acts2) as [[]|].
  Qed.
  Lemma exec_snoc g acts a :
    exec g (acts ++ [a]) =
    match exec g acts with
    | None => None
    | Some (g1, tr1) => match step g1 a with None => None | Some (g2, l) => Some (g2, tr1 ++ [l]) end
    end.
  Proof.
    rewrite exec_app. destruct (exec g acts) as [[g1 tr1]|]; [|done]. simpl. by destruct (step g1 a) as [[]|].
  Qed.
  Lemma exec_invariant (P : config -> list label -> Prop) (Q : action -> Prop) g0 tr0 :
    P g0 tr0 ->
    (forall g tr a g' lb, P g tr -> Q a -> step g a = Some (g', lb) -> P g' (tr ++ [lb])) ->
    forall acts g tr, Forall Q acts -> exec g0 acts = Some (g, tr) -> P g (tr0 ++ tr).
  Proof.
    intros H0 HS acts. induction acts as [|a acts IH] using rev_ind; intros g tr Hq He.
    - simpl in He. simplify_eq. by rewrite app_nil_r.
    - apply Forall_app in Hq as [Hq Ha]. rewrite Forall_singleton in Ha.
      rewrite exec_snoc in He. destruct (exec g0 acts) as [[g1 tr1]|] eqn:E; [|done].
      destruct (step g1 a) as [[g2 l]|] eqn:E2; [|done]. simplify_eq. rewrite app_assoc.
      eapply HS; [|done|done]. by apply IH.
  Qed.

  (** The method a thread is executing. *)
  Definition t_method (x : tstate) : option method :=
    match x with TIdle => None | TReq m | TWait m | TCS m _ _ | TDone m _ | TDead m => Some m end.
  (** Threads that hold the lock. *)
  Definition holds (x : tstate) : option bool :=
    match x with TCS m _ _ | TDead m => Some (m_write m) | _ => None end.

  Definition lock_ok g : Prop :=
    let k := c_lock g in
    (forall t, lk_w k = Some t <-> holds (c_thr g t) = Some true) /\
    (forall t, t ∈ lk_r k <-> holds (c_thr g t) = Some false) /\
    (forall t, lk_p k = Some t <-> exists m, c_thr g t = TWait m) /\
    (lk_w k <> None -> lk_r k = ∅) /\
    (forall t m, c_thr g t = TWait m -> m_write m = true) /\
    (lk_p k <> None -> lk_w k = None).

  Definition action_ok (a : action) : Prop := match a with AInv _ m => method_ok m | _ => True end.
  Definition thread_ok (x : tstate) : Prop :=
    match x with
    | TIdle => True
    | TReq m | TWait m | TDone m _ | TDead m => method_ok m
    | TCS m rest _ => method_ok m /\ exists done, m_body m = done ++ rest
    end.

  Ltac stepcases H :=
    repeat match type of H with
    | context [match c_thr ?g ?t with _ => _ end] => destruct (c_thr g t) eqn:?; try discriminate
    | context [match ?r with [] => _ | _ => _ end] => destruct r eqn:?; try discriminate
    | (if decide ?P then _ else _) = _ => destruct (decide P); try discriminate
    | context [match ?a (c_mem ?g) ?l with _ => _ end] => destruct (a (c_mem g) l) as [[]|] eqn:?
    | (if m_defer ?m then _ else _) = _ => destruct (m_defer m) eqn:?
    end.

  Lemma holds_upd (f : nat -> tstate) t x t' :
    holds (upd f t x t') = if decide (t' = t) then holds x else holds (f t').
  Proof. unfold upd. by destruct (decide (t' = t)). Qed.

  Definition not_wait (x : tstate) : Prop := forall m, x <> TWait m.

  Lemma lock_ok_same s s' k f t x :
    lock_ok (Config s k f) -> holds x = holds (f t) -> not_wait x -> not_wait (f t) ->
    lock_ok (Config s' k (upd f t x)).
  Proof.
    intros (HW & HR & HP & HX & HM & HE) Hh H1 H2. unfold lock_ok. simpl in *. split_and!; try done.
    - intros t'. rewrite holds_upd, HW. destruct (decide (t' = t)) as [->|]; [by rewrite Hh|done].
    - intros t'. rewrite holds_upd, HR. destruct (decide (t' = t)) as [->|]; [by rewrite Hh|done].
    - intros t'. rewrite HP. unfold upd. destruct (decide (t' = t)) as [->|]; [|done].
      split; intros [m Hm]; exfalso; [by eapply H2|by eapply H1].
    - intros t' m. unfold upd. destruct (decide (t' = t)) as [->|]; [|apply HM]. intros Hx. by apply H1 in Hx.
  Qed.
  Lemma lock_ok_announce s k f t m :
    lock_ok (Config s k f) -> f t = TReq m -> m_write m = true -> lk_w k = None -> lk_p k = None ->
    lock_ok (Config s (Lk None (Some t) (lk_r k)) (upd f t (TWait m))).
  Proof.
    intros (HW & HR & HP & HX & HM & HE) Ht Hw Hk Hp. unfold lock_ok. simpl in *. split_and!; try done.
    - intros t'. rewrite holds_upd. destruct (decide (t' = t)) as [->|]; simpl; [done|]. rewrite <- HW, Hk. done.
    - intros t'. rewrite holds_upd, HR. destruct (decide (t' = t)) as [->|]; simpl; [by rewrite Ht|done].
    - intros t'. unfold upd. destruct (decide (t' = t)) as [->|Hne]; [split; eauto|].
      split; [congruence|]. intros Hm. apply HP in Hm. congruence.
    - intros t' m'. unfold upd. destruct (decide (t' = t)) as [->|]; [|apply HM]. congruence.
  Qed.
  Lemma lock_ok_rlock s k f t m b l :
    lock_ok (Config s k f) -> f t = TReq m -> m_write m = false -> lk_w k = None -> lk_p k = None ->
    lock_ok (Config s (Lk None None ({[t]} ∪ lk_r k)) (upd f t (TCS m b l))).
  Proof.
    intros (HW & HR & HP & HX & HM & HE) Ht Hw Hk Hp. unfold lock_ok. simpl in *. split_and!; try done.
    - intros t'. rewrite holds_upd. destruct (decide (t' = t)) as [->|]; simpl; [by rewrite Hw|]. by rewrite <- HW, Hk.
    - intros t'. rewrite holds_upd, elem_of_union, elem_of_singleton, HR. destruct (decide (t' = t)) as [->|]; simpl; [|naive_solver].
      rewrite Hw. naive_solver.
    - intros t'. unfold upd. destruct (decide (t' = t)) as [->|Hne]; [split; [done|by intros []]|]. by rewrite <- HP, Hp.
    - intros t' m'. unfold upd. destruct (decide (t' = t)) as [->|]; [done|apply HM].
  Qed.
  Lemma lock_ok_lock s k f t m b l :
    lock_ok (Config s k f) -> f t = TWait m -> lk_r k = ∅ ->
    lock_ok (Config s (Lk (Some t) None ∅) (upd f t (TCS m b l))).
  Proof.
    intros (HW & HR & HP & HX & HM & HE) Ht Hr. unfold lock_ok. simpl in *.
    assert (Hp : lk_p k = Some t) by (apply HP; eauto).
    assert (Hk : lk_w k = None) by (apply HE; by rewrite Hp).
    split_and!; try done.
    - intros t'. rewrite holds_upd. destruct (decide (t' = t)) as [->|]; simpl; [by rewrite (HM _ _ Ht)|].
      rewrite <- HW, Hk. split; [congruence|done].
    - intros t'. rewrite holds_upd. destruct (decide (t' = t)) as [->|]; simpl; [rewrite (HM _ _ Ht); set_solver|].
      by rewrite <- HR, Hr.
    - intros t'. unfold upd. destruct (decide (t' = t)) as [->|Hne]; [split; [done|by intros []]|].
      rewrite <- HP, Hp. split; [done|congruence].
    - intros t' m'. unfold upd. destruct (decide (t' = t)) as [->|]; [done|apply HM].
  Qed.
  Lemma lock_ok_release s s' k f t m b l r :
    lock_ok (Config s k f) -> f t = TCS m b l ->
    lock_ok (Config s' (release k m t) (upd f t (TDone m r))).
  Proof.
    intros (HW & HR & HP & HX & HM & HE) Ht. unfold lock_ok, release. simpl in *.
    assert (HNW : forall t', (exists m', upd f t (TDone m r) t' = TWait m') <-> exists m', f t' = TWait m').
    { intros t'. unfold upd. destruct (decide (t' = t)) as [->|]; [|done]. rewrite Ht. split; by intros []. }
    assert (HNM : forall t' m', upd f t (TDone m r) t' = TWait m' -> m_write m' = true).
    { intros t' m'. unfold upd. destruct (decide (t' = t)) as [->|]; [done|apply HM]. }
    destruct (m_write m) eqn:Hw; simpl; split_and!; try done.
    - intros t'. rewrite holds_upd. destruct (decide (t' = t)) as [->|]; simpl; [done|].
      rewrite <- HW. split; [done|]. assert (lk_w k = Some t) by (apply HW; rewrite Ht; simpl; by rewrite Hw). congruence.
    - intros t'. rewrite holds_upd. destruct (decide (t' = t)) as [->|]; simpl; [|apply HR].
      rewrite HR, Ht. simpl. by rewrite Hw.
    - intros t'. by rewrite HNW.
    - intros t'. rewrite holds_upd, HW. destruct (decide (t' = t)) as [->|]; simpl; [|done].
      rewrite Ht. simpl. by rewrite Hw.
    - intros t'. rewrite holds_upd, elem_of_difference, elem_of_singleton, HR.
      destruct (decide (t' = t)) as [->|]; simpl; [naive_solver|]. naive_solver.
    - intros t'. by rewrite HNW.
    - intros Hx. rewrite (HX Hx). set_solver.
  Qed.

  Lemma step_lock_ok g a g' lb : lock_ok g -> step g a = Some (g', lb) -> lock_ok g'.
  Proof.
    destruct g as [s k f]. intros Hok Hs. destruct a as [t m|t|t|t|t|t]; cbn [step c_mem c_lock c_thr] in Hs.
    - destruct (f t) eqn:E; try discriminate. injection Hs as <- <-. eapply lock_ok_same; rewrite ?E; by try apply Hok.
    - destruct (f t) eqn:E; try discriminate. destruct (decide _) as [(?&?&?)|]; [|discriminate].
      injection Hs as <- <-. by eapply lock_ok_announce.
    - destruct (f t) eqn:E; try discriminate; destruct (decide _) as [Hd|]; try discriminate; injection Hs as <- <-.
      + destruct Hd as (?&?&?). by eapply lock_ok_rlock.
      + by eapply lock_ok_lock.
    - destruct (f t) as [| | |m [|a rest] l| |] eqn:E; try discriminate.
      destruct (a s l) as [[s' l']|]; [|destruct (m_defer m)]; injection Hs as <- <-.
      + eapply lock_ok_same; rewrite ?E; by try apply Hok.
      + by eapply lock_ok_release.
      + eapply lock_ok_same; rewrite ?E; by try apply Hok.
    - destruct (f t) as [| | |m [|a rest] l| |] eqn:E; try discriminate. injection Hs as <- <-. by eapply lock_ok_release.
    - destruct (f t) eqn:E; try discriminate. injection Hs as <- <-. eapply lock_ok_same; rewrite ?E; by try apply Hok.
  Qed.
  Lemma init_lock_ok s : lock_ok (init s).
  Proof. unfold lock_ok. simpl. split_and!; try done; intros t; split; try done; try set_solver; by intros []. Qed.
  Lemma exec_lock_ok s acts g tr : exec (init s) acts = Some (g, tr) -> lock_ok g.
  Proof.
    intros He. apply (exec_invariant (fun g _ => lock_ok g) (fun _ => True) (init s) []) with (acts := acts) (tr := tr); try done.
    - apply init_lock_ok.
    - intros. by eapply step_lock_ok.
    - by apply Forall_forall.
  Qed.

  (** ** Mutual exclusion *)
  Definition in_section (x : tstate) (m : method) : Prop := exists rest l, x = TCS m rest l.
  Lemma mutual_exclusion s acts g tr t1 t2 m1 m2 :
    exec (init s) acts = Some (g, tr) -> t1 <> t2 ->
    in_section (c_thr g t1) m1 -> in_section (c_thr g t2) m2 ->
    m_write m1 = false /\ m_write m2 = false.
  Proof.
    intros He Hne (r1 & l1 & H1) (r2 & l2 & H2). destruct (exec_lock_ok _ _ _ _ He) as (HW & HR & _ & HX & _).
    pose proof (HW t1) as W1. pose proof (HW t2) as W2. pose proof (HR t1) as R1. pose proof (HR t2) as R2.
    rewrite H1 in W1, R1. rewrite H2 in W2, R2. simpl in *.
    destruct (m_write m1), (m_write m2); try done.
    - destruct W1 as [_ W1]. destruct W2 as [_ W2]. rewrite W1 in W2 by done. naive_solver.
    - assert (lk_w (c_lock g) = Some t1) as HH by (by apply W1). rewrite HX in R2 by (by rewrite HH). set_solver.
    - assert (lk_w (c_lock g) = Some t2) as HH by (by apply W2). rewrite HX in R1 by (by rewrite HH). set_solver.
  Qed.

  (** ** Linearizability *)
  Definition pending (x : tstate) (s : S) : list (option L) :=
    match x with
    | TCS m rest l => [(run_body rest s l).2]
    | TDone m r => [r]
    | TDead m => [None]
    | _ => []
    end.

  Lemma seq_run_app s (ms1 ms2 : list (nat * method)) :
    seq_run s (ms1 ++ ms2) =
    let '(s1, r1) := seq_run s ms1 in let '(s2, r2) := seq_run s1 ms2 in (s2, r1 ++ r2).
  Proof.
    revert s. induction ms1 as [|[t m] ms1 IH]; intros s; simpl; [by destruct (seq_run s ms2)|].
    destruct (run_body (m_body m) s (m_init m)) as [s1 r]. rewrite IH.
    destruct (seq_run s1 ms1) as [s2 r1]. by destruct (seq_run s2 ms2).
  Qed.
  Lemma acquisitions_app tr1 tr2 : acquisitions (tr1 ++ tr2) = acquisitions tr1 ++ acquisitions tr2.
  Proof. apply omap_app. Qed.
  Lemma returns_app t tr1 tr2 : returns t (tr1 ++ tr2) = returns t tr1 ++ returns t tr2.
  Proof. apply omap_app. Qed.
  Lemma results_app t (r1 r2 : list (nat * option L)) : results t (r1 ++ r2) = results t r1 ++ results t r2.
  Proof. apply omap_app. Qed.

  (** The state the sequential execution is in: ahead of the memory when a writer is
      in its critical section. *)
  Definition mem_ok g (s' : S) : Prop :=
    (forall t m rest l, c_thr g t = TCS m rest l -> m_write m = true -> (run_body rest (c_mem g) l).1 = s') /\
    ((forall t m rest l, c_thr g t = TCS m rest l -> m_write m = false) -> c_mem g = s').

  Definition lin_ok s0 g tr : Prop :=
    lock_ok g /\ (forall t, thread_ok (c_thr g t)) /\
    mem_ok g (seq_run s0 (acquisitions tr)).1 /\
    (forall t, results t (seq_run s0 (acquisitions tr)).2 = returns t tr ++ pending (c_thr g t) (c_mem g)).

  Lemma read_only_body b s l : Forall (fun a : act S L => forall s l s' l', a s l = Some (s', l') -> s' = s) b -> (run_body b s l).1 = s.
  Proof.
    intros Hf. revert s l. induction Hf as [|a b Ha Hf IH]; intros s l; simpl; [done|].
    destruct (a s l) as [[s' l']|] eqn:E; [|done]. apply Ha in E as ->. apply IH.
  Qed.

  Lemma mem_ok_same s s' k k' f t x sq :
    mem_ok (Config s k f) sq -> s' = s ->
    (forall m rest l, x = TCS m rest l -> m_write m = false) ->
    (forall m rest l, f t = TCS m rest l -> m_write m = false) ->
    mem_ok (Config s' k' (upd f t x)) sq.
  Proof.
    intros [H1 H2] -> Hx Ht. split; simpl in *.
    - intros t' m rest l. unfold upd. destruct (decide (t' = t)) as [->|]; [|apply H1].
      intros Hc Hw. apply Hx in Hc. congruence.
    - intros Hall. apply H2. intros t' m rest l Hc. destruct (decide (t' = t)) as [->|Hne]; [by eapply Ht|].
      eapply (Hall t'). by rewrite upd_other.
  Qed.

  (** While a writer is inside, nobody else is. *)
  Lemma writer_alone g t m rest l t' m' rest' l' :
    lock_ok g -> c_thr g t = TCS m rest l -> m_write m = true -> c_thr g t' = TCS m' rest' l' -> t' = t.
  Proof.
    intros (HW & HR & _ & HX & _) H1 Hw H2.
    assert (lk_w (c_lock g) = Some t) as HH by (apply HW; rewrite H1; simpl; by rewrite Hw).
    destruct (m_write m') eqn:Hw'.
    - assert (lk_w (c_lock g) = Some t') by (apply HW; rewrite H2; simpl; by rewrite Hw'). congruence.
    - assert (t' ∈ lk_r (c_lock g)) as Hin by (apply HR; rewrite H2; simpl; by rewrite Hw').
      rewrite HX in Hin by (by rewrite HH). set_solver.
  Qed.
  Lemma nobody_inside g t m rest l :
    lock_ok g -> lk_w (c_lock g) = None -> c_thr g t = TCS m rest l -> m_write m = false.
  Proof.
    intros (HW & _) Hn H1. destruct (m_write m) eqn:Hw; [|done].
    assert (lk_w (c_lock g) = Some t) by (apply HW; rewrite H1; simpl; by rewrite Hw). congruence.
  Qed.

  Lemma pending_mem x s s' : (forall m rest l, x <> TCS m rest l) -> pending x s = pending x s'.
  Proof. destruct x; try done. intros H. by destruct (H m rest l). Qed.

  Lemma lin_ok_step s0 g tr a g' lb :
    lin_ok s0 g tr -> action_ok a -> step g a = Some (g', lb) -> lin_ok s0 g' (tr ++ [lb]).
  Proof.
    intros (Hok & Hth & Hmem & Hres) Ha Hs. pose proof (step_lock_ok _ _ _ _ Hok Hs) as Hok'.
    split; [done|]. unfold lin_ok. destruct g as [s k f]. simpl in Hth, Hres.
    (* steps that acquire nothing *)
    assert (Hsame : forall t s' k' x,
      g' = Config s' k' (upd f t x) -> acquisitions [lb] = [] ->
      thread_ok x -> mem_ok g' (seq_run s0 (acquisitions tr)).1 ->
      returns t [lb] ++ pending x s' = pending (f t) s ->
      (forall t', t' <> t -> returns t' [lb] = [] /\ pending (f t') s' = pending (f t') s) ->
      (forall t', thread_ok (c_thr g' t')) /\ mem_ok g' (seq_run s0 (acquisitions (tr ++ [lb]))).1 /\
      (forall t', results t' (seq_run s0 (acquisitions (tr ++ [lb]))).2 =
         returns t' (tr ++ [lb]) ++ pending (c_thr g' t') (c_mem g'))).
    { intros t s' k' x -> Hacq Hx Hm Hpt Hpo. rewrite acquisitions_app, Hacq, app_nil_r. split_and!; [|done|].
      - intros t'. simpl. unfold upd. destruct (decide (t' = t)) as [->|]; [done|apply Hth].
      - intros t'. rewrite Hres, returns_app, <- app_assoc. f_equal. cbn [c_thr c_mem]. unfold upd.
        destruct (decide (t' = t)) as [->|Hne]; [done|]. destruct (Hpo t' Hne) as [-> ->]. done. }
    (* steps that acquire *)
    assert (Hnew : forall t m k', g' = Config s k' (upd f t (TCS m (m_body m) (m_init m))) -> lb = LAcq t m ->
      method_ok m -> lk_w k = None -> pending (f t) s = [] -> 
      (m_write m = true -> forall t' m' rest l, t' <> t -> f t' <> TCS m' rest l) ->
      (forall t', thread_ok (c_thr g' t')) /\ mem_ok g' (seq_run s0 (acquisitions (tr ++ [lb]))).1 /\
      (forall t', results t' (seq_run s0 (acquisitions (tr ++ [lb]))).2 =
         returns t' (tr ++ [lb]) ++ pending (c_thr g' t') (c_mem g'))).
    { intros t m k' -> -> Hm Hk Hpt Hex.
      assert (Hs0 : s = (seq_run s0 (acquisitions tr)).1).
      { apply Hmem. intros t' m' rest l. apply (nobody_inside (Config s k f)); done. }
      rewrite acquisitions_app, seq_run_app. unfold acquisitions at 2 4; simpl.
      destruct (seq_run s0 (acquisitions tr)) as [sq rs] eqn:Esq. simpl in Hs0, Hres, Hmem. subst sq.
      destruct (run_body (m_body m) s (m_init m)) as [s2 r2] eqn:Er. simpl. split_and!.
      - intros t'. unfold upd. destruct (decide (t' = t)) as [->|]; [|apply Hth]. split; [done|]. by exists [].
      - split; simpl.
        + intros t' m' rest l. unfold upd. destruct (decide (t' = t)) as [->|Hne].
          * intros [= <- <- <-] Hw. by rewrite Er.
          * intros Hc Hw. pose proof (nobody_inside (Config s k f) _ _ _ _ Hok Hk Hc). congruence.
        + intros Hall. specialize (Hall t m). rewrite upd_same in Hall. specialize (Hall _ _ eq_refl).
          replace s2 with ((run_body (m_body m) s (m_init m)).1) by (by rewrite Er).
          symmetry. apply read_only_body. by apply Hm.
      - intros t'. rewrite results_app, returns_app, Hres. unfold results at 1, returns at 2; simpl.
        unfold upd. destruct (decide (t' = t)) as [->|Hne].
        + rewrite decide_True by done. rewrite Hpt, !app_nil_r. simpl. by rewrite Er.
        + rewrite decide_False by congruence. by rewrite !app_nil_r. }
    destruct a as [t m|t|t|t|t|t]; cbn [step c_mem c_lock c_thr] in Hs.
    - (* call *)
      destruct (f t) eqn:E; try discriminate. injection Hs as <- <-.
      eapply (Hsame t); try done; [|by rewrite E].
      eapply mem_ok_same; try done. by rewrite E.
    - (* announce *)
      destruct (f t) eqn:E; try discriminate. destruct (decide _) as [(?&?&?)|]; [|discriminate]. injection Hs as <- <-.
      pose proof (Hth t) as Ht. rewrite E in Ht.
      eapply (Hsame t); try done; [|by rewrite E].
      eapply mem_ok_same; try done. by rewrite E.
    - (* acquire *)
      destruct (f t) eqn:E; try discriminate; destruct (decide _) as [Hd|]; try discriminate; injection Hs as <- <-;
        pose proof (Hth t) as Ht; rewrite E in Ht.
      + destruct Hd as (Hw & Hk & Hp). eapply (Hnew t m); try done; [by rewrite E|]. congruence.
      + destruct Hok as (HW & HR & HP & HX & HM & HE). simpl in *.
        assert (Hp : lk_p k = Some t) by (apply HP; eauto).
        assert (Hk : lk_w k = None) by (apply HE; by rewrite Hp).
        eapply (Hnew t m); try done; [by rewrite E|].
        intros Hw t' m' rest l Hne Hc. destruct (m_write m') eqn:Hw'.
        * assert (lk_w k = Some t') by (apply HW; rewrite Hc; simpl; by rewrite Hw'). congruence.
        * assert (t' ∈ lk_r k) as Hin by (apply HR; rewrite Hc; simpl; by rewrite Hw'). rewrite Hd in Hin. set_solver.
    - (* an action of the body *)
      destruct (f t) as [| | |m [|a rest] l| |] eqn:E; try discriminate.
      pose proof (Hth t) as Ht. rewrite E in Ht. destruct Ht as [Hm [dn Hdn]].
      destruct (a s l) as [[s' l']|] eqn:Ea.
      + injection Hs as <- <-. destruct (m_write m) eqn:Hw.
        * (* a writer: nobody else is inside *)
          assert (Halone : forall t' m' r' l', t' <> t -> f t' <> TCS m' r' l').
          { intros t' m' r' l0 Hne Hc. apply Hne. by eapply (writer_alone (Config s k f)). }
          eapply (Hsame t); try done.
          { split; [done|]. exists (dn ++ [a]). by rewrite <- app_assoc. }
          { destruct Hmem as [Hm1 _]. specialize (Hm1 t m (a :: rest) l E Hw). simpl in Hm1. rewrite Ea in Hm1.
            split; simpl.
            - intros t' m' r' l0. unfold upd. destruct (decide (t' = t)) as [->|Hne]; [intros [= <- <- <-]; done|].
              intros Hc. by apply Halone in Hc.
            - intros Hall. specialize (Hall t m rest l'). rewrite upd_same in Hall. specialize (Hall eq_refl). congruence. }
          { rewrite E. simpl. by rewrite Ea. }
          { intros t' Hne. split; [done|]. apply pending_mem. intros. by apply Halone. }
        * (* a reader: the memory does not change *)
          assert (s' = s) as ->.
          { specialize (Hm Hw). rewrite Hdn in Hm. apply Forall_app in Hm as [_ Hm]. apply Forall_cons in Hm as [Hm _]. eauto. }
          eapply (Hsame t); try done.
          { split; [done|]. exists (dn ++ [a]). by rewrite <- app_assoc. }
          { eapply mem_ok_same; try done; [|rewrite E]; by intros ??? [= <- <- <-]. }
          { rewrite E. simpl. by rewrite Ea. }
      + (* a panic *)
        assert (Hmem' : forall k' x, (forall m rest l, x <> TCS m rest l) ->
          mem_ok (Config s k' (upd f t x)) (seq_run s0 (acquisitions tr)).1).
        { intros k' x Hx. destruct (m_write m) eqn:Hw.
          - assert (Halone : forall t' m' r' l', t' <> t -> f t' <> TCS m' r' l').
            { intros t' m' r' l0 Hne Hc. apply Hne. by eapply (writer_alone (Config s k f)). }
            destruct Hmem as [Hm1 _]. specialize (Hm1 t m (a :: rest) l E Hw). simpl in Hm1. rewrite Ea in Hm1.
            split; simpl; [|done].
            intros t' m' r' l'. unfold upd. destruct (decide (t' = t)) as [->|Hne]; intros Hc; [by apply Hx in Hc|by apply Halone in Hc].
          - eapply mem_ok_same; try done; [intros ??? Hc; by apply Hx in Hc|]. rewrite E. by intros ??? [= <- <- <-]. }
        destruct (m_defer m); injection Hs as <- <-.
        * eapply (Hsame t); try done; [by apply Hmem'|]. rewrite E. simpl. by rewrite Ea.
        * eapply (Hsame t); try done; [by apply Hmem'|]. rewrite E. simpl. by rewrite Ea.
    - (* release *)
      destruct (f t) as [| | |m [|a rest] l| |] eqn:E; try discriminate. injection Hs as <- <-.
      pose proof (Hth t) as Ht. rewrite E in Ht. destruct Ht as [Hm _].
      eapply (Hsame t); try done; [|by rewrite E].
      destruct (m_write m) eqn:Hw.
      + assert (Halone : forall t' m' r' l', t' <> t -> f t' <> TCS m' r' l').
        { intros t' m' r' l0 Hne Hc. apply Hne. by eapply (writer_alone (Config s k f)). }
        destruct Hmem as [Hm1 _]. specialize (Hm1 t m [] l E Hw). simpl in Hm1.
        split; simpl; [|done].
        intros t' m' r' l'. unfold upd. destruct (decide (t' = t)) as [->|Hne]; intros Hc; [done|by apply Halone in Hc].
      + eapply mem_ok_same; try done. rewrite E. by intros ??? [= <- <- <-].
    - (* return *)
      destruct (f t) as [| | | |m r|] eqn:E; try discriminate. injection Hs as <- <-.
      eapply (Hsame t); try done.
      + eapply mem_ok_same; try done. by rewrite E.
      + rewrite E. unfold returns. simpl. by rewrite decide_True.
      + intros t' Hne. unfold returns. simpl. by rewrite decide_False.
  Qed.

  Lemma exec_lin_ok s0 acts g tr :
    Forall action_ok acts -> exec (init s0) acts = Some (g, tr) -> lin_ok s0 g tr.
  Proof.
    intros Hq He. apply (exec_invariant (lin_ok s0) action_ok (init s0) []) with (acts := acts); try done.
    - split; [apply init_lock_ok|]. split_and!; try done.
    - intros. by eapply lin_ok_step.
  Qed.

  (** Every thread has returned exactly what the sequential execution in acquisition
      order gives it, up to the one call whose lock it has taken and not returned from;
      when no thread is inside, the memory is that of the sequential execution. *)
  Lemma linearizable s0 acts g tr :
    Forall action_ok acts -> exec (init s0) acts = Some (g, tr) ->
    (forall t, returns t tr `prefix_of` results t (seq_run s0 (acquisitions tr)).2) /\
    (forall t, c_thr g t = TIdle -> returns t tr = results t (seq_run s0 (acquisitions tr)).2) /\
    ((forall t m, ~ in_section (c_thr g t) m) -> c_mem g = (seq_run s0 (acquisitions tr)).1).
  Proof.
    intros Hq He. destruct (exec_lin_ok _ _ _ _ Hq He) as (_ & _ & [_ Hm] & Hres). split_and!.
    - intros t. exists (pending (c_thr g t) (c_mem g)). apply Hres.
    - intros t Ht. by rewrite Hres, Ht, app_nil_r.
    - intros Hn. apply Hm. intros t m rest l Hc. exfalso. eapply Hn. by eexists _, _.
  Qed.

  (** ** Each acquisition lies between the call and the return *)
  Definition phase_of (x : tstate) : phase :=
    match x with TIdle => PIdle | TReq m | TWait m => PCalled m | TCS m _ _ | TDone m _ | TDead m => PAcquired m end.
  Lemma bracketed s0 acts g tr t : exec (init s0) acts = Some (g, tr) -> well_bracketed t tr.
  Proof.
    intros He.
    assert (fold_left (phase_step t) tr (Some PIdle) = Some (phase_of (c_thr g t))) as HH; [|unfold well_bracketed; by rewrite HH].
    apply (exec_invariant (fun g tr => fold_left (phase_step t) tr (Some PIdle) = Some (phase_of (c_thr g t)))
      (fun _ => True) (init s0) []) with (acts := acts); try done; [|by apply Forall_forall].
    clear. intros g tr a g' lb IH _ Hs. rewrite fold_left_app, IH. destruct g as [s k f].
    destruct a as [t' m|t'|t'|t'|t'|t']; cbn [step c_mem c_lock c_thr] in Hs.
    - destruct (f t') eqn:E; try discriminate. injection Hs as <- <-. simpl. unfold upd.
      destruct (decide (t = t')) as [->|Hne]; [rewrite E; simpl; by rewrite decide_True|].
      destruct (phase_of (f t)); simpl; by rewrite decide_False.
    - destruct (f t') eqn:E; try discriminate. destruct (decide _) as [(?&?&?)|]; [|discriminate]. injection Hs as <- <-. simpl.
      unfold upd. destruct (decide (t = t')) as [->|Hne]; [rewrite E; done|]. by destruct (phase_of (f t)).
    - destruct (f t') eqn:E; try discriminate; destruct (decide _) as [Hd|]; try discriminate; injection Hs as <- <-;
        simpl; unfold upd; (destruct (decide (t = t')) as [->|Hne]; [rewrite E; simpl; by rewrite decide_True|]);
        destruct (phase_of (f t)); simpl; by rewrite decide_False.
    - destruct (f t') as [| | |m [|a rest] l| |] eqn:E; try discriminate.
      destruct (a s l) as [[s' l']|]; [|destruct (m_defer m)]; injection Hs as <- <-; simpl; unfold upd;
        (destruct (decide (t = t')) as [->|Hne]; [by rewrite E|]); by destruct (phase_of (f t)).
    - destruct (f t') as [| | |m [|a rest] l| |] eqn:E; try discriminate. injection Hs as <- <-. simpl. unfold upd.
      destruct (decide (t = t')) as [->|Hne]; [by rewrite E|]; by destruct (phase_of (f t)).
    - destruct (f t') eqn:E; try discriminate. injection Hs as <- <-. simpl. unfold upd.
      destruct (decide (t = t')) as [->|Hne]; [rewrite E; simpl; by rewrite decide_True|].
      destruct (phase_of (f t)); simpl; by rewrite decide_False.
  Qed.

  (** ** Progress: as long as no thread died holding the lock, somebody can move. *)
  Definition moves (t : nat) (a : action) : Prop :=
    a = AAnnounce t \/ a = AAcquire t \/ a = ABody t \/ a = ARelease t \/ a = ARet t.
  Lemma progress s0 acts g tr t :
    exec (init s0) acts = Some (g, tr) -> (forall t m, c_thr g t <> TDead m) -> c_thr g t <> TIdle ->
    exists t' a g' lb, moves t' a /\ c_thr g t' <> TIdle /\ step g a = Some (g', lb).
  Proof.
    intros He Hnd Hni. pose proof (exec_lock_ok _ _ _ _ He) as (HW & HR & HP & HX & HM & HE).
    assert (Hcs : forall t m rest l, c_thr g t = TCS m rest l -> exists t' a g' lb, moves t' a /\ c_thr g t' <> TIdle /\ step g a = Some (g', lb)).
    { intros t' m rest l Hc. destruct rest as [|a rest].
      - exists t', (ARelease t'). simpl. rewrite Hc. eexists _, _. split_and!; [|done|done]. unfold moves. tauto.
      - exists t', (ABody t'). simpl. rewrite Hc. unfold moves.
        destruct (a (c_mem g) l) as [[s' l']|]; [|destruct (m_defer m)]; (eexists _, _; split_and!; [tauto|done|done]). }
    assert (Hhold : forall t w, holds (c_thr g t) = Some w -> exists t' a g' lb, moves t' a /\ c_thr g t' <> TIdle /\ step g a = Some (g', lb)).
    { intros t' w Hh. destruct (c_thr g t') eqn:E; try done; [by eapply Hcs|by destruct (Hnd t' m)]. }
    assert (Hwait : forall t m, c_thr g t = TWait m -> exists t' a g' lb, moves t' a /\ c_thr g t' <> TIdle /\ step g a = Some (g', lb)).
    { intros t' m Hc. destruct (decide (lk_r (c_lock g) = ∅)) as [Hr|Hr].
      - exists t', (AAcquire t'). simpl. rewrite Hc, decide_True by done. unfold moves. eexists _, _. split_and!; [tauto|done|done].
      - apply set_choose_L in Hr as [t2 Ht2]. apply HR in Ht2. by eapply Hhold. }
    destruct (c_thr g t) as [|m|m|m rest l|m r|m] eqn:E; [done| |by eapply Hwait|by eapply Hcs| |by destruct (Hnd t m)].
    - destruct (lk_w (c_lock g)) as [t2|] eqn:Ew; [eapply Hhold; by apply (HW t2)|].
      destruct (lk_p (c_lock g)) as [t2|] eqn:Ep; [destruct (proj1 (HP t2) eq_refl) as [m2 Hm2]; by eapply Hwait|].
      unfold moves. destruct (m_write m) eqn:Hw.
      + exists t, (AAnnounce t). simpl. rewrite E, decide_True by done. eexists _, _. split_and!; [tauto|done|done].
      + exists t, (AAcquire t). simpl. rewrite E, decide_True by done. eexists _, _. split_and!; [tauto|done|done].
    - exists t, (ARet t). simpl. rewrite E. unfold moves. eexists _, _. split_and!; [tauto|done|done].
  Qed.

  (** ** Poisoned locks *)
  Lemma dead_forever g a g' lb t m : c_thr g t = TDead m -> step g a = Some (g', lb) -> c_thr g' t = TDead m.
  Proof.
    destruct g as [s k f]. simpl. intros Ht Hs.
    assert (Hne : forall t' x, (forall m, f t' <> TDead m) -> upd f t' x t = TDead m).
    { intros t' x Hn. rewrite upd_other; [done|]. intros ->. by eapply Hn. }
    destruct a as [t' m'|t'|t'|t'|t'|t']; cbn [step c_mem c_lock c_thr] in Hs.
    - destruct (f t') eqn:E; try discriminate. injection Hs as <- <-. apply Hne. by rewrite E.
    - destruct (f t') eqn:E; try discriminate. destruct (decide _) as [(?&?&?)|]; [|discriminate]. injection Hs as <- <-. apply Hne. by rewrite E.
    - destruct (f t') eqn:E; try discriminate; destruct (decide _) as [Hd|]; try discriminate; injection Hs as <- <-; apply Hne; by rewrite E.
    - destruct (f t') as [| | |m2 [|a rest] l| |] eqn:E; try discriminate.
      destruct (a s l) as [[s' l']|]; [|destruct (m_defer m2)]; injection Hs as <- <-; apply Hne; by rewrite E.
    - destruct (f t') as [| | |m2 [|a rest] l| |] eqn:E; try discriminate. injection Hs as <- <-. apply Hne; by rewrite E.
    - destruct (f t') eqn:E; try discriminate. injection Hs as <- <-. apply Hne. by rewrite E.
  Qed.

  (** A thread died in a writing method: from there on no thread enters any critical
      section.  A thread died in a reading method: no writer does. *)
  Lemma poisoned s0 acts g tr t m acts' g' tr' :
    exec (init s0) acts = Some (g, tr) -> c_thr g t = TDead m ->
    exec g acts' = Some (g', tr') ->
    forall t' m', LAcq t' m' ∈ tr' -> m_write m = false /\ m_write m' = false.
  Proof.
    intros He Ht He'.
    apply (exec_invariant (fun g tr => lock_ok g /\ c_thr g t = TDead m /\
        forall t' m', LAcq t' m' ∈ tr -> m_write m = false /\ m_write m' = false)
      (fun _ => True) g []) in He'; [by destruct He' as (_ & _ & ?)| | |by apply Forall_forall].
    - split; [by eapply exec_lock_ok|]. split; [done|]. set_solver.
    - clear. intros g tr a g' lb (Hok & Hd & Hacq) _ Hs.
      split; [by eapply step_lock_ok|]. split; [by eapply dead_forever|].
      intros t' m' Hin. apply elem_of_app in Hin as [Hin|Hin]; [by eapply Hacq|]. apply elem_of_list_singleton in Hin as <-.
      destruct Hok as (HW & HR & HP & HX & HM & HE). destruct g as [s k f]. simpl in *.
      destruct (m_write m) eqn:Hw.
      { (* the write lock is held *)
        assert (Hk : lk_w k = Some t) by (apply HW; rewrite Hd; simpl; by rewrite Hw).
        exfalso. destruct a as [t2 m2|t2|t2|t2|t2|t2]; cbn [step c_mem c_lock c_thr] in Hs.
        - by destruct (f t2); simplify_eq.
        - destruct (f t2); try discriminate. by destruct (decide _); simplify_eq.
        - destruct (f t2) eqn:E; try discriminate.
          + destruct (decide _) as [(_ & Hkn & _)|]; [congruence|discriminate].
          + assert (lk_p k = Some t2) as Hp by (apply HP; eauto). rewrite HE in Hk by (by rewrite Hp). done.
        - destruct (f t2) as [| | |m2 [|a rest] l| |]; try discriminate.
          by destruct (a s l) as [[]|]; [|destruct (m_defer m2)]; simplify_eq.
        - by destruct (f t2) as [| | |m2 [|a rest] l| |]; simplify_eq.
        - by destruct (f t2); simplify_eq. }
      split; [done|].
      assert (Hk : t ∈ lk_r k) by (apply HR; rewrite Hd; simpl; by rewrite Hw).
      destruct a as [t2 m2|t2|t2|t2|t2|t2]; cbn [step c_mem c_lock c_thr] in Hs.
      + by destruct (f t2); simplify_eq.
      + destruct (f t2); try discriminate. by destruct (decide _); simplify_eq.
      + destruct (f t2) eqn:E; try discriminate.
        * destruct (decide _) as [(Hm & _)|]; [by simplify_eq|discriminate].
        * destruct (decide _) as [Hr|]; [set_solver|discriminate].
      + destruct (f t2) as [| | |m2 [|a rest] l| |]; try discriminate.
        by destruct (a s l) as [[]|]; [|destruct (m_defer m2)]; simplify_eq.
      + by destruct (f t2) as [| | |m2 [|a rest] l| |]; simplify_eq.
      + by destruct (f t2); simplify_eq.
  Qed.

  (** A thread dies only if its method panics and does not defer the unlock. *)
  Lemma dead_cause s0 acts g tr t m :
    Forall action_ok acts -> exec (init s0) acts = Some (g, tr) -> c_thr g t = TDead m ->
    m_defer m = false /\ exists s, (run_body (m_body m) s (m_init m)).2 = None.
  Proof.
    intros Hq He Ht.
    assert (HI : (forall t m rest l, c_thr g t = TCS m rest l ->
                   exists s, (run_body (m_body m) s (m_init m)).2 = (run_body rest (c_mem g) l).2) /\
                 (forall t m, c_thr g t = TDead m -> m_defer m = false /\ exists s, (run_body (m_body m) s (m_init m)).2 = None)).
    2: { by eapply HI. }
    assert (HJ : lin_ok s0 g tr /\ (forall t m rest l, c_thr g t = TCS m rest l ->
                   exists s, (run_body (m_body m) s (m_init m)).2 = (run_body rest (c_mem g) l).2) /\
                 (forall t m, c_thr g t = TDead m -> m_defer m = false /\ exists s, (run_body (m_body m) s (m_init m)).2 = None)).
    2: { by destruct HJ. }
    apply (exec_invariant (fun g tr => lin_ok s0 g tr /\ (forall t m rest l, c_thr g t = TCS m rest l ->
                   exists s, (run_body (m_body m) s (m_init m)).2 = (run_body rest (c_mem g) l).2) /\
                 (forall t m, c_thr g t = TDead m -> m_defer m = false /\ exists s, (run_body (m_body m) s (m_init m)).2 = None))
       action_ok (init s0) []) with (acts := acts); try done.
    { split; [|done]. by apply (exec_lin_ok s0 []). }
    clear. intros g tr a g' lb (Hl & H1 & H2) Hq Hs. split; [by eapply lin_ok_step|].
    destruct Hl as (Hok & Hth & _ & _). destruct g as [s k f]. simpl in H1, H2, Hth.
    assert (Hsame : forall t s' k' x, g' = Config s' k' (upd f t x) ->
      (forall m rest l, x = TCS m rest l -> exists s, (run_body (m_body m) s (m_init m)).2 = (run_body rest s' l).2) ->
      (forall m, x = TDead m -> m_defer m = false /\ exists s, (run_body (m_body m) s (m_init m)).2 = None) ->
      (s' = s \/ forall t' m' rest l, t' <> t -> f t' <> TCS m' rest l) ->
      (forall t m rest l, c_thr g' t = TCS m rest l ->
                   exists s, (run_body (m_body m) s (m_init m)).2 = (run_body rest (c_mem g') l).2) /\
                 (forall t m, c_thr g' t = TDead m -> m_defer m = false /\ exists s, (run_body (m_body m) s (m_init m)).2 = None)).
    { intros t s' k' x -> Hx1 Hx2 Hs'. simpl. split.
      - intros t' m rest l. unfold upd. destruct (decide (t' = t)) as [->|Hne]; [apply Hx1|].
        destruct Hs' as [->|Hs']; [apply H1|]. intros Hc. by apply Hs' in Hc.
      - intros t' m. unfold upd. destruct (decide (t' = t)) as [->|Hne]; [apply Hx2|apply H2]. }
    destruct a as [t' m'|t'|t'|t'|t'|t']; cbn [step c_mem c_lock c_thr] in Hs.
    - destruct (f t') eqn:E; try discriminate. injection Hs as <- <-. eapply (Hsame t'); try done. by left.
    - destruct (f t') eqn:E; try discriminate. destruct (decide _) as [(?&?&?)|]; [|discriminate]. injection Hs as <- <-.
      eapply (Hsame t'); try done. by left.
    - destruct (f t') eqn:E; try discriminate; destruct (decide _) as [Hd|]; try discriminate; injection Hs as <- <-;
        (eapply (Hsame t'); try done; [|by left]); intros ??? [= <- <- <-]; eauto.
    - destruct (f t') as [| | |m2 [|a rest] l| |] eqn:E; try discriminate.
      destruct (H1 _ _ _ _ E) as [sp Hsp]. simpl in Hsp. destruct (a s l) as [[s' l']|] eqn:Ea; [|destruct (m_defer m2) eqn:Hdf]; injection Hs as <- <-.
      + eapply (Hsame t'); try done; [intros ??? [= <- <- <-]; eauto|].
        destruct (m_write m2) eqn:Hw.
        * right. intros t2 m3 r3 l3 Hne Hc. apply Hne. by eapply (writer_alone (Config s k f)).
        * left. pose proof (Hth t') as Ht. rewrite E in Ht. destruct Ht as [Hm [dn Hdn]].
          specialize (Hm Hw). rewrite Hdn in Hm. apply Forall_app in Hm as [_ Hm]. apply Forall_cons in Hm as [Hm _]. eauto.
      + eapply (Hsame t'); try done. by left.
      + eapply (Hsame t'); try done; [|by left]. intros ? [= <-]. eauto.
    - destruct (f t') as [| | |m2 [|a rest] l| |] eqn:E; try discriminate. injection Hs as <- <-.
      eapply (Hsame t'); try done. by left.
    - destruct (f t') eqn:E; try discriminate. injection Hs as <- <-. eapply (Hsame t'); try done. by left.
  Qed.
End LockProofs.
