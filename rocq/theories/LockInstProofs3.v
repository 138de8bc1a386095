(** * GetData of the thread safe collection when nobody disturbs it; Clone of the wrapper
    of nothing. *)
From Verif Require Import GoBase GoStrings LangModel LockModel LockProofs LockInst LockInstProofs LockInstProofs2.
From Coq Require Import Lia.

Section Quiet.
  Context {D : Type} (show : nat -> D -> bytes).
  Notation coll_method := (coll_method show).
  Notation meth := (method (list D) (cres D)).
  (** The calls that neither remove an element nor move one. *)
  Definition appends (o : cop D) : Prop := match o with CPop | CShift | CUnshift _ => False | _ => True end.
  Definition appends_only (acts : list (action (list D) (cres D))) : Prop :=
    Forall (fun a => match a with AInv _ m => exists o, m = coll_method o /\ appends o | _ => True end) acts.
  (** The answer [l] of [m] is the one of the memory at a moment when thread [t], which
      had made the calls [pre] before, was at the start of its section; [s] is the
      memory now. *)
  Definition at_moment (s0 : list D) (acts : list (action (list D) (cres D))) (s : list D) (t : nat) (m : meth) (l : cres D)
      (pre : list (meth * option (cres D))) : Prop :=
    exists acts1 acts2 g1 tr1, acts = acts1 ++ acts2 /\ exec (init s0) acts1 = Some (g1, tr1) /\ talk_of t tr1 = pre /\
      c_thr g1 t = TCS m (m_body m) (m_init m) /\ (run_body (m_body m) (c_mem g1) (m_init m)).2 = Some l /\ c_mem g1 `prefix_of` s.
  Definition proper (s0 : list D) acts (s : list D) (t : nat) (pre : list (meth * option (cres D))) (x : @tstate (list D) (cres D)) : Prop :=
    match x with
    | TReq m | TWait m => exists o, m = coll_method o /\ appends o
    | TCS m r l => exists o, m = coll_method o /\ appends o /\ ((r = m_body m /\ l = m_init m) \/ (r = [] /\ at_moment s0 acts s t m l pre))
    | TDone m (Some l) => at_moment s0 acts s t m l pre
    | _ => True
    end.
  Lemma at_moment_on s0 acts a s s' t m l pre : s `prefix_of` s' -> at_moment s0 acts s t m l pre -> at_moment s0 (acts ++ [a]) s' t m l pre.
  Proof.
    intros Hs (acts1 & acts2 & g1 & tr1 & -> & H1 & H2 & H3 & H4 & H5). exists acts1, (acts2 ++ [a]), g1, tr1.
    split_and!; try done; [by rewrite app_assoc|]. by etrans.
  Qed.
  Lemma proper_on s0 acts a s s' t pre x : s `prefix_of` s' -> proper s0 acts s t pre x -> proper s0 (acts ++ [a]) s' t pre x.
  Proof.
    intros Hs. destruct x as [|m|m|m r l|m [l|]|m]; simpl; try done.
    - intros (o & -> & Ho & [H|[-> H]]); exists o; split_and!; try done; [by left|right]. split; [done|]. by eapply at_moment_on.
    - by apply at_moment_on.
  Qed.
  Lemma talk_snoc t tr lb : (forall m r, lb <> LRet t m r) -> talk_of (D := D) t (tr ++ [lb]) = talk_of t tr.
  Proof.
    intros H. unfold talk_of. rewrite omap_app. simpl. destruct lb as [| | |t' m r]; try apply app_nil_r.
    destruct (decide (t' = t)) as [->|]; [by destruct (H m r)|apply app_nil_r].
  Qed.

  Lemma moments s0 acts : appends_only acts -> forall g tr, exec (init s0) acts = Some (g, tr) ->
    s0 `prefix_of` c_mem g /\ (forall t, proper s0 acts (c_mem g) t (talk_of t tr) (c_thr g t)) /\
    (forall tr1 t m l tr2, tr = tr1 ++ LRet t m (Some l) :: tr2 -> at_moment s0 acts (c_mem g) t m l (talk_of t tr1)).
  Proof.
    induction acts as [|a acts IH] using rev_ind; intros Hf g' tr' He.
    { injection He as <- <-. split_and!; [done|done|]. intros [|]; done. }
    apply Forall_app in Hf as [Hf Ha]. rewrite Forall_singleton in Ha. rewrite exec_snoc in He.
    destruct (exec (init s0) acts) as [[g tr]|] eqn:Eg; [|discriminate].
    destruct (step g a) as [[g2 lb]|] eqn:Hs; [|discriminate]. injection He as <- <-.
    destruct (IH Hf _ _ eq_refl) as (H0 & HT & HL). clear IH.
    assert (Hup : forall s' k' t x, g2 = Config s' k' (upd (c_thr g) t x) -> c_mem g `prefix_of` s' ->
       proper s0 (acts ++ [a]) s' t (talk_of t (tr ++ [lb])) x ->
       (forall t' m r, lb = LRet t' m r -> t' = t /\ forall l, r = Some l -> at_moment s0 acts (c_mem g) t m l (talk_of t tr)) ->
       s0 `prefix_of` c_mem g2 /\ (forall t, proper s0 (acts ++ [a]) (c_mem g2) t (talk_of t (tr ++ [lb])) (c_thr g2 t)) /\
       (forall tr1 t m l tr2, tr ++ [lb] = tr1 ++ LRet t m (Some l) :: tr2 -> at_moment s0 (acts ++ [a]) (c_mem g2) t m l (talk_of t tr1))).
    { intros s' k' t x -> Hp Hx Hlb. simpl. split_and!.
      - by etrans.
      - intros t'. unfold upd. destruct (decide (t' = t)) as [->|Hn]; [done|].
        rewrite talk_snoc by (intros m r ->; by destruct (Hlb _ _ _ eq_refl)). eapply proper_on; [done|]. apply HT.
      - intros tr1 t' m l tr2 E. destruct tr2 as [|lb2 tr2 _] using rev_ind.
        + apply app_inj_tail in E as [<- ->]. destruct (Hlb _ _ _ eq_refl) as [-> Hl]. eapply at_moment_on; [done|]. by apply Hl.
        + rewrite app_comm_cons, app_assoc in E. apply app_inj_tail in E as [E _]. eapply at_moment_on; [done|]. by eapply HL. }
    destruct a as [t m|t|t|t|t|t]; cbn [step] in Hs; pose proof (HT t) as Ht.
    - destruct (c_thr g t) eqn:E; try discriminate. injection Hs as <- <-. by eapply (Hup _ _ t); [reflexivity|reflexivity| |].
    - destruct (c_thr g t) eqn:E; try discriminate. destruct (decide _) as [(?&?&?)|]; [|discriminate]. injection Hs as <- <-. by eapply (Hup _ _ t); [reflexivity|reflexivity| |].
    - destruct (c_thr g t) as [|m|m| | |] eqn:E; try discriminate; (destruct (decide _) as [Hd|]; [|discriminate]); injection Hs as <- <-;
        (eapply (Hup _ _ t); [reflexivity|reflexivity| |done]); destruct Ht as (o & -> & Ho); exists o; split_and!; try done; by left.
    - destruct (c_thr g t) as [| | |m [|b rest] l| |] eqn:E; try discriminate.
      destruct Ht as (o & -> & Ho & [[Hr Hl]|[? _]]); [|done].
      assert (Hpre : talk_of t (tr ++ [LTau t]) = talk_of t tr) by (by apply talk_snoc).
      assert (Hrest : rest = []) by (by destruct o; simpl in Hr; injection Hr as _ ->).
      destruct (b (c_mem g) l) as [[s' l']|] eqn:Eb.
      + injection Hs as <- <-.
        assert (Hp : c_mem g `prefix_of` s').
        { subst l. destruct o; try done; simpl in Hr; injection Hr as -> _; simpl in Eb; simplify_eq; try done.
          - by apply prefix_app_r.
          - case_match; [by simplify_eq|]. by case_match; simplify_eq.
          - by case_match; simplify_eq. }
        eapply (Hup _ _ t); [reflexivity|done| |done]. exists o. split; [done|]. split; [done|]. right. split; [done|]. rewrite Hpre.
        exists acts, [ABody t], g, tr. split_and!; try done.
        * by rewrite E, Hr, Hl.
        * rewrite <- Hr, <- Hl. rewrite Hrest. simpl. by rewrite Eb.
      + destruct (m_defer _); injection Hs as <- <-; by eapply (Hup _ _ t); [reflexivity|reflexivity| |].
    - destruct (c_thr g t) as [| | |m [|b rest] l| |] eqn:E; try discriminate. injection Hs as <- <-. destruct Ht as (o & -> & Ho & [[Hr _]|[_ H]]).
      { by destruct o. }
      eapply (Hup _ _ t); [reflexivity|reflexivity| |done]. simpl. rewrite talk_snoc by done. by eapply at_moment_on; [reflexivity|].
    - destruct (c_thr g t) as [| | | |m r|] eqn:E; try discriminate. injection Hs as <- <-. eapply (Hup _ _ t); [reflexivity|reflexivity|done|].
      intros t' m' r' [= <- <- <-]. split; [done|]. by intros l ->.
  Qed.

  (** The value of the last element that has one. *)
  Definition last_hit {V} (get : D -> option V) (s : list D) (r : option V) : Prop :=
    match r with
    | Some v => exists i d, s !! i = Some d /\ get d = Some v /\ forall j e, i < j -> s !! j = Some e -> get e = None
    | None => forall j e, s !! j = Some e -> get e = None
    end.
  Lemma loop_hit {V} (get : D -> option V) (s : list D) n talk r : loop get n talk r ->
    (forall i d, (CElem i, RElem d) ∈ talk -> s !! i = Some d) ->
    match r with
    | Some v => exists i d, i < n /\ s !! i = Some d /\ get d = Some v /\ forall j e, i < j < n -> s !! j = Some e -> get e = None
    | None => forall j e, j < n -> s !! j = Some e -> get e = None
    end.
  Proof.
    induction 1 as [|i d v Hg|i d talk r Hg H IH]; intros Hs.
    - intros. lia.
    - exists i, d. split_and!; [lia| |done|intros; lia]. apply Hs. by left.
    - assert (Hd : s !! i = Some d) by (apply Hs; by left).
      assert (IH' := IH (fun i d Hin => Hs i d (elem_of_list_further _ _ _ Hin))). destruct r as [v|].
      + destruct IH' as (i' & d' & H1 & H2 & H3 & H4). exists i', d'. split_and!; [lia|done|done|]. intros j e Hj He.
        destruct (decide (j = i)) as [->|]; [congruence|]. eapply H4; [|done]. lia.
      + intros j e Hj He. destruct (decide (j = i)) as [->|]; [congruence|]. eapply IH'; [|done]. lia.
  Qed.
  Lemma talk_split t tr pre x post : talk_of (D := D) t tr = pre ++ x :: post ->
    exists tr1 tr2, tr = tr1 ++ LRet t x.1 x.2 :: tr2 /\ talk_of t tr1 = pre /\ talk_of t tr2 = post.
  Proof.
    revert pre. induction tr as [|lb tr IH]; intros pre; [by destruct pre|].
    unfold talk_of at 1. simpl. fold (talk_of (D := D) t tr).
    assert (Hskip : talk_of t [lb] = [] -> talk_of t tr = pre ++ x :: post -> exists tr1 tr2, lb :: tr = tr1 ++ LRet t x.1 x.2 :: tr2 /\ talk_of t tr1 = pre /\ talk_of t tr2 = post).
    { intros Hb E. destruct (IH _ E) as (tr1 & tr2 & -> & H1 & H2). exists (lb :: tr1), tr2. split_and!; try done.
      change (talk_of t ([lb] ++ tr1) = pre). unfold talk_of. rewrite omap_app. fold (talk_of (D := D) t [lb]) (talk_of (D := D) t tr1). by rewrite Hb. }
    destruct lb as [| | |t' m r]; try (by apply Hskip).
    destruct (decide (t' = t)) as [->|Hn].
    - destruct pre as [|y pre]; simpl; intros E.
      + injection E as <- E. exists [], tr. by split_and!.
      + injection E as <- E. destruct (IH _ E) as (tr1 & tr2 & -> & H1 & H2). exists (LRet t m r :: tr1), tr2. split_and!; try done.
        unfold talk_of. simpl. rewrite decide_True by done. f_equal. done.
    - apply Hskip. unfold talk_of. simpl. by rewrite decide_False.
  Qed.

  Lemma getdata_moment {V} (get : D -> option V) s0 acts g tr t pre talk post r :
    appends_only acts -> exec (init s0) acts = Some (g, tr) ->
    talk_of t tr = pre ++ map (fun x => (coll_method x.1, Some x.2)) talk ++ post -> getdata get talk r ->
    exists acts1 acts2 g1 tr1, acts = acts1 ++ acts2 /\ exec (init s0) acts1 = Some (g1, tr1) /\ talk_of t tr1 = pre /\
      c_thr g1 t = TCS (coll_method CLen) (m_body (coll_method CLen)) RUnit /\ last_hit get (c_mem g1) r.
  Proof.
    intros Hf He Ht Hg. destruct (moments s0 acts Hf g tr He) as (_ & _ & HL). destruct Hg as [n talk r Hg]. simpl in Ht.
    destruct (talk_split _ _ _ _ _ Ht) as (tr1 & tr2 & E & H1 & H2). simpl in E.
    destruct (HL _ _ _ _ _ E) as (acts1 & acts2 & g1 & tr1' & Ea & He1 & Hpre & Hc & Hl & Hp). simpl in Hl. injection Hl as Hn.
    exists acts1, acts2, g1, tr1'. split; [done|]. split; [done|]. split; [congruence|]. split; [done|].
    assert (Hel : forall i d, (CElem i, RElem d) ∈ talk -> c_mem g !! i = Some d).
    { intros i d Hin. apply elem_of_list_split in Hin as (ta & tb & ->).
      rewrite map_app, <- app_assoc in H2. simpl in H2. destruct (talk_split _ _ _ _ _ H2) as (tr3 & tr4 & E2 & _ & _). simpl in E2.
      rewrite E2 in E. rewrite app_comm_cons, app_assoc in E.
      destruct (HL _ _ _ _ _ E) as (b1 & b2 & g3 & tr3' & _ & _ & _ & _ & Hl & Hp3). simpl in Hl.
      destruct (c_mem g3 !! i) eqn:E3; [|done]. injection Hl as ->. by eapply prefix_lookup. }
    pose proof (loop_hit get (c_mem g) n talk r Hg Hel) as H.
    assert (Hlow : forall j e, c_mem g1 !! j = Some e -> j < n /\ c_mem g !! j = Some e).
    { intros j e Hj. split; [rewrite <- Hn; by eapply lookup_lt_Some|by eapply prefix_lookup]. }
    destruct r as [v|]; simpl.
    - destruct H as (i & d & Hi & Hd & Hv & Hlast). exists i, d. split_and!; try done.
      + destruct Hp as [s2 Hp]. rewrite Hp in Hd. rewrite lookup_app_l in Hd; [done|lia].
      + intros j e Hj He'. destruct (Hlow _ _ He') as [? ?]. eapply Hlast; [|done]. lia.
    - intros j e He'. destruct (Hlow _ _ He') as [? ?]. by eapply H.
  Qed.
End Quiet.

Section NilClone.
  Context {D V Q R : Type}.
  Context (inner_set : D -> bytes -> V -> option D) (inner_del : D -> bytes -> option D)
          (inner_clone : D -> option R) (inner_read : D -> Q -> option R).
  Notation ts_method := (ts_method inner_set inner_del inner_clone inner_read).
  (** Clone whose inner Clone panics keeps the read lock. *)
  Lemma clone_blocks s0 acts g tr t l :
    exec (init s0) acts = Some (g, tr) ->
    c_thr g t = TCS (ts_method TClone) (m_body (ts_method TClone)) l -> (forall d, c_mem g = Some d -> inner_clone d = None) ->
    exists g1 lb, step g (ABody t) = Some (g1, lb) /\ c_thr g1 t = TDead (ts_method TClone) /\ writers_blocked_for_good g1.
  Proof.
    intros He Ht Hm.
    destruct (first_action_panics s0 acts g tr t (ts_method TClone) (hd (fun _ _ => None) (m_body (ts_method TClone)))
      (tl (m_body (ts_method TClone))) l) as (g1 & lb & H1 & H2 & _); try done.
    - simpl. destruct (c_mem g) as [d|]; [|done]. by rewrite Hm.
    - exists g1, lb. split; [done|]. split; [done|]. eapply (dead_reader_blocks s0 (acts ++ [ABody t])); [|done]. by rewrite exec_snoc, He, H1.
  Qed.
End NilClone.
