(** * Panics inside the critical sections; GetData of the thread safe collection. *)
From Verif Require Import GoBase GoStrings LangModel LockModel LockProofs LockInst LockInstProofs.
From Coq Require Import Lia.

Section Poison.
  Context {S L : Type}.
  Implicit Types g : config S L.
  (** The call [m] of thread [t] is still waiting for the lock. *)
  Definition waiting g (t : nat) (m : method S L) : Prop := c_thr g t = TReq m \/ c_thr g t = TWait m.
  (** Whatever happens next, nobody gets the lock, and no call made from now on returns. *)
  Definition blocked_for_good g : Prop :=
    forall acts g' tr', exec g acts = Some (g', tr') ->
      (forall t m, LAcq t m ∉ tr') /\ (forall t m, LInv t m ∈ tr' -> waiting g' t m).
  (** Whatever happens next, no writer gets the lock, and no writing call made from now on returns. *)
  Definition writers_blocked_for_good g : Prop :=
    forall acts g' tr', exec g acts = Some (g', tr') ->
      (forall t m, LAcq t m ∈ tr' -> m_write m = false) /\ (forall t m, LInv t m ∈ tr' -> m_write m = true -> waiting g' t m).

  Lemma waits_on (bad : method S L -> Prop) g0 acts g' tr' :
    (forall t m, LAcq t m ∈ tr' -> ~ bad m) -> exec g0 acts = Some (g', tr') ->
    forall t m, LInv t m ∈ tr' -> bad m -> waiting g' t m.
  Proof.
    intros Hacq He.
    assert (HI : (forall t m, LAcq t m ∈ tr' -> ~ bad m) -> forall t m, LInv t m ∈ tr' -> bad m -> waiting g' t m); [|by apply HI].
    clear Hacq.
    apply (exec_invariant (fun g tr => (forall t m, LAcq t m ∈ tr -> ~ bad m) -> forall t m, LInv t m ∈ tr -> bad m -> waiting g t m)
      (fun _ => True) g0 []) with (acts := acts); try done; [set_solver| |by apply Forall_forall].
    clear. intros [s k f] tr a g' lb IH _ Hs Hacq t m Hin Hbad.
    assert (IH' : forall t m, LInv t m ∈ tr -> bad m -> f t = TReq m \/ f t = TWait m).
    { apply IH. intros t' m' Ht'. apply (Hacq t'). apply elem_of_app. by left. }
    unfold waiting. apply elem_of_app in Hin as [Hin|Hin]; [specialize (IH' t m Hin Hbad)|clear IH IH'; apply elem_of_list_singleton in Hin as <-].
    - assert (Hq : forall t' m', LAcq t' m' = lb -> ~ bad m') by (intros t' m' <-; apply (Hacq t'); set_solver).
      destruct a as [t' m'|t'|t'|t'|t'|t']; cbn [step c_mem c_lock c_thr] in Hs.
      + destruct (f t') eqn:E; try discriminate. injection Hs as <- <-. simpl. unfold upd. destruct (decide (t = t')) as [->|]; [|done].
        by rewrite E in IH'; destruct IH'.
      + destruct (f t') eqn:E; try discriminate. destruct (decide _); [|discriminate]. injection Hs as <- <-. simpl. unfold upd. destruct (decide (t = t')) as [->|]; [|done].
        rewrite E in IH'. destruct IH' as [[= ->]|]; [by right|done].
      + destruct (f t') eqn:E; try discriminate; (destruct (decide _); [|discriminate]); injection Hs as <- <-; simpl; unfold upd;
          (destruct (decide (t = t')) as [->|]; [|done]); rewrite E in IH'; destruct IH' as [He|He]; try discriminate He; injection He as ->;
          by destruct (Hq t' m eq_refl).
      + destruct (f t') as [| | |m2 [|a rest] l| |] eqn:E; try discriminate.
        destruct (a s l) as [[s' l']|]; [|destruct (m_defer m2)]; injection Hs as <- <-; simpl; unfold upd;
          (destruct (decide (t = t')) as [->|]; [|done]); rewrite E in IH'; by destruct IH'.
      + destruct (f t') as [| | |m2 [|a rest] l| |] eqn:E; try discriminate. injection Hs as <- <-; simpl; unfold upd;
          (destruct (decide (t = t')) as [->|]; [|done]); rewrite E in IH'; by destruct IH'.
      + destruct (f t') eqn:E; try discriminate. injection Hs as <- <-; simpl; unfold upd;
          (destruct (decide (t = t')) as [->|]; [|done]); rewrite E in IH'; by destruct IH'.
    - destruct a as [t' m'|t'|t'|t'|t'|t']; cbn [step c_mem c_lock c_thr] in Hs.
      + destruct (f t') eqn:E; try discriminate. injection Hs as <- -> ->. simpl. left. unfold upd. by rewrite decide_True.
      + destruct (f t'); try discriminate. by destruct (decide _); simplify_eq.
      + destruct (f t'); try discriminate; by destruct (decide _); simplify_eq.
      + destruct (f t') as [| | |m2 [|a rest] l| |]; try discriminate.
        by destruct (a s l) as [[]|]; [|destruct (m_defer m2)]; simplify_eq.
      + by destruct (f t') as [| | |m2 [|a rest] l| |]; simplify_eq.
      + by destruct (f t'); simplify_eq.
  Qed.

  Lemma dead_writer_blocks s0 acts g tr t m :
    exec (init s0) acts = Some (g, tr) -> c_thr g t = TDead m -> m_write m = true -> blocked_for_good g.
  Proof.
    intros He Ht Hw acts' g' tr' He'.
    assert (Hacq : forall t m, LAcq t m ∉ tr').
    { intros t' m' Hin. destruct (poisoned _ _ _ _ _ _ _ _ _ He Ht He' t' m' Hin). congruence. }
    split; [done|]. intros t' m' Hin. eapply (waits_on (fun _ => True)); try done. intros t2 m2 H2. by destruct (Hacq t2 m2).
  Qed.
  Lemma dead_reader_blocks s0 acts g tr t m :
    exec (init s0) acts = Some (g, tr) -> c_thr g t = TDead m -> writers_blocked_for_good g.
  Proof.
    intros He Ht acts' g' tr' He'.
    assert (Hacq : forall t m, LAcq t m ∈ tr' -> m_write m = false).
    { intros t' m' Hin. by destruct (poisoned _ _ _ _ _ _ _ _ _ He Ht He' t' m' Hin). }
    split; [done|]. intros t' m' Hin Hw. eapply (waits_on (fun m => m_write m = true)); try done.
    intros t2 m2 H2. rewrite (Hacq _ _ H2). done.
  Qed.

  (** A panic at the first action of a writing method without deferred unlock. *)
  Lemma first_action_panics s0 acts g tr t m a b l :
    exec (init s0) acts = Some (g, tr) -> c_thr g t = TCS m (a :: b) l -> a (c_mem g) l = None -> m_defer m = false ->
    exists g1 lb, step g (ABody t) = Some (g1, lb) /\ c_thr g1 t = TDead m /\ (m_write m = true -> blocked_for_good g1).
  Proof.
    intros He Ht Ha Hd.
    assert (Hs : step g (ABody t) = Some (Config (c_mem g) (c_lock g) (upd (c_thr g) t (TDead m)), LTau t)).
    { simpl. by rewrite Ht, Ha, Hd. }
    assert (Hdead : c_thr (Config (c_mem g) (c_lock g) (upd (c_thr g) t (TDead m))) t = TDead m).
    { simpl. unfold upd. by rewrite decide_True. }
    eexists _, _. split; [exact Hs|]. split; [done|]. intros Hw.
    eapply (dead_writer_blocks s0 (acts ++ [ABody t])); [|done|done]. by rewrite exec_snoc, He, Hs.
  Qed.

  (** Methods that defer the unlock never leave the lock held. *)
  Lemma deferred_never_dead s0 acts g tr :
    Forall (fun a => match a with AInv _ m => method_ok m /\ m_defer m = true | _ => True end) acts ->
    exec (init s0) acts = Some (g, tr) -> forall t m, c_thr g t <> TDead m.
  Proof.
    intros Hq He.
    apply (exec_invariant (fun g tr => (forall t m, c_thr g t <> TDead m) /\ forall t m, 
       c_thr g t = TReq m \/ c_thr g t = TWait m \/ (exists r l, c_thr g t = TCS m r l) -> m_defer m = true)
      (fun a => match a with AInv _ m => method_ok m /\ m_defer m = true | _ => True end) (init s0) []) in He; [by destruct He| | |done].
    { split; [done|]. intros t m [?|[?|(?&?&?)]]; done. }
    clear. intros [s k f] tr a g' lb [HD HM] Ha Hs. simpl in *.
    assert (Hup : forall s' k' t x, (forall m, x <> TDead m) -> (forall m, x = TReq m \/ x = TWait m \/ (exists r l, x = TCS m r l) -> m_defer m = true) ->
       g' = Config s' k' (upd f t x) -> (forall t m, c_thr g' t <> TDead m) /\ forall t m, 
       c_thr g' t = TReq m \/ c_thr g' t = TWait m \/ (exists r l, c_thr g' t = TCS m r l) -> m_defer m = true).
    { intros s' k' t x H1 H2 ->. simpl. split; intros t' m; unfold upd; destruct (decide (t' = t)); auto; apply HM. }
    destruct a as [t m|t|t|t|t|t]; cbn [step c_mem c_lock c_thr] in Hs.
    - destruct (f t) eqn:E; try discriminate. injection Hs as <- <-. eapply (Hup _ _ t); [| |reflexivity]; [done|]. intros m' [[= ->]|[?|(?&?&?)]]; [apply Ha|done|done].
    - destruct (f t) eqn:E; try discriminate. destruct (decide _) as [(?&?&?)|]; [|discriminate]. injection Hs as <- <-. eapply (Hup _ _ t); [| |reflexivity]; [done|].
      intros m' [?|[[= ->]|(?&?&?)]]; [done| |done]. apply (HM t). by left.
    - destruct (f t) as [|m|m| | |] eqn:E; try discriminate; (destruct (decide _) as [Hd|]; [|discriminate]); injection Hs as <- <-; (eapply (Hup _ _ t); [| |reflexivity]; [done|]);
        intros m' [?|[?|(?&?&[= <- _ _])]]; try done; apply (HM t); auto.
    - destruct (f t) as [| | |m [|a rest] l| |] eqn:E; try discriminate.
      assert (Hdf : m_defer m = true) by (apply (HM t); right; right; eauto).
      destruct (a s l) as [[s' l']|]; [|rewrite Hdf in Hs]; injection Hs as <- <-; (eapply (Hup _ _ t); [| |reflexivity]; [done|]);
        intros m' [Hq|[Hq|(?&?&Hq)]]; try discriminate Hq; by injection Hq as <- _ _.
    - destruct (f t) as [| | |m [|a rest] l| |] eqn:E; try discriminate. injection Hs as <- <-. eapply (Hup _ _ t); [| |reflexivity]; [done|]; intros m' [Hq|[Hq|(?&?&Hq)]]; try discriminate Hq; by injection Hq as <- _ _.
    - destruct (f t) eqn:E; try discriminate. injection Hs as <- <-. eapply (Hup _ _ t); [| |reflexivity]; [done|]; intros m' [Hq|[Hq|(?&?&Hq)]]; try discriminate Hq; by injection Hq as <- _ _.
  Qed.
End Poison.

(** ** Instances *)
Section Inst.
  Context {D : Type} (show : nat -> D -> bytes).
  Lemma empty_pop_blocks (s0 : list D) acts g tr t l o :
    (o = CPop \/ o = CShift) -> exec (init s0) acts = Some (g, tr) ->
    c_thr g t = TCS (coll_method show o) (m_body (coll_method show o)) l -> c_mem g = [] ->
    exists g1 lb, step g (ABody t) = Some (g1, lb) /\ c_thr g1 t = TDead (coll_method show o) /\ blocked_for_good g1.
  Proof.
    intros Ho He Ht Hm. destruct (first_action_panics s0 acts g tr t (coll_method show o) (hd (fun _ _ => None) (m_body (coll_method show o)))
      (tl (m_body (coll_method show o))) l) as (g1 & lb & H1 & H2 & H3); try done.
    - destruct Ho as [-> | ->]; apply Ht.
    - rewrite Hm. by destruct Ho as [-> | ->].
    - by destruct Ho as [-> | ->].
    - exists g1, lb. split_and!; try done. apply H3. by destruct Ho as [-> | ->].
  Qed.
End Inst.
Section Inst2.
  Context {D V Q R : Type}.
  Context (inner_set : D -> bytes -> V -> option D) (inner_del : D -> bytes -> option D)
          (inner_clone : D -> option R) (inner_read : D -> Q -> option R).
  Notation ts_method := (ts_method inner_set inner_del inner_clone inner_read).
  (** A call that reaches the critical section of Set or Del on the wrapper of nothing. *)
  Lemma nil_set_blocks acts g tr t l (o : @tsop V Q) :
    ((exists k v, o = TSet k v) \/ exists k, o = TDel k) -> calls_only ts_method acts -> exec (init None) acts = Some (g, tr) ->
    c_thr g t = TCS (ts_method o) (m_body (ts_method o)) l ->
    exists g1 lb, step g (ABody t) = Some (g1, lb) /\ c_thr g1 t = TDead (ts_method o) /\ blocked_for_good g1.
  Proof.
    intros Ho Hc He Ht.
    assert (Hm : c_mem g = None).
    { assert (HI : c_mem g = None /\ (forall t m r l, c_thr g t = TCS m r l -> Forall (fun a => forall l, a None l = None) r) /\
          forall t m, c_thr g t = TReq m \/ c_thr g t = TWait m -> exists o, m = ts_method o); [|by destruct HI].
      eapply (exec_invariant (fun g tr => c_mem g = None /\ (forall t m r l, c_thr g t = TCS m r l -> Forall (fun a => forall l, a None l = None) r) /\
          forall t m, c_thr g t = TReq m \/ c_thr g t = TWait m -> exists o, m = ts_method o)
        (fun a => match a with AInv _ m => exists o, m = ts_method o | _ => True end) (init None) []) with (acts := acts); try done.
      { split_and!; try done. by intros ?? [?|?]. }
      clear. intros [s k f] tr a g' lb (Hm & HC & HR) Ha Hs. simpl in Hm, HC, HR. subst s.
      assert (Hbody : forall o, Forall (fun a => forall l : @tsres R, a None l = None) (m_body (ts_method o))) by (intros []; repeat constructor).
      assert (Hup : forall k' t x, g' = Config None k' (upd f t x) -> (forall m r l, x = TCS m r l -> Forall (fun a => forall l, a None l = None) r) ->
        (forall m, x = TReq m \/ x = TWait m -> exists o, m = ts_method o) ->
        c_mem g' = None /\ (forall t m r l, c_thr g' t = TCS m r l -> Forall (fun a => forall l, a None l = None) r) /\
          forall t m, c_thr g' t = TReq m \/ c_thr g' t = TWait m -> exists o, m = ts_method o).
      { intros k' t x -> H1 H2. simpl. unfold upd. split_and!; [done|intros t' m r l|intros t' m]; destruct (decide (t' = t)); eauto. }
      destruct a as [t m|t|t|t|t|t]; cbn [step c_mem c_lock c_thr] in Hs.
      - destruct (f t) eqn:E; try discriminate. injection Hs as <- <-. eapply (Hup _ t); try done. intros m' [[= ->]|?]; done.
      - destruct (f t) eqn:E; try discriminate. destruct (decide _) as [(?&?&?)|]; [|discriminate]. injection Hs as <- <-. eapply (Hup _ t); try done.
        intros m' [?|[= ->]]; [done|]. apply (HR t). by left.
      - destruct (f t) as [|m|m| | |] eqn:E; try discriminate; (destruct (decide _) as [Hd|]; [|discriminate]); injection Hs as <- <-; (eapply (Hup _ t); try done);
          try (intros m' [?|?]; done); intros m' r l' [= <- <- <-]; (destruct (HR t m) as [o ->]; [by rewrite E; auto|]); apply Hbody.
      - destruct (f t) as [| | |m [|a rest] l| |] eqn:E; try discriminate.
        pose proof (HC _ _ _ _ E) as Hf. apply Forall_cons in Hf as [Hf1 Hf2]. rewrite Hf1 in Hs.
        destruct (m_defer m); injection Hs as <- <-; (eapply (Hup _ t); try done); try (intros m' [?|?]; done).
      - destruct (f t) as [| | |m [|a rest] l| |] eqn:E; try discriminate. injection Hs as <- <-. eapply (Hup _ t); try done; try (intros m' [?|?]; done).
      - destruct (f t) eqn:E; try discriminate. injection Hs as <- <-. eapply (Hup _ t); try done; try (intros m' [?|?]; done). }
    destruct (first_action_panics None acts g tr t (ts_method o) (hd (fun _ _ => None) (m_body (ts_method o)))
      (tl (m_body (ts_method o))) l) as (g1 & lb & H1 & H2 & H3); try done.
    - destruct Ho as [(k & v & ->)|[k ->]]; apply Ht.
    - rewrite Hm. by destruct Ho as [(k & v & ->)|[k ->]].
    - by destruct Ho as [(k & v & ->)|[k ->]].
    - exists g1, lb. split_and!; try done. apply H3. by destruct Ho as [(k & v & ->)|[k ->]].
  Qed.
  Lemma reads_release acts s0 g tr :
    Forall (fun a => match a with AInv _ m => exists q, m = ts_method (TRead q) | _ => True end) acts ->
    exec (init s0) acts = Some (g, tr) -> forall t m, c_thr g t <> TDead m.
  Proof.
    intros Hf He. eapply deferred_never_dead; [|done]. eapply Forall_impl; [exact Hf|].
    intros [t m| | | | |]; try done. intros [q ->]. split; [apply ts_method_ok|done].
  Qed.
End Inst2.
Lemma language_releases quote acts l0 g tr :
  calls_only (lang_method quote) acts -> exec (init l0) acts = Some (g, tr) -> forall t m, c_thr g t <> TDead m.
Proof.
  intros Hf He. eapply deferred_never_dead; [|done]. eapply Forall_impl; [exact Hf|].
  intros [t m| | | | |]; try done. intros [o ->]. split; [apply lang_method_ok|by destruct o].
Qed.

(** ** GetData of XDatasetCollectionTS *)
Section GetData.
  Context {D : Type} (show : nat -> D -> bytes).
  Notation coll_method := (coll_method show).
  Definition grows (o : cop D) : Prop := match o with CPop | CShift => False | _ => True end.
  (** Sections of GetData are called as GetData does: an index below a length that the
      same thread has been told before. *)
  Definition as_getdata (tr : list (label (list D) (cres D))) : Prop :=
    forall tr1 t i tr2, tr = tr1 ++ LInv t (coll_method (CElem i)) :: tr2 ->
      exists m n, LRet t m (Some (RCount n)) ∈ tr1 /\ i < n.
  Definition in_range (n : nat) (x : @tstate (list D) (cres D)) : Prop :=
    match x with
    | TIdle => True
    | TReq m | TWait m => exists o, m = coll_method o /\ match o with CElem i => i < n | CPop | CShift => False | _ => True end
    | TCS m r l => (forall c, l = RCount c -> c <= n) /\
        (r = [] \/ exists o, m = coll_method o /\ r = m_body m /\ l = RUnit /\ match o with CElem i => i < n | CPop | CShift => False | _ => True end)
    | TDone m r => exists l, r = Some l /\ (forall c, l = RCount c -> c <= n)
    | TDead _ => False
    end.
  Lemma in_range_mono n n' x : n <= n' -> in_range n x -> in_range n' x.
  Proof.
    intros Hn. destruct x as [|m|m|m r l|m r|m]; simpl; try done.
    - intros (o & -> & Ho). exists o. split; [done|]. destruct o; try done. lia.
    - intros (o & -> & Ho). exists o. split; [done|]. destruct o; try done. lia.
    - intros [H1 H2]. split; [intros c Hc; specialize (H1 c Hc); lia|]. destruct H2 as [?|(o & -> & ? & ? & Ho)]; [by left|right].
      exists o. split_and!; try done. destruct o; try done. lia.
    - intros (l & -> & Hl). exists l. split; [done|]. intros c Hc. specialize (Hl c Hc). lia.
  Qed.
  Lemma getdata_no_panic s0 acts g tr :
    Forall (fun a => match a with AInv _ m => exists o, m = coll_method o /\ grows o | _ => True end) acts ->
    exec (init s0) acts = Some (g, tr) -> as_getdata tr ->
    (forall t m, c_thr g t <> TDead m) /\ (forall t m, LRet t m None ∉ tr).
  Proof.
    intros Hf He Hg.
    assert (HI : as_getdata tr -> (forall t, in_range (length (c_mem g)) (c_thr g t)) /\
        (forall t m r, LRet t m r ∈ tr -> exists l, r = Some l /\ forall c, l = RCount c -> c <= length (c_mem g))).
    2: { destruct (HI Hg) as [H1 H2]. split.
         - intros t m Ht. specialize (H1 t). by rewrite Ht in H1.
         - intros t m Hin. by destruct (H2 _ _ _ Hin) as (l & ? & _). }
    clear Hg.
    eapply (exec_invariant (fun g tr => as_getdata tr -> (forall t, in_range (length (c_mem g)) (c_thr g t)) /\
        (forall t m r, LRet t m r ∈ tr -> exists l, r = Some l /\ forall c, l = RCount c -> c <= length (c_mem g)))
      (fun a => match a with AInv _ m => exists o, m = coll_method o /\ grows o | _ => True end) (init s0) []) with (acts := acts); try done.
    { intros _. split; [done|]. set_solver. }
    clear. intros [s k f] tr a g' lb IH Ha Hs Hg. simpl in IH.
    destruct IH as [HT HL]. { intros tr1 t i tr2 ->. apply (Hg tr1 t i (tr2 ++ [lb])). by rewrite <- app_assoc. }
    assert (Hup : forall s' k' t x, g' = Config s' k' (upd f t x) -> length s <= length s' -> in_range (length s') x ->
       (forall m r, lb = LRet t m r -> exists l, r = Some l /\ forall c, l = RCount c -> c <= length s') ->
       (forall t' m r, lb = LRet t' m r -> t' = t) ->
       (forall t, in_range (length (c_mem g')) (c_thr g' t)) /\
        (forall t m r, LRet t m r ∈ tr ++ [lb] -> exists l, r = Some l /\ forall c, l = RCount c -> c <= length (c_mem g'))).
    { intros s' k' t x -> Hlen Hx Hlb Hlbt. simpl. split.
      - intros t'. unfold upd. destruct (decide (t' = t)); [done|]. by eapply in_range_mono, HT.
      - intros t' m r Hin. apply elem_of_app in Hin as [Hin|Hin].
        + destruct (HL _ _ _ Hin) as (l & -> & Hl). exists l. split; [done|]. intros c Hc. specialize (Hl c Hc). lia.
        + apply elem_of_list_singleton in Hin as Hin. symmetry in Hin. pose proof (Hlbt _ _ _ Hin) as ->. eauto. }
    destruct a as [t m|t|t|t|t|t]; cbn [step c_mem c_lock c_thr] in Hs; pose proof (HT t) as Ht.
    - destruct (f t) eqn:E; try discriminate. injection Hs as <- <-. eapply (Hup _ _ t); try done.
      destruct Ha as (o & -> & Ho). exists o. split; [done|]. destruct o; try done.
      destruct (Hg tr t i []) as (m & n & Hin & Hn); [done|]. destruct (HL _ _ _ Hin) as (l & [= <-] & Hl). specialize (Hl n eq_refl). lia.
    - destruct (f t) eqn:E; try discriminate. destruct (decide _) as [(?&?&?)|]; [|discriminate]. injection Hs as <- <-. by eapply (Hup _ _ t).
    - destruct (f t) as [|m|m| | |] eqn:E; try discriminate; (destruct (decide _) as [Hd|]; [|discriminate]); injection Hs as <- <-;
        (eapply (Hup _ _ t); try done); destruct Ht as (o & -> & Ho); (split; [by destruct o; intros c|]); right; exists o; by destruct o.
    - destruct (f t) as [| | |m [|a rest] l| |] eqn:E; try discriminate. destruct Ht as [Hc [?|(o & -> & Hr & -> & Ho)]]; [done|].
      destruct o; simpl in Hr; try done; injection Hr as -> ->; simpl in Hs.
      + injection Hs as <- <-. eapply (Hup _ _ t); try done; [rewrite app_length; simpl; lia|]. split; [done|by left].
      + injection Hs as <- <-. eapply (Hup _ _ t); try done; [simpl; lia|]. split; [done|by left].
      + injection Hs as <- <-. eapply (Hup _ _ t); try done. split; [intros c [= <-]; done|by left].
      + assert (exists r, (if bool_decide (i < 0 \/ Z.of_nat (length s) <= i)%Z then Some (s, RGet None)
                    else match s !! Z.to_nat i with Some d => Some (s, RGet (Some d)) | None => None end) = Some (s, RGet r)) as [r Hr].
        { destruct (decide (i < 0 \/ Z.of_nat (length s) <= i)%Z); [rewrite bool_decide_true by done; eauto|]. rewrite bool_decide_false by done.
          destruct (lookup_lt_is_Some_2 s (Z.to_nat i)) as [d ->]; [lia|eauto]. }
        rewrite Hr in Hs. injection Hs as <- <-. eapply (Hup _ _ t); try done. split; [done|by left].
      + injection Hs as <- <-. eapply (Hup _ _ t); try done. split; [done|by left].
      + injection Hs as <- <-. eapply (Hup _ _ t); try done. split; [intros c [= <-]; done|by left].
      + destruct (lookup_lt_is_Some_2 s i Ho) as [d Hd]. rewrite Hd in Hs. injection Hs as <- <-. eapply (Hup _ _ t); try done. split; [done|by left].
    - destruct (f t) as [| | |m [|a rest] l| |] eqn:E; try discriminate. injection Hs as <- <-. eapply (Hup _ _ t); try done.
      exists l. split; [done|]. apply Ht.
    - destruct (f t) as [| | | |m r|] eqn:E; try discriminate. injection Hs as <- <-. destruct Ht as (l & -> & Hl). eapply (Hup _ _ t); try done.
      + intros m' r [= <- <-]. eauto.
      + by intros t' m' r [= <- <- <-].
  Qed.

  (** *** Schedules *)
  Definition call (t : nat) (o : cop D) (n : nat) : list (action (list D) (cres D)) :=
    let m := coll_method o in
    [AInv t m] ++ (if m_write m then [AAnnounce t] else []) ++ [AAcquire t] ++ replicate n (ABody t) ++ [ARelease t; ARet t].
  Lemma call_calls t o n : calls_only coll_method (call t o n).
  Proof.
    unfold calls_only, call. cbv zeta. rewrite !Forall_app. split_and!.
    - apply Forall_singleton. by eexists.
    - destruct (m_write _); by repeat constructor.
    - by repeat constructor.
    - by apply Forall_replicate.
    - by repeat constructor.
  Qed.
  Definition talk_of (t : nat) (tr : list (label (list D) (cres D))) : list (method (list D) (cres D) * option (cres D)) :=
    omap (fun l => match l with LRet t' m r => if decide (t' = t) then Some (m, r) else None | _ => None end) tr.
  (** Thread 0 is told the length 1, thread 1 pops, thread 0 reads element 0: panic, and
      the read lock stays taken. *)
  Definition race_acts : list (action (list D) (cres D)) :=
    call 0 CLen 1 ++ call 1 CPop 2 ++ [AInv 0 (coll_method (CElem 0)); AAcquire 0; ABody 0].
  Lemma getdata_panic d :
    calls_only coll_method race_acts /\
    exists g tr, exec (init [d]) race_acts = Some (g, tr) /\
      talk_of 0 tr = [(coll_method CLen, Some (RCount 1))] /\ talk_of 1 tr = [(coll_method CPop, Some (RElem d))] /\
      c_thr g 0 = TDead (coll_method (CElem 0)) /\ writers_blocked_for_good g.
  Proof.
    split.
    { apply Forall_app_2; [apply call_calls|]. apply Forall_app_2; [apply call_calls|].
      apply Forall_cons; split; [by eexists|]. by repeat constructor. }
    assert (H : match exec (init [d]) race_acts with Some (g, tr) => 
      talk_of 0 tr = [(coll_method CLen, Some (RCount 1))] /\ talk_of 1 tr = [(coll_method CPop, Some (RElem d))] /\
      c_thr g 0 = TDead (coll_method (CElem 0)) | None => False end).
    { vm_compute. done. }
    destruct (exec (init [d]) race_acts) as [[g tr]|] eqn:E; [|destruct H]. destruct H as (H1 & H2 & H3).
    exists g, tr. split; [reflexivity|]. split; [exact H1|]. split; [exact H2|]. split; [exact H3|]. exact (dead_reader_blocks _ _ _ _ _ _ E H3).
  Qed.

  (** Thread 0 is told the length 1, thread 1 puts an element in front, thread 0 reads
      element 0, which has not the key: it answers not found, although [a], which has
      it, is in the collection at every moment. *)
  Definition miss_acts (b : D) : list (action (list D) (cres D)) :=
    call 0 CLen 1 ++ call 1 (CUnshift b) 1 ++ call 0 (CElem 0) 1.
  Lemma getdata_misses {V} (get : D -> option V) a b v :
    get a = Some v -> get b = None ->
    calls_only coll_method (miss_acts b) /\
    (forall acts1 acts2, miss_acts b = acts1 ++ acts2 -> exists g tr, exec (init [a]) acts1 = Some (g, tr) /\ a ∈ c_mem g) /\
    exists g tr talk, exec (init [a]) (miss_acts b) = Some (g, tr) /\
      talk_of 0 tr = map (fun x => (coll_method x.1, Some x.2)) talk /\ getdata get talk None.
  Proof.
    intros Ha Hb. split_and!.
    - apply Forall_app_2; [apply call_calls|]. apply Forall_app_2; apply call_calls.
    - assert (H : forall n, let m := option_map (fun x => c_mem x.1) (exec (init [a]) (take n (miss_acts b))) in m = Some [a] \/ m = Some [b; a]).
      { intros n. cbv zeta. do 17 (destruct n as [|n]; [vm_compute; first [left; reflexivity|right; reflexivity]|]).
        rewrite (take_ge (miss_acts b)); [right; vm_compute; reflexivity|]. vm_compute. lia. }
      intros acts1 acts2 He. specialize (H (length acts1)). cbv zeta in H. rewrite He, take_app in H.
      destruct (exec (init [a]) acts1) as [[g tr]|]; simpl in H; [|by destruct H]. exists g, tr. split; [done|].
      destruct H as [[= ->]|[= ->]]; [by left|right; by left].
    - assert (H : match exec (init [a]) (miss_acts b) with Some (g, tr) => 
         talk_of 0 tr = [(coll_method CLen, Some (RCount 1)); (coll_method (CElem 0), Some (RElem b))] | None => False end).
      { vm_compute. done. }
      destruct (exec (init [a]) (miss_acts b)) as [[g tr]|]; [|destruct H]. exists g, tr, [(CLen, RCount 1); (CElem 0, RElem b)].
      split; [reflexivity|]. split; [exact H|]. constructor. constructor; [done|constructor].
  Qed.
End GetData.
