(** * Slices with their arrays refine lists (C96). *)
From Verif Require Import GoBase DatasetModel DatasetSpec SliceModel SliceSpec.

Section Basic.
  Context {A : Type} (zero : A) (grow : nat -> nat -> nat).
  Notation mem := (memory A).
  (** A slice that lies inside its array. *)
  Definition fits (m : mem) (s : slice) : Prop :=
    s_len s <= s_cap s /\ (s_cap s = 0 \/ exists l, m !! s_arr s = Some l /\ s_off s + s_cap s <= length l).
  Definition shows (m : mem) (s : slice) (xs : list A) : Prop := fits m s /\ s_len s = length xs /\ view m s = xs.
  (** Reading through [t] is not affected by the change from [m] to [m']. *)
  Definition apart (s t : slice) : Prop := s_cap s = 0 \/ s_cap t = 0 \/ s_arr s <> s_arr t.
  Definition only_touches (m m' : mem) (s s' : slice) : Prop :=
    (forall a, m !! a <> None -> (s_cap s = 0 \/ a <> s_arr s) -> m' !! a = m !! a) /\
    (s_cap s' = 0 \/ (s_cap s <> 0 /\ s_arr s' = s_arr s) \/ m !! s_arr s' = None).

  Lemma shows_nil m : shows m nil_slice [].
  Proof. repeat split; simpl; auto. Qed.
  Lemma view_nil (m : mem) s : s_len s = 0 -> view m s = [].
  Proof. unfold view. by intros ->. Qed.
  Lemma view_length (m : mem) s : fits m s -> length (view m s) = s_len s.
  Proof.
    intros [H1 [H2|(l & E & H2)]]; unfold view, cells.
    - assert (s_len s = 0) as -> by lia. done.
    - rewrite E. simpl. rewrite take_length, drop_length. lia.
  Qed.
  Lemma shows_len m s xs : shows m s xs -> s_len s = length xs. Proof. by intros (_ & ? & _). Qed.
  Lemma shows_cells m s xs : shows m s xs -> exists r, cells m s = xs ++ r.
  Proof. intros (_ & _ & <-). exists (drop (s_len s) (cells m s)). unfold view. by rewrite take_drop. Qed.
  Lemma fits_same m m' s : m' !! s_arr s = m !! s_arr s -> fits m s -> fits m' s.
  Proof. intros E [H1 H2]. split; [done|]. by rewrite E. Qed.
  Lemma view_same (m : mem) m' s : m' !! s_arr s = m !! s_arr s -> view m' s = view m s.
  Proof. unfold view, cells. by intros ->. Qed.
  Lemma frame m m' s s' t xs : only_touches m m' s s' -> apart s t -> shows m t xs -> shows m' t xs.
  Proof.
    intros [Ht _] Ha (Hf & Hl & Hv). destruct (decide (s_cap t = 0)) as [E0|E0].
    - assert (s_len t = 0) as L by (destruct Hf; lia). split; [split; [lia|by left]|]. split; [done|]. rewrite view_nil by done. rewrite <- Hv. by rewrite view_nil.
    - assert (m' !! s_arr t = m !! s_arr t) as E.
      { apply Ht.
        - destruct Hf as [_ [?|(l & -> & _)]]; done.
        - destruct Ha as [?|[?|?]]; [by left|done|]. right. congruence. }
      split; [by eapply fits_same|]. split; [done|]. by rewrite (view_same _ _ _ E).
  Qed.
  Lemma frame_apart m m' s s' t xs : only_touches m m' s s' -> apart s t -> shows m t xs -> apart s' t.
  Proof.
    intros [_ [H|[[H1 H2]|H]]] Ha Ht; [by left| |].
    - destruct Ha as [?|[?|?]]; [done|right; by left|]. right; right. congruence.
    - destruct Ht as ((_ & [?|(l & E & _)]) & _); [right; by left|]. right; right. congruence.
  Qed.
  Lemma touch_refl m s t : s_arr t = s_arr s -> s_cap t = 0 \/ s_cap s <> 0 -> only_touches m m s t.
  Proof. intros H1 H2. split; [done|]. destruct H2; [by left|right; left; done]. Qed.
  Lemma touch_trans m m1 m2 s s1 s2 : only_touches m m1 s s1 -> only_touches m1 m2 s1 s2 -> (forall a, m !! a <> None -> m1 !! a <> None) -> only_touches m m2 s s2.
  Proof.
    intros [H1 H1'] [H2 H2'] Hd. split.
    - intros a Ha Hs. rewrite H2; [by apply H1|by apply Hd|].
      destruct H1' as [?|[[? E]|E]]; [by left| |].
      + right. destruct Hs as [?|?]; congruence.
      + right. intros ->. done.
    - destruct H2' as [?|[[C E]|E]]; [by left| |].
      + destruct H1' as [?|[[? E']|E']]; [done|right; left; split; [done|congruence]|right; right; congruence].
      + right; right. destruct (m !! s_arr s2) eqn:Em; [|done]. exfalso. apply (Hd (s_arr s2)); [by rewrite Em|done].
  Qed.

  Lemma overwrite_end (l xs ys : list A) i n : take n (drop i l) = xs -> length xs = n -> i + n + length ys <= length l ->
    take (n + length ys) (drop i (overwrite l (i + n) ys)) = xs ++ ys.
  Proof.
    intros Hx Hn Hl. unfold overwrite. rewrite drop_app_le by (rewrite take_length; lia).
    rewrite skipn_firstn_comm. replace (i + n - i) with n by lia. rewrite Hx. rewrite app_assoc. rewrite take_app_le by (rewrite app_length; lia).
    rewrite take_ge by (rewrite app_length; lia). done.
  Qed.
  Lemma overwrite_length (l xs : list A) i : i + length xs <= length l -> length (overwrite l i xs) = length l.
  Proof. intros H. unfold overwrite. rewrite !app_length, take_length, drop_length. lia. Qed.
  Lemma make_shows m xs cap m' s : make zero m xs cap = (m', s) -> length xs <= cap ->
    shows m' s xs /\ m !! s_arr s = None /\ (forall a, m !! a <> None -> m' !! a = m !! a) /\ s_cap s = cap.
  Proof.
    unfold make. intros [= <- <-] Hc. assert (Hf : m !! fresh (dom m) = None) by (apply not_elem_of_dom; apply is_fresh). split_and!.
    - split; [split; simpl; [done|]|split; [done|]].
      + right. eexists. rewrite lookup_insert. split; [done|]. rewrite app_length, replicate_length. lia.
      + unfold view, cells. simpl. rewrite lookup_insert. simpl. rewrite drop_0. by rewrite take_app.
    - done.
    - intros a Ha. rewrite lookup_insert_ne; [done|]. congruence.
    - done.
  Qed.
  Lemma append_shows m s xs ys m' s' : shows m s xs -> append zero grow m s ys = (m', s') -> 
    shows m' s' (xs ++ ys) /\ only_touches m m' s s' /\ (forall a, m !! a <> None -> m' !! a <> None).
  Proof.
    intros (Hf & Hl & Hv). unfold append. destruct (decide _) as [Hc|Hc]; intros E.
    - injection E as <- <-. destruct Hf as [H1 [H0|(l & El & Hcap)]].
      + assert (xs = []) as -> by (destruct xs; [done|simpl in *; lia]). assert (ys = []) as -> by (destruct ys; [done|simpl in *; lia]).
        simpl in *. split_and!; [|split|].
        * split; [split; simpl; [lia|by left]|]. split; [simpl; lia|]. apply view_nil. simpl. lia.
        * intros a Ha Hs. destruct (m !! s_arr s) eqn:El; [|done]. destruct (decide (a = s_arr s)) as [->|Hn]; [|by rewrite lookup_insert_ne].
          rewrite lookup_insert, El. f_equal. unfold overwrite. simpl. by rewrite Nat.add_0_r, take_drop.
        * by left.
        * intros a Ha. destruct (m !! s_arr s) eqn:El; [|done]. destruct (decide (a = s_arr s)) as [->|Hn]; [by rewrite lookup_insert|by rewrite lookup_insert_ne].
      + rewrite El. split_and!; [|split|].
        * split; [split; simpl; [lia|]|split; [simpl; rewrite app_length; lia|]].
          -- right. eexists. rewrite lookup_insert. split; [done|]. rewrite overwrite_length; lia.
          -- unfold view, cells in *. simpl. rewrite lookup_insert. simpl. rewrite El in Hv. simpl in Hv. apply overwrite_end; [done|lia|lia].
        * intros a Ha [H0|Hn].
          -- assert (ys = []) as -> by (destruct ys; [done|simpl in *; lia]). destruct (decide (a = s_arr s)) as [->|Hn]; [|by rewrite lookup_insert_ne].
             rewrite lookup_insert, El. f_equal. unfold overwrite. simpl. by rewrite Nat.add_0_r, take_drop.
          -- by rewrite lookup_insert_ne.
        * simpl. destruct (decide (s_cap s = 0)); [by left|right; by left].
        * intros a Ha. destruct (decide (a = s_arr s)) as [->|Hn]; [by rewrite lookup_insert|by rewrite lookup_insert_ne].
    - rewrite Hv in E. apply make_shows in E; [|rewrite app_length; lia]. destruct E as (H1 & H2 & H3 & _). split_and!; [done| |].
      + split; [intros a Ha _; by apply H3|]. right; by right.
      + intros a Ha. by rewrite H3.
  Qed.
  Lemma from_shows m s xs i : shows m s xs -> i <= length xs -> exists t, from s i = Some t /\ shows m t (drop i xs) /\ only_touches m m s t.
  Proof.
    intros (Hf & Hl & Hv) Hi. unfold from. rewrite decide_True by lia. eexists. split; [done|]. split; [|].
    - split; [split; simpl|split; simpl].
      + destruct Hf. lia.
      + destruct Hf as [_ [?|(l & El & Hc)]]; [left; lia|]. destruct (decide (s_cap s - i = 0)); [by left|]. right. exists l. split; [done|lia].
      + rewrite drop_length. lia.
      + unfold view, cells in *. simpl. rewrite <- Hv. rewrite skipn_firstn_comm. rewrite drop_drop. done.
    - apply touch_refl; [done|]. simpl. lia.
  Qed.
  Lemma upto_shows m s xs i : shows m s xs -> i <= length xs -> exists t, upto s i = Some t /\ shows m t (take i xs) /\ only_touches m m s t.
  Proof.
    intros (Hf & Hl & Hv) Hi. unfold upto. rewrite decide_True by lia. eexists. split; [done|]. split; [|].
    - split; [split; simpl|split; simpl].
      + destruct Hf. lia.
      + by destruct Hf.
      + rewrite take_length. lia.
      + unfold view, cells in *. simpl. rewrite <- Hv. rewrite take_take. f_equal. lia.
    - apply touch_refl; [done|]. simpl. destruct (decide (s_cap s = 0)); auto.
  Qed.
  Lemma at_shows m s xs i : shows m s xs -> at_index m s i = if decide (0 <= i < Z.of_nat (length xs))%Z then xs !! Z.to_nat i else None.
  Proof.
    intros H. unfold at_index. rewrite (shows_len _ _ _ H). destruct (decide _); [|done]. destruct (shows_cells _ _ _ H) as [r ->]. apply lookup_app_l. lia.
  Qed.
End Basic.

(** ** One collection *)
Section Coll.
  Variable grow : nat -> nat -> nat.
  Notation mem := (memory (option loc)).
  Lemma coll_op_ok (m : mem) s xs o : shows m s xs ->
    (forall ys a, deque_step xs o ys a -> exists m' s', mcoll_op grow m s o = Ok (m', s', a) /\ shows m' s' ys /\ only_touches m m' s s' /\ (forall b, m !! b <> None -> m' !! b <> None)) /\
    (forall m' s' a, mcoll_op grow m s o = Ok (m', s', a) -> exists ys, deque_step xs o ys a).
  Proof.
    intros H. pose proof (shows_len _ _ _ H) as Hl. split.
    - intros ys a Hs. destruct Hs as [xs d|xs d|xs d|xs d|xs|xs ys d|xs i Hi]; cbn [mcoll_op].
      + destruct (append None grow m s [d]) as [m' s'] eqn:E. destruct (append_shows _ _ _ _ _ _ _ _ H E) as (H1 & H2 & H3). by exists m', s'.
      + rewrite (at_shows _ _ _ _ H), Hl, app_length. simpl. rewrite decide_True by lia.
        replace (Z.to_nat (Z.of_nat (length xs + 1) - 1)) with (length xs) by lia. rewrite list_lookup_middle by done.
        destruct (upto_shows m s _ (length xs) H) as (t & Et & H1 & H2); [rewrite app_length; simpl; lia|].
        replace (length xs + 1 - 1) with (length xs) by lia. rewrite Et. rewrite take_app in H1. by exists m, t.
      + rewrite (at_shows _ _ _ _ H). rewrite decide_True by (simpl; lia). simpl.
        destruct (from_shows m s _ 1 H) as (t & Et & H1 & H2); [simpl; lia|]. rewrite Et. by exists m, t.
      + destruct (make None m [d] 1) as [m1 t] eqn:E1. pose proof E1 as E1'. apply make_shows in E1' as (H1 & H2 & H3 & _); [|simpl; lia].
        assert (Hs1 : shows m1 s xs).
        { destruct H as (Hf & _ & Hv). destruct (decide (s_cap s = 0)) as [E0|E0].
          - assert (s_len s = 0) as L by (destruct Hf; lia). split; [split; [lia|by left]|]. split; [done|]. rewrite view_nil by done. rewrite <- Hv. by rewrite view_nil.
          - assert (m1 !! s_arr s = m !! s_arr s) as E by (apply H3; destruct Hf as [_ [?|(l & -> & _)]]; done).
            split; [by eapply fits_same|]. split; [done|]. by rewrite (view_same _ _ _ E). }
        assert (Ev : view m1 s = xs) by (by destruct Hs1 as (_ & _ & ?)). rewrite Ev.
        destruct (append None grow m1 t xs) as [m2 t2] eqn:E2. destruct (append_shows _ _ _ _ _ _ _ _ H1 E2) as (K1 & K2 & K3).
        exists m2, t2. split; [done|]. split; [done|]. split; [split|].
        * intros b Hb _. destruct K2 as [K2 _]. rewrite K2; [by apply H3|by rewrite H3|]. right. congruence.
        * destruct K2 as [_ [?|[[_ ->]|K]]]; [by left|by right; right|]. right; right. destruct (m !! s_arr t2) eqn:Em; [|done].
          exfalso. rewrite <- (H3 (s_arr t2)) in Em by (by rewrite Em). congruence.
        * intros b Hb. apply K3. by rewrite H3.
      + exists m, s. rewrite Hl. split_and!; [done|done| |done]. apply touch_refl; [done|]. destruct (decide (s_cap s = 0)); auto.
      + rewrite app_length in *. simpl in *. rewrite decide_False by lia. rewrite (at_shows _ _ _ _ H), app_length. simpl. rewrite decide_True by lia.
        rewrite Nat2Z.id, list_lookup_middle by done. exists m, s. split_and!; [done|done| |done]. apply touch_refl; [done|]. destruct (decide (s_cap s = 0)); auto.
      + rewrite decide_True by lia. exists m, s. split_and!; [done|done| |done]. apply touch_refl; [done|]. destruct (decide (s_cap s = 0)); auto.
    - intros m' s' a. destruct o as [d| | |d| |i]; cbn [mcoll_op].
      + destruct (append None grow m s [d]). intros [= <- <- <-]. eexists. constructor.
      + rewrite (at_shows _ _ _ _ H), Hl. destruct (decide _) as [Hd|]; [|done].
        destruct xs as [|x xs _] using rev_ind; [simpl in Hd; lia|]. rewrite app_length. simpl.
        replace (Z.to_nat (Z.of_nat (length xs + 1) - 1)) with (length xs) by lia. rewrite list_lookup_middle by done.
        destruct (upto _ _); [|done]. intros [= <- <- <-]. eexists. constructor.
      + rewrite (at_shows _ _ _ _ H). destruct xs as [|x xs]; [by rewrite decide_False by (simpl; lia)|]. rewrite decide_True by (simpl; lia). simpl.
        destruct (from _ _); [|done]. intros [= <- <- <-]. eexists. constructor.
      + destruct (make None m [d] 1) as [m1 t]. destruct (append None grow m1 t _). intros [= <- <- <-]. eexists. constructor.
      + intros [= <- <- <-]. rewrite Hl. eexists. constructor.
      + rewrite Hl. destruct (decide _) as [Hd|Hd].
        * intros [= <- <- <-]. eexists. by constructor.
        * rewrite (at_shows _ _ _ _ H). rewrite decide_True by lia. destruct (xs !! Z.to_nat i) as [d|] eqn:Ed; [|done]. intros [= <- <- <-].
          pose proof (take_drop_middle _ _ _ Ed) as Em. exists xs.
          assert (i = Z.of_nat (length (take (Z.to_nat i) xs))) as Ei by (rewrite take_length; apply lookup_lt_Some in Ed; lia).
          revert Em Ei. generalize (take (Z.to_nat i) xs) (drop (S (Z.to_nat i)) xs). intros us vs <- ->. constructor.
  Qed.
  Lemma clone_ok ds : forall (m : mem) t xs, shows m t xs ->
    exists m' t', mclone grow m t ds = (m', t') /\ shows m' t' (xs ++ ds) /\ only_touches m m' t t' /\ (forall b, m !! b <> None -> m' !! b <> None).
  Proof.
    induction ds as [|d ds IH]; intros m t xs H; simpl.
    - exists m, t. rewrite app_nil_r. split_and!; [done|done| |done]. apply touch_refl; [done|]. destruct (decide (s_cap t = 0)); auto.
    - destruct (append None grow m t [d]) as [m1 t1] eqn:E. destruct (append_shows _ _ _ _ _ _ _ _ H E) as (H1 & H2 & H3).
      destruct (IH m1 t1 _ H1) as (m2 & t2 & E2 & K1 & K2 & K3). exists m2, t2. split; [done|]. rewrite <- app_assoc in K1. split; [done|].
      split; [by eapply touch_trans|]. eauto.
  Qed.

  (** ** Any number of collections *)
  Definition good (m : mem) (vars : gmap nat slice) (ls : gmap nat (list (option loc))) : Prop :=
    (forall i, match vars !! i, ls !! i with Some s, Some xs => shows m s xs | None, None => True | _, _ => False end) /\
    (forall i j s t, i <> j -> vars !! i = Some s -> vars !! j = Some t -> apart s t).
  Lemma good_left m vars ls i s : good m vars ls -> vars !! i = Some s -> exists xs, ls !! i = Some xs /\ shows m s xs.
  Proof. intros [H _] E. specialize (H i). rewrite E in H. destruct (ls !! i) as [xs|]; [by exists xs|done]. Qed.
  Lemma good_right m vars ls i xs : good m vars ls -> ls !! i = Some xs -> exists s, vars !! i = Some s /\ shows m s xs.
  Proof. intros [H _] E. specialize (H i). rewrite E in H. destruct (vars !! i) as [s|]; [by exists s|done]. Qed.
  (** [s0]: what is changed, the variable's own slice or a new one. *)
  Lemma good_update m m' vars ls j s0 s ys : good m vars ls -> (forall i t, i <> j -> vars !! i = Some t -> apart s0 t) ->
    only_touches m m' s0 s -> shows m' s ys -> good m' (<[j := s]> vars) (<[j := ys]> ls).
  Proof.
    intros Hg Ha Ht Hs. split.
    - intros i. destruct (decide (i = j)) as [->|Hn]; [by rewrite !lookup_insert|]. rewrite !lookup_insert_ne by done.
      destruct Hg as [Hg _]. specialize (Hg i). destruct (vars !! i) as [t|] eqn:E, (ls !! i); try done. eapply frame; [done|by eapply Ha|done].
    - assert (K : forall i t, i <> j -> vars !! i = Some t -> apart s t).
      { intros i t Hn E. destruct (good_left _ _ _ _ _ Hg E) as (xs & _ & Hx). eapply frame_apart; [done|by eapply Ha|done]. }
      intros i k t u Hn. destruct (decide (i = j)) as [->|Hi], (decide (k = j)) as [->|Hk]; rewrite ?lookup_insert, ?lookup_insert_ne by done.
      + done.
      + intros [= <-] E. by eapply K.
      + intros E [= <-]. destruct (K i t Hi E) as [?|[?|?]]; [right; by left|by left|right; right; congruence].
      + destruct Hg as [_ Hg]. by apply Hg.
  Qed.
  Lemma good_insert_same {B} (ls : gmap nat B) i x : ls !! i = Some x -> <[i := x]> ls = ls.
  Proof. apply insert_id. Qed.
  Lemma nil_apart t : apart nil_slice t. Proof. by left. Qed.
  Lemma step_ok m vars ls o : good m vars ls -> no_copy o ->
    (forall ls' a, lists_step False ls o ls' a -> exists m' vars', mstep grow m vars o = Ok (m', vars', a) /\ good m' vars' ls') /\
    (forall m' vars' a, mstep grow m vars o = Ok (m', vars', a) -> exists ls', lists_step False ls o ls' a).
  Proof.
    intros Hg Hc. split.
    - intros ls' a Hs. destruct Hs as [ls j|ls i xs o ys a E Hd|ls i j xs ds E Hl|]; [| | |done]; simpl.
      + eexists _, _. split; [done|]. eapply (good_update m m); [done|intros; apply nil_apart| |apply shows_nil]. apply touch_refl; [done|by left].
      + destruct (good_right _ _ _ _ _ Hg E) as (s & Es & Hx). rewrite Es. destruct (coll_op_ok m s xs o Hx) as [K _].
        destruct (K _ _ Hd) as (m' & s' & Eo & K1 & K2 & K3). rewrite Eo. simpl. eexists _, _. split; [done|].
        eapply good_update; [done| |done|done]. intros k t Hn Et. destruct Hg as [_ Hg]. by apply (Hg i k).
      + destruct (good_right _ _ _ _ _ Hg E) as (s & Es & Hx). rewrite Es. rewrite decide_True by (rewrite (shows_len _ _ _ Hx); done).
        destruct (clone_ok ds m nil_slice [] (shows_nil m)) as (m' & t & Eo & K1 & K2 & K3). rewrite Eo. eexists _, _. split; [done|].
        eapply good_update; [done|intros; apply nil_apart|done|done].
    - intros m' vars' a. destruct o as [j|i o|i j ds|]; simpl; [| | |done].
      + intros [= <- <- <-]. eexists. constructor.
      + destruct (vars !! i) as [s|] eqn:E; [|done]. destruct (good_left _ _ _ _ _ Hg E) as (xs & El & Hx).
        destruct (mcoll_op grow m s o) as [[[m1 t] b]| |] eqn:Eo; [|done|done]. simpl. intros [= <- <- <-].
        destruct (coll_op_ok m s xs o Hx) as [_ K]. destruct (K _ _ _ Eo) as (ys & Hd). eexists. by econstructor.
      + destruct (vars !! i) as [s|] eqn:E; [|done]. destruct (good_left _ _ _ _ _ Hg E) as (xs & El & Hx).
        destruct (decide _) as [Hl|]; [|done]. destruct (mclone grow m nil_slice ds). intros [= <- <- <-]. eexists. econstructor; [done|].
        by rewrite Hl, (shows_len _ _ _ Hx).
  Qed.
  Lemma run_ok os : forall m vars ls, good m vars ls -> Forall no_copy os ->
    (forall ls' rs, lists_run False ls os ls' rs -> exists m' vars', mrun grow m vars os = Ok (m', vars', rs) /\ good m' vars' ls') /\
    (forall m' vars' rs, mrun grow m vars os = Ok (m', vars', rs) -> exists ls', lists_run False ls os ls' rs).
  Proof.
    induction os as [|o os IH]; intros m vars ls Hg Hc.
    - split.
      + intros ls' rs H. inversion H; subst. simpl. eauto.
      + simpl. intros m' vars' rs [= <- <- <-]. eexists. constructor.
    - apply Forall_cons in Hc as [Hc1 Hc2]. destruct (step_ok m vars ls o Hg Hc1) as [K1 K2]. split.
      + intros ls' rs H. inversion H; subst. destruct (K1 _ _ ltac:(eassumption)) as (m1 & v1 & E1 & G1). simpl. rewrite E1. simpl.
        destruct (IH m1 v1 _ G1 Hc2) as [J _]. destruct (J _ _ ltac:(eassumption)) as (m2 & v2 & E2 & G2). rewrite E2. simpl. eauto.
      + intros m' vars' rs. simpl. destruct (mstep grow m vars o) as [[[m1 v1] a]| |] eqn:E1; [|done|done]. simpl.
        destruct (mrun grow m1 v1 os) as [[[m2 v2] rs2]| |] eqn:E2; [|done|done]. simpl. intros [= <- <- <-].
        destruct (K2 _ _ _ eq_refl) as (ls1 & S1). destruct (K1 _ _ S1) as (m1' & v1' & E1' & G1). injection E1' as <- <-.
        destruct (IH m1 v1 ls1 G1 Hc2) as [_ J]. destruct (J _ _ _ E2) as (ls2 & R2). eexists. by econstructor.
  Qed.
  Lemma good_empty : good ∅ ∅ ∅.
  Proof. split; [intros i; by rewrite !lookup_empty|]. intros i j s t _ H. by rewrite lookup_empty in H. Qed.
  Lemma good_views m vars ls : good m vars ls -> view m <$> vars = ls.
  Proof.
    intros [H _]. apply map_eq. intros i. rewrite lookup_fmap. specialize (H i). destruct (vars !! i) as [s|], (ls !! i); try done. simpl. f_equal. apply H.
  Qed.
  Theorem collections_are_lists os : Forall no_copy os ->
    (forall ls rs, lists_run False ∅ os ls rs -> exists m vars, mrun grow ∅ ∅ os = Ok (m, vars, rs) /\ view m <$> vars = ls) /\
    (forall m vars rs, mrun grow ∅ ∅ os = Ok (m, vars, rs) -> lists_run False ∅ os (view m <$> vars) rs).
  Proof.
    intros Hc. destruct (run_ok os ∅ ∅ ∅ good_empty Hc) as [K1 K2]. split.
    - intros ls rs H. destruct (K1 _ _ H) as (m & vars & E & G). exists m, vars. split; [done|by apply good_views].
    - intros m vars rs E. destruct (K2 _ _ _ E) as (ls & H). destruct (K1 _ _ H) as (m' & vars' & E' & G). rewrite E in E'. injection E' as <- <-. by rewrite (good_views _ _ _ G).
  Qed.

  (** ** An assignment shares the array: for every growth policy. *)
  Definition aliased (a b c : option loc) : list mop := [MNew 0; MDo 0 (DPush a); MDo 0 (DPush b); MCopy 0 1; MDo 0 DPop; MDo 0 (DPush c); MDo 1 (DGet 1)].
  Lemma copies_share a b c : exists m vars, mrun grow ∅ ∅ (aliased a b c) = Ok (m, vars, [None; Some DUnit; Some DUnit; None; Some (DElement b); Some DUnit; Some (DFound c)]).
  Proof.
    pose (two := [MNew 0; MDo 0 (DPush a); MDo 0 (DPush b)]).
    assert (R : lists_run False ∅ two (<[0:=[a;b]]> (<[0:=[a]]> (<[0:=[]]> ∅))) [None; Some DUnit; Some DUnit]).
    { econstructor; [constructor|]. econstructor; [eapply (ls_do False _ 0 []); [by rewrite lookup_insert|apply dq_push]|].
      econstructor; [eapply (ls_do False _ 0 [a]); [by rewrite lookup_insert|apply dq_push]|]. constructor. }
    destruct (run_ok two ∅ ∅ ∅ good_empty) as [K _]; [by repeat constructor|]. destruct (K _ _ R) as (m & vars & E & G).
    destruct (good_right m vars _ 0 [a;b] G ltac:(by rewrite lookup_insert)) as (s & Es & (Hf & Hl & Hv)).
    assert (Happ : forall os1 m v os2, mrun grow m v (os1 ++ os2) = (r <-! mrun grow m v os1 ; let '(m1, v1, rs) := r in r2 <-! mrun grow m1 v1 os2 ; let '(m2, v2, rs2) := r2 in Ok (m2, v2, rs ++ rs2))).
    { clear. induction os1 as [|o os1 IH]; intros m v os2; simpl.
      - destruct (mrun grow m v os2) as [[[??]?]| |]; done.
      - destruct (mstep grow m v o) as [[[m1 v1] a]| |]; simpl; [|done|done]. rewrite IH. destruct (mrun grow m1 v1 os1) as [[[m2 v2] rs]| |]; simpl; [|done|done].
        destruct (mrun grow m2 v2 os2) as [[[??]?]| |]; done. }
    change (aliased a b c) with (two ++ [MCopy 0 1; MDo 0 DPop; MDo 0 (DPush c); MDo 1 (DGet 1)]). rewrite Happ, E. simpl. rewrite Es. simpl.
    rewrite lookup_insert_ne, Es by done. simpl in Hl. destruct Hf as [Hle [Hz|(l & El & Hcap)]]; [lia|].
    unfold view, cells in Hv. rewrite El in Hv. simpl in Hv. rewrite Hl in Hv.
    assert (exists r, drop (s_off s) l = a :: b :: r) as (r & Er).
    { destruct (drop (s_off s) l) as [|x [|y r]]; simpl in Hv; try done. injection Hv as -> ->. eauto. }
    unfold at_index, cells, upto. rewrite El, Hl. simpl. rewrite Er. simpl. rewrite lookup_insert. simpl.
    unfold append. simpl. rewrite decide_True by lia. rewrite El. simpl. rewrite lookup_insert_ne, lookup_insert_ne, lookup_insert by done. simpl. rewrite Hl. simpl.
    rewrite lookup_insert. simpl. 
    assert (drop (s_off s) (overwrite l (s_off s + 1) [c]) = a :: c :: r) as ->; [|simpl; eauto].
    unfold overwrite. rewrite drop_app_le by (rewrite take_length; lia). rewrite skipn_firstn_comm. replace (s_off s + 1 - s_off s) with 1 by lia. rewrite Er. simpl. f_equal. f_equal.
    replace (s_off s + 1 + 1) with (s_off s + 2) by lia. rewrite <- drop_drop, Er. done.
  Qed.
End Coll.
Lemma copies_are_not_lists (a b c : option loc) : exists os, forall grow, exists m vars,
  mrun grow ∅ ∅ os = Ok (m, vars, [None; Some DUnit; Some DUnit; None; Some (DElement b); Some DUnit; Some (DFound c)]) /\
  exists ls, lists_run True ∅ os ls [None; Some DUnit; Some DUnit; None; Some (DElement b); Some DUnit; Some (DFound b)].
Proof.
  exists (aliased a b c). intros grow. destruct (copies_share grow a b c) as (m & vars & E). exists m, vars. split; [done|]. eexists.
  econstructor; [constructor|]. econstructor; [eapply (ls_do _ _ 0 []); [by simplify_map_eq|apply dq_push]|].
  econstructor; [eapply (ls_do _ _ 0 [a]); [by simplify_map_eq|apply dq_push]|]. econstructor; [eapply (ls_copy _ _ 0 1 [a;b]); [done|by simplify_map_eq]|].
  econstructor; [eapply (ls_do _ _ 0 [a;b]); [by simplify_map_eq|apply (dq_pop [a])]|]. econstructor; [eapply (ls_do _ _ 0 [a]); [by simplify_map_eq|apply dq_push]|].
  econstructor; [eapply (ls_do _ _ 1 [a;b]); [by simplify_map_eq|apply (dq_get [a] [] b)]|]. constructor.
Qed.

(** ** The recency list *)
Section PileProofs.
  Variable grow : nat -> nat -> nat.
  Notation mem := (memory bytes).
  Lemma index_of_none k l : index_of k l = None <-> k ∉ l.
  Proof.
    induction l as [|x l IH]; simpl; [split; [intros _; apply not_elem_of_nil|done]|]. rewrite not_elem_of_cons. destruct (decide (x = k)) as [->|Hn]; [split; [done|intros []; done]|].
    destruct (index_of k l) eqn:E; simpl; [|]. - split; [done|]. intros [_ H]. apply IH in H. done. - split; [|done]. intros _. split; [congruence|by apply IH].
  Qed.
  Lemma index_of_some k l i : index_of k l = Some i -> exists xs ys, l = xs ++ k :: ys /\ k ∉ xs /\ length xs = i.
  Proof.
    revert i. induction l as [|x l IH]; intros i; simpl; [done|]. destruct (decide (x = k)) as [->|Hn].
    - intros [= <-]. exists [], l. split; [done|]. split; [apply not_elem_of_nil|done].
    - destruct (index_of k l) as [j|]; [|done]. intros [= <-]. destruct (IH j eq_refl) as (xs & ys & -> & H & L). exists (x :: xs), ys. split; [done|]. rewrite not_elem_of_cons. split; [split; [congruence|done]|simpl; lia].
  Qed.
  Lemma index_of_split k xs ys : k ∉ xs -> index_of k (xs ++ k :: ys) = Some (length xs).
  Proof.
    induction xs as [|x xs IH]; simpl; [by rewrite decide_True|]. rewrite not_elem_of_cons. intros [H1 H2]. rewrite decide_False by congruence. by rewrite IH.
  Qed.
  Lemma keys_ok (m : mem) s xs n : shows m s xs -> pile_keys m s n = if decide (n <= length xs) then Some (take n xs) else None.
  Proof.
    intros H. induction n as [|n IH]; [done|]. cbn [pile_keys]. rewrite IH. destruct (decide (n <= length xs)) as [Hn|Hn]; simpl.
    - rewrite (at_shows _ _ _ _ H). destruct (decide (S n <= length xs)).
      + rewrite decide_True by lia. rewrite Nat2Z.id. destruct (xs !! n) as [x|] eqn:E; [|apply lookup_ge_None in E; lia]. simpl. by rewrite (take_S_r _ _ _ E).
      + rewrite decide_False by lia. done.
    - by rewrite decide_False by lia.
  Qed.
  Lemma pile_step_ok (m : mem) s xs o : shows m s xs ->
    (forall ys a, pile_step xs o ys a -> exists m' s', pstep grow m s o = Some (m', s', a) /\ shows m' s' ys) /\
    (forall m' s' a, pstep grow m s o = Some (m', s', a) -> exists ys, pile_step xs o ys a).
  Proof.
    intros H. pose proof H as (_ & Hl & Hv). split.
    - intros ys a Hs. destruct Hs as [xs k|xs k ys Hk|xs k Hk|xs ys]; simpl.
      + destruct (append [] grow m s [k]) as [m' s'] eqn:E. destruct (append_shows _ _ _ _ _ _ _ _ H E) as (H1 & _). by exists m', s'.
      + unfold pile_remove. rewrite Hv, (index_of_split _ _ _ Hk). rewrite app_length in Hl. simpl in Hl.
        destruct (upto_shows m s _ (length xs) H) as (t & Et & T1 & _); [rewrite app_length; lia|]. rewrite Et. rewrite take_app in T1. rewrite Hl. destruct (decide _) as [Hd|Hd].
        * simpl. destruct ys; [|simpl in Hd; lia]. rewrite app_nil_r. by exists m, t.
        * destruct (from_shows m s _ (length xs + 1) H) as (u & Eu & U1 & _); [rewrite app_length; simpl; lia|]. rewrite Eu. simpl.
          assert (view m u = ys) as ->. { destruct U1 as (_ & _ & ->). by rewrite <- drop_drop, drop_app. }
          destruct (append [] grow m t ys) as [m' s'] eqn:E. destruct (append_shows _ _ _ _ _ _ _ _ T1 E) as (H1 & _). by exists m', s'.
      + unfold pile_remove. rewrite Hv. rewrite (proj2 (index_of_none _ _) Hk). simpl. by exists m, s.
      + rewrite (keys_ok _ _ _ _ H). rewrite decide_True by (rewrite app_length; lia). rewrite take_app. simpl.
        destruct (from_shows m s _ (length xs) H) as (u & Eu & U1 & _); [rewrite app_length; lia|]. rewrite Eu. simpl. rewrite drop_app in U1. by exists m, u.
    - intros m' s' a. destruct o as [k|k|n]; simpl.
      + destruct (append [] grow m s [k]). intros [= <- <- <-]. eexists. constructor.
      + destruct (pile_remove grow m s k) as [[m1 t]|]; [|done]. simpl. intros [= <- <- <-]. destruct (index_of k xs) as [i|] eqn:E.
        * destruct (index_of_some _ _ _ E) as (us & vs & -> & Hk & _). eexists. by constructor.
        * apply index_of_none in E. eexists. by apply ps_absent.
      + rewrite (keys_ok _ _ _ _ H). destruct (decide _) as [Hn|]; [|done]. simpl. destruct (from s n); [|done]. simpl. intros [= <- <- <-].
        exists (drop n xs). pose proof (take_drop n xs) as Em. assert (n = length (take n xs)) as Ei by (rewrite take_length; lia).
        revert Em Ei. generalize (take n xs) (drop n xs). intros us vs <- ->. constructor.
  Qed.
  Lemma pile_run_ok os : forall (m : mem) s xs, shows m s xs ->
    (forall ys rs, pile_run xs os ys rs -> exists m' s', prun grow m s os = Some (m', s', rs) /\ shows m' s' ys) /\
    (forall m' s' rs, prun grow m s os = Some (m', s', rs) -> exists ys, pile_run xs os ys rs).
  Proof.
    induction os as [|o os IH]; intros m s xs H.
    - split; [intros ys rs R; inversion R; subst; simpl; eauto|]. simpl. intros m' s' rs [= <- <- <-]. eexists. constructor.
    - destruct (pile_step_ok m s xs o H) as [K1 K2]. split.
      + intros ys rs R. inversion R; subst. destruct (K1 _ _ ltac:(eassumption)) as (m1 & s1 & E1 & S1). simpl. rewrite E1. simpl.
        destruct (IH m1 s1 _ S1) as [J _]. destruct (J _ _ ltac:(eassumption)) as (m2 & s2 & E2 & S2). rewrite E2. simpl. eauto.
      + intros m' s' rs. simpl. destruct (pstep grow m s o) as [[[m1 s1] a]|] eqn:E1; [|done]. simpl.
        destruct (prun grow m1 s1 os) as [[[m2 s2] rs2]|] eqn:E2; [|done]. simpl. intros [= <- <- <-].
        destruct (K2 _ _ _ eq_refl) as (ys & S1). destruct (K1 _ _ S1) as (m1' & s1' & E1' & G1). injection E1' as <- <-.
        destruct (IH m1 s1 ys G1) as [_ J]. destruct (J _ _ _ E2) as (zs & R2). eexists. by econstructor.
  Qed.
  Theorem pile_is_a_list os :
    (forall ys rs, pile_run [] os ys rs -> exists m s, prun grow ∅ nil_slice os = Some (m, s, rs) /\ view m s = ys) /\
    (forall m s rs, prun grow ∅ nil_slice os = Some (m, s, rs) -> pile_run [] os (view m s) rs).
  Proof.
    destruct (pile_run_ok os ∅ nil_slice [] (shows_nil ∅)) as [K1 K2]. split.
    - intros ys rs R. destruct (K1 _ _ R) as (m & s & E & (_ & _ & V)). eauto.
    - intros m s rs E. destruct (K2 _ _ _ E) as (ys & R). destruct (K1 _ _ R) as (m' & s' & E' & (_ & _ & V)). rewrite E in E'. injection E' as <- <-. by rewrite V.
  Qed.
End PileProofs.
