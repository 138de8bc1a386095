(** * Proofs for C126. *)
From Verif Require Import GoBase DatasetModel DatasetSpec SliceModel SliceSpec SliceProofs WalkModel WalkSpec.

Section Walk.
  Variable grow : nat -> nat -> nat.
  Notation mem := (memory (option loc)).
  (** The variable's slice uses the array. *)
  Definition on (a : loc) (s : slice) : Prop := s_cap s <> 0 /\ s_arr s = a.
  Definition away (a : loc) (vars : gmap nat slice) : Prop := forall j s, vars !! j = Some s -> ~ on a s.
  Definition home (a : loc) (i : nat) (s : slice) (vars : gmap nat slice) : Prop := vars !! i = Some s /\ on a s.

  Lemma off_after (m : mem) m' (a : loc) s s' : only_touches m m' s s' -> m !! a <> None -> ~ on a s -> m' !! a = m !! a /\ ~ on a s'.
  Proof.
    intros [H1 H2] Ha Hs. split.
    - apply H1; [done|]. destruct (decide (s_cap s = 0)); [by left|right]. intros ->. by apply Hs.
    - intros [Hc He]. destruct H2 as [?|[[? E]|E]]; [done| |congruence]. apply Hs. split; [done|congruence].
  Qed.
  Lemma op_touches (m : mem) s xs o m' s' x : shows m s xs -> mcoll_op grow m s o = Ok (m', s', x) -> only_touches m m' s s'.
  Proof.
    intros Hs E. destruct (coll_op_ok grow m s xs o Hs) as [K1 K2]. destruct (K2 _ _ _ E) as (ys & Hd).
    destruct (K1 _ _ Hd) as (m1 & s1 & E1 & _ & Ht & _). rewrite E in E1. by injection E1 as -> ->.
  Qed.
  Lemma clone_touches (m : mem) ds m' t : mclone grow m nil_slice ds = (m', t) -> only_touches m m' nil_slice t.
  Proof.
    intros E. destruct (clone_ok grow ds m nil_slice [] (shows_nil m)) as (m1 & t1 & E1 & _ & Ht & _). rewrite E in E1. by injection E1 as -> ->.
  Qed.
  Lemma nil_off a : ~ on a nil_slice. Proof. by intros [H _]. Qed.
  Lemma away_insert a j s vars : away a vars -> ~ on a s -> away a (<[j := s]> vars).
  Proof. intros H Hs k t. destruct (decide (k = j)) as [->|Hn]; [rewrite lookup_insert; by intros [= <-]|rewrite lookup_insert_ne by done; apply H]. Qed.

  (** Once no variable uses the array it stays as it is. *)
  Lemma away_step (m : mem) vars ls o m' vars' x a : good m vars ls -> no_copy o -> mstep grow m vars o = Ok (m', vars', x) ->
    m !! a <> None -> away a vars -> m' !! a = m !! a /\ away a vars'.
  Proof.
    intros Hg Hn E Ha Haw. destruct o as [j|j o|j k ds|j k]; simpl in E; [| | |done].
    - injection E as <- <- <-. split; [done|]. apply away_insert; [done|apply nil_off].
    - destruct (vars !! j) as [s|] eqn:Ej; [|done]. destruct (mcoll_op grow m s o) as [[[m1 t] y]| |] eqn:Eo; simpl in E; try done.
      injection E as <- <- <-. destruct (good_left _ _ _ _ _ Hg Ej) as (xs & _ & Hs).
      destruct (off_after _ _ a _ _ (op_touches _ _ _ _ _ _ _ Hs Eo) Ha (Haw _ _ Ej)) as [? ?]. split; [done|]. by apply away_insert.
    - destruct (vars !! j) as [s|] eqn:Ej; [|done]. destruct (decide _); [|done]. destruct (mclone grow m nil_slice ds) as [m1 t] eqn:Ec. injection E as <- <- <-.
      destruct (off_after _ _ a _ _ (clone_touches _ _ _ _ Ec) Ha (nil_off a)) as [? ?]. split; [done|]. by apply away_insert.
  Qed.

  (** A step while the collection uses the array: it writes one cell behind its end, or nothing. *)
  Inductive effect (a : loc) (i : nat) (s : slice) (L : list (option loc)) (o : mop) (m' : mem) (vars' : gmap nat slice) : Prop :=
  | eff_push d s' : o = MDo i (DPush d) -> m' !! a = Some (overwrite L (s_off s + s_len s) [d]) -> s_len s < s_cap s -> home a i s' vars' ->
      s_off s' = s_off s -> s_cap s' = s_cap s -> s_len s' = S (s_len s) -> effect a i s L o m' vars'
  | eff_stay s' : m' !! a = Some L -> home a i s' vars' -> s_off s <= s_off s' -> s_off s' + s_cap s' = s_off s + s_cap s ->
      s_off s' + s_len s' + pops i (Other o) = s_off s + s_len s -> pushes i (Other o) = 0 -> effect a i s L o m' vars'
  | eff_away : m' !! a = Some L -> away a vars' -> effect a i s L o m' vars'.

  Lemma good_away (m : mem) vars ls a i s : good m vars ls -> home a i s vars -> forall j t, j <> i -> vars !! j = Some t -> ~ on a t.
  Proof. intros [_ H] [E [H1 H2]] j t Hj Ej [H3 H4]. destruct (H i j s t ltac:(done) E Ej) as [?|[?|?]]; congruence. Qed.
  Lemma away_of (vars : gmap nat slice) a i s : (forall j t, j <> i -> vars !! j = Some t -> ~ on a t) -> ~ on a s -> away a (<[i := s]> vars).
  Proof. intros H Hs k t. destruct (decide (k = i)) as [->|Hn]; [rewrite lookup_insert; by intros [= <-]|rewrite lookup_insert_ne by done; by apply H]. Qed.
  Lemma same_or_away (m : mem) vars a i s L o s' : (forall j t, j <> i -> vars !! j = Some t -> ~ on a t) -> on a s -> m !! a = Some L ->
    s_arr s' = s_arr s -> s_off s <= s_off s' -> s_off s' + s_cap s' = s_off s + s_cap s -> s_off s' + s_len s' + pops i (Other o) = s_off s + s_len s -> pushes i (Other o) = 0 ->
    effect a i s L o m (<[i := s']> vars).
  Proof.
    intros Ho Hs Hm Ha H1 H2 H3 H4. destruct (decide (s_cap s' = 0)) as [E0|E0].
    - apply eff_away; [done|]. apply away_of; [done|]. by intros [? _].
    - eapply (eff_stay a i s L o m _ s'); try done. split; [by rewrite lookup_insert|]. split; [done|]. destruct Hs. congruence.
  Qed.
  Lemma home_other a i s j t (vars : gmap nat slice) : j <> i -> home a i s vars -> home a i s (<[j := t]> vars).
  Proof. intros Hj [H1 H2]. split; [|done]. by rewrite lookup_insert_ne. Qed.

  Lemma home_step (m : mem) vars ls o m' vars' x a i s L : good m vars ls -> no_copy o -> mstep grow m vars o = Ok (m', vars', x) ->
    m !! a = Some L -> home a i s vars -> effect a i s L o m' vars'.
  Proof.
    intros Hg Hn E Ha Hh. pose proof (good_away _ _ _ _ _ _ Hg Hh) as Ho. assert (Ha' : m !! a <> None) by congruence.
    destruct o as [j|j o|j k ds|j k]; simpl in E; [| | |done].
    - injection E as <- <- <-. destruct (decide (j = i)) as [->|Hj].
      + apply eff_away; [done|]. apply away_of; [done|apply nil_off].
      + eapply (eff_stay a i s L _ _ _ s); simpl; [done|by apply home_other|lia|lia|lia|done].
    - destruct (decide (j = i)) as [->|Hj].
      + destruct Hh as [Ei Hon]. rewrite Ei in E. destruct (good_left _ _ _ _ _ Hg Ei) as (xs & _ & Hs). pose proof (shows_len _ _ _ Hs) as Hl.
        assert (Hlen : s_len s <= s_cap s) by (destruct Hs as [[? _] _]; done).
        destruct o as [d| | |d| |z]; cbn [mcoll_op] in E.
        * destruct (append None grow m s [d]) as [m1 t] eqn:Ep. simpl in E. injection E as <- <- <-. unfold append in Ep. destruct (decide _) as [Hc|Hc].
          -- destruct Hon as [Hc0 Har]. rewrite Har, Ha in Ep. injection Ep as <- <-. simpl in Hc.
             eapply (eff_push a i s L _ _ _ d _); [done|by rewrite lookup_insert|lia| | | |]; [split; [by rewrite lookup_insert|split; simpl; done]|done|done|simpl; lia].
          -- destruct (make_shows None m _ _ m1 t Ep ltac:(rewrite app_length, view_length by apply Hs; lia)) as (_ & Hf & Hk & _). apply eff_away; [by rewrite Hk|]. apply away_of; [done|]. intros [_ <-]. congruence.
        * destruct (at_index m s _) as [d|] eqn:E0; [|done]. unfold upto in E. destruct (decide (s_len s - 1 <= s_len s)) as [H1|]; [|lia]. simpl in E. injection E as <- <- <-.
          unfold at_index in E0. destruct (decide _); [|done].
          apply same_or_away; simpl; try done; rewrite ?decide_True by done; lia.
        * destruct (at_index m s 0) as [d|] eqn:E0; [|done]. unfold from in E. destruct (decide (1 <= s_len s)) as [H1|]; [|done]. simpl in E. injection E as <- <- <-.
          apply same_or_away; simpl; try done; lia.
        * destruct (make None m [d] 1) as [m1 t] eqn:Em. destruct (append None grow m1 t (view m1 s)) as [m2 t2] eqn:Ep. simpl in E. injection E as <- <- <-.
          destruct (make_shows None m [d] 1 m1 t Em ltac:(simpl; lia)) as (Ht & Hf & Hk & _).
          destruct (append_shows None grow m1 t [d] _ m2 t2 Ht Ep) as (_ & Hto & _).
          assert (Hoff : ~ on a t) by (intros [_ <-]; congruence).
          destruct (off_after _ _ a _ _ Hto ltac:(by rewrite Hk) Hoff) as [E2 ?]. apply eff_away; [rewrite E2, Hk by done; done|]. by apply away_of.
        * injection E as <- <- <-. apply same_or_away; simpl; try done; lia.
        * destruct (decide _).
          -- simpl in E. injection E as <- <- <-. apply same_or_away; simpl; try done; lia.
          -- destruct (at_index m s z); [|done]. simpl in E. injection E as <- <- <-. apply same_or_away; simpl; try done; lia.
      + destruct (vars !! j) as [sj|] eqn:Ej; [|done]. destruct (mcoll_op grow m sj o) as [[[m1 t] y]| |] eqn:Eo; simpl in E; try done. injection E as <- <- <-.
        destruct (good_left _ _ _ _ _ Hg Ej) as (xs & _ & Hs).
        destruct (off_after _ _ a _ _ (op_touches _ _ _ _ _ _ _ Hs Eo) Ha' (Ho _ _ Hj Ej)) as [E1 _].
        eapply (eff_stay a i s L _ _ _ s); [by rewrite E1|by apply home_other|lia|lia| |].
        * simpl. destruct o; rewrite ?decide_False by done; lia.
        * simpl. destruct o; rewrite ?decide_False by done; done.
    - destruct (vars !! j) as [sj|] eqn:Ej; [|done]. destruct (decide _); [|done]. destruct (mclone grow m nil_slice ds) as [m1 t] eqn:Ec. injection E as <- <- <-.
      destruct (off_after _ _ a _ _ (clone_touches _ _ _ _ Ec) Ha' (nil_off a)) as [E1 Ht]. destruct (decide (k = i)) as [->|Hk].
      + apply eff_away; [by rewrite E1|]. by apply away_of.
      + eapply (eff_stay a i s L _ _ _ s); simpl; [by rewrite E1|by apply home_other|lia|lia|lia|done].
  Qed.
End Walk.
