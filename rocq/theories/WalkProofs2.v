(** * Proofs for C126: the array during a Clone, and what is read. *)
From Verif Require Import GoBase DatasetModel DatasetSpec SliceModel SliceSpec SliceProofs WalkModel WalkSpec WalkProofs.

Lemma overwrite_one (L : list (option loc)) q d p : q < length L -> overwrite L q [d] !! p = if decide (p = q) then Some d else L !! p.
Proof.
  intros H. unfold overwrite. assert (E : take q L ++ [d] ++ drop (q + length [d]) L = <[q := d]> L).
  { rewrite insert_take_drop by done. simpl. by rewrite Nat.add_1_r. }
  rewrite E. destruct (decide (p = q)) as [->|Hn]; [by rewrite list_lookup_insert|by rewrite list_lookup_insert_ne].
Qed.
Lemma total_S f ev b t : b <= t -> total f ev b (S t) = total f ev b t + f (ev t).
Proof.
  intros H. unfold total. replace (S t - b) with (S (t - b)) by lia. rewrite seq_S, map_app. simpl. replace (b + (t - b)) with t by lia.
  induction (seq b (t - b)) as [|k ks IH]; simpl; lia.
Qed.
Lemma total_0 f ev b : total f ev b b = 0.
Proof. unfold total. by rewrite Nat.sub_diag. Qed.

Section Path.
  Variables (grow : nat -> nat -> nat) (i T : nat) (ev : nat -> event) (path : nat -> moment).
  Hypothesis Hr : runs grow i T ev path.
  Notation mem_at t := (path t).1.1.
  Notation vars_at t := (path t).1.2.

  (** What a step does to the memory. *)
  Lemma step_cases t : t < T -> (exists o x, ev t = Other o /\ no_copy o /\ mstep grow (mem_at t) (vars_at t) o = Ok (mem_at (S t), vars_at (S t), x) /\ (path (S t)).2 = (path t).2) \/
    ((forall o, ev t <> Other o) /\ (path (S t)).1 = (path t).1).
  Proof using Hr.
    intros Ht. destruct Hr as [_ Hs]. destruct (Hs t Ht) as [E Hn]. destruct (path t) as [[m v] w]. destruct (ev t) as [o| | |] eqn:Ev; simpl in E.
    - left. destruct (mstep grow m v o) as [[[m' v'] x]| |] eqn:Em; try done. injection E as E. exists o, x. rewrite <- E. simpl. done.
    - right. split; [done|]. destruct w; try done. destruct (v !! i) as [s|]; simpl in E; [|done]. by injection E as <-.
    - right. split; [done|]. destruct w as [|s got| |]; try done. destruct (decide _); [|done]. destruct (at_index _ _ _); by injection E as <-.
    - right. split; [done|]. destruct w as [|s got| |]; try done. destruct (decide _); [|done]. by injection E as <-.
  Qed.
  Lemma good_path t : t <= T -> exists ls, good (mem_at t) (vars_at t) ls.
  Proof using Hr.
    induction t as [|t IH]; intros Ht.
    - destruct Hr as [-> _]. exists ∅. apply good_empty.
    - destruct (IH ltac:(lia)) as (ls & Hg). destruct (step_cases t ltac:(lia)) as [(o & x & _ & Hn & E & _)|[_ E]]; [|rewrite E; by exists ls].
      destruct (step_ok grow _ _ _ o Hg Hn) as [K1 K2]. destruct (K2 _ _ _ E) as (ls' & Hl). destruct (K1 _ _ Hl) as (m1 & v1 & E1 & Hg1).
      rewrite E in E1. injection E1 as <- <-. by exists ls'.
  Qed.

  Variables (b : nat) (s0 : slice).
  Hypothesis (Hb : b <= T) (Es : vars_at b !! i = Some s0) (Hc0 : s_cap s0 <> 0).
  Notation a0 := (s_arr s0).
  Notation lo := (s_off s0).
  Notation n0 := (s_len s0).
  Notation gone t := (total (pops i) ev b t).
  Notation came t := (total (pushes i) ev b t).
  Lemma start : exists ls L, good (mem_at b) (vars_at b) ls /\ mem_at b !! a0 = Some L /\ lo + s_cap s0 <= length L /\ n0 <= s_cap s0 /\
    forall j, j < n0 -> L !! (lo + j) = shown i (path b) !! j.
  Proof using Hr Hb Es Hc0.
    destruct (good_path b Hb) as (ls & Hg). destruct (good_left _ _ _ _ _ Hg Es) as (xs & _ & Hs). destruct Hs as [[H1 [?|(L & EL & H2)]] [H3 H4]]; [done|].
    exists ls, L. split_and!; try done. intros j Hj. unfold shown. rewrite Es. simpl. unfold view, cells. rewrite EL. simpl. rewrite lookup_take by done. by rewrite lookup_drop.
  Qed.
  Definition state (t : nat) (L : list (option loc)) : Prop :=
    mem_at t !! a0 = Some L /\ lo + s_cap s0 <= length L /\
    (away a0 (vars_at t) \/ exists s, home a0 i s (vars_at t) /\ lo <= s_off s /\ s_off s + s_cap s = lo + s_cap s0 /\ s_off s + s_len s + gone t = lo + n0 + came t) /\
    (forall p x, lo <= p < lo + n0 -> L !! p = Some x -> exists t', b <= t' <= t /\ x ∈ shown i (path t')) /\
    (forall j, j < n0 -> (forall t', b <= t' <= t -> gone t' <= came t' + (n0 - 1 - j)) -> L !! (lo + j) = shown i (path b) !! j).
  Lemma keep_seen t (L : list (option loc)) : (forall p x, lo <= p < lo + n0 -> L !! p = Some x -> exists t', b <= t' <= t /\ x ∈ shown i (path t')) ->
    forall p x, lo <= p < lo + n0 -> L !! p = Some x -> exists t', b <= t' <= S t /\ x ∈ shown i (path t').
  Proof. intros H p x Hp E. destruct (H p x Hp E) as (t' & ? & ?). exists t'. split; [lia|done]. Qed.
  Lemma state_at t : b <= t <= T -> exists L, state t L.
  Proof using Hr Hb Es Hc0.
    intros [H1 H2]. induction H1 as [|t H1 IH].
    - destruct start as (ls & L & Hg & EL & Hlen & Hcap & Hini). exists L. split_and!; try done.
      + right. exists s0. rewrite !total_0. split_and!; try lia. split; [done|]. by split.
      + intros p x Hp E. exists b. split; [lia|]. apply (elem_of_list_lookup_2 _ (p - lo)). rewrite <- Hini by lia. by replace (lo + (p - lo)) with p by lia.
      + intros j Hj _. by apply Hini.
    - destruct (IH ltac:(lia)) as (L & EL & Hlen & Hw & Hseen & Hex). destruct (good_path t ltac:(lia)) as (ls & Hg).
      assert (Hex' : forall j, j < n0 -> (forall t', b <= t' <= S t -> gone t' <= came t' + (n0 - 1 - j)) -> L !! (lo + j) = shown i (path b) !! j).
      { intros j Hj Hk. apply Hex; [done|]. intros t' Ht'. apply Hk. lia. }
      assert (Hsum : forall f, total f ev b (S t) = total f ev b t + f (ev t)) by (intros f; by apply total_S).
      destruct (step_cases t ltac:(lia)) as [(o & x & Ev & Hn & E & _)|[Ev E]].
      + destruct Hw as [Haw|(s & Hh & Ho & Hcap & Hsm)].
        * destruct (away_step grow _ _ _ _ _ _ _ a0 Hg Hn E ltac:(congruence) Haw) as [E1 Haw']. exists L. split_and!; [by rewrite E1|done|by left|by apply keep_seen|done].
        * destruct (home_step grow _ _ _ _ _ _ _ a0 i s L Hg Hn E EL Hh) as [d s' -> EL' Hlt Hh' E1 E2 E3|s' EL' Hh' E1 E2 E3 E4|EL' Haw'].
          -- assert (Hq : s_off s + s_len s < length L) by lia.
             exists (overwrite L (s_off s + s_len s) [d]). split; [done|]. split; [rewrite overwrite_length; simpl; lia|]. split; [|split].
             ++ right. exists s'. split; [done|]. rewrite !Hsum, Ev. simpl. rewrite decide_True by done. lia.
             ++ intros p y Hp. rewrite overwrite_one by done. destruct (decide (p = _)) as [->|Hpn].
                ** intros [= <-]. exists (S t). split; [lia|]. unfold shown. destruct Hh' as [-> [_ Ha]]. simpl. unfold view, cells. rewrite Ha, EL'. simpl.
                   apply (elem_of_list_lookup_2 _ (s_len s)). rewrite lookup_take by lia. rewrite lookup_drop, overwrite_one by done. rewrite decide_True by lia. done.
                ** intros Ey. destruct (Hseen p y Hp Ey) as (t' & ? & ?). exists t'. split; [lia|done].
             ++ intros j Hj Hk. rewrite overwrite_one by done. rewrite decide_False; [by apply Hex'|]. specialize (Hk t ltac:(lia)). lia.
          -- exists L. split_and!; [done|done| |by apply keep_seen|done]. right. exists s'. split; [done|]. rewrite !Hsum, Ev, E4. lia.
          -- exists L. split_and!; [done|done|by left|by apply keep_seen|done].
      + exists L. split_and!; [by rewrite E|done| |by apply keep_seen|done].
        destruct Hw as [Haw|(s & Hh & Ho & Hcap & Hsm)]; [left; by rewrite E|right]. exists s. rewrite E, !Hsum.
        assert (pops i (ev t) = 0 /\ pushes i (ev t) = 0) as [-> ->] by (destruct (ev t) as [o| | |]; [by destruct (Ev o)|done|done|done]). split; [done|]. lia.
  Qed.
End Path.

(** The walker. *)
Definition reads (b t : nat) (s : slice) (path : nat -> moment) (got : list (option loc)) : Prop :=
  length got <= s_len s /\ forall j x, got !! j = Some x -> exists t', b <= t' <= t /\ cells (path t').1.1 s !! j = Some x.
Lemma reads_S b t s path got : reads b t s path got -> reads b (S t) s path got.
Proof. intros [H1 H2]. split; [done|]. intros j x E. destruct (H2 j x E) as (t' & ? & ?). exists t'. split; [lia|done]. Qed.

Section Walker.
  Variables (grow : nat -> nat -> nat) (i T : nat) (ev : nat -> event) (path : nat -> moment).
  Hypothesis Hr : runs grow i T ev path.
  Definition before (t : nat) : Prop := (path t).2 = Idle /\ forall b, b < t -> ev b <> Begin.
  Definition during (t b : nat) (s : slice) : Prop := b < t /\ ev b = Begin /\ (forall b', b' < t -> ev b' = Begin -> b' = b) /\ (path b).1.2 !! i = Some s /\
    exists got, reads b t s path got /\ ((path t).2 = Walking s got \/ (path t).2 = Over got /\ length got = s_len s).
  Lemma cell_there t b s j : b <= t <= T -> (path b).1.2 !! i = Some s -> j < s_len s -> is_Some (cells (path t).1.1 s !! j).
  Proof using Hr.
    intros Ht Es Hj. assert (Hcap : s_len s <= s_cap s).
    { destruct (good_path grow i T ev path Hr b ltac:(lia)) as (ls & Hg). by destruct (good_left _ _ _ _ _ Hg Es) as (xs & _ & [[? _] _]). }
    destruct (state_at grow i T ev path Hr b s ltac:(lia) Es ltac:(lia) t Ht) as (L & EL & Hlen & _). unfold cells. rewrite EL. simpl. rewrite lookup_drop. apply lookup_lt_is_Some. lia.
  Qed.
  Lemma walker_at t : t <= T -> before t \/ exists b s, during t b s.
  Proof using Hr.
    induction t as [|t IH]; intros Ht.
    - left. destruct Hr as [E _]. split; [by rewrite E|lia].
    - destruct (step_cases grow i T ev path Hr t ltac:(lia)) as [(o & x & Ev & _ & _ & Ew)|[Ev _]].
      + destruct (IH ltac:(lia)) as [[H1 H2]|(b & s & H1 & H2 & H3 & H4 & got & H5 & H6)].
        * left. split; [by rewrite Ew|]. intros b Hb. destruct (decide (b = t)) as [->|]; [by rewrite Ev|apply H2; lia].
        * right. exists b, s. split_and!; [lia|done| |done|].
          -- intros b' Hb' Eb. destruct (decide (b' = t)) as [->|]; [by rewrite Ev in Eb|]. apply H3; [lia|done].
          -- exists got. split; [by apply reads_S|]. by rewrite Ew.
      + destruct Hr as [_ Hs]. destruct (Hs t ltac:(lia)) as [E _]. destruct (IH ltac:(lia)) as [[H1 H2]|(b & s & H1 & H2 & H3 & H4 & got & H5 & H6)].
        * right. destruct (path t) as [[m v] w] eqn:Ep. simpl in H1. subst w. destruct (ev t) eqn:Et; simpl in E; [by destruct (Ev o)| |done|done].
          destruct (v !! i) as [s|] eqn:Es; simpl in E; [|done]. injection E as E. exists t, s. split_and!; [lia|done| |by rewrite Ep|].
          -- intros b' Hb' Eb. destruct (decide (b' = t)); [done|]. destruct (H2 b' ltac:(lia) Eb).
          -- exists []. split; [split; [simpl; lia|done]|]. left. by rewrite <- E.
        * right. exists b, s. assert (H3' : ev t <> Begin).
          { intros Et. rewrite Et in E. destruct (path t) as [[m v] w]. simpl in H6, E. destruct H6 as [->|[-> _]]; done. }
          split_and!; [lia|done| |done|].
          { intros b' Hb' Eb. destruct (decide (b' = t)) as [->|]; [done|]. apply H3; [lia|done]. }
          destruct (path t) as [[m v] w] eqn:Ep. simpl in H6. destruct (ev t) eqn:Et; simpl in E; [by destruct (Ev o)|done| |].
          -- destruct H6 as [->|[-> _]]; [|done]. destruct (decide (length got < s_len s)) as [Hl|]; [|done].
             destruct (cell_there t b s (length got) ltac:(lia) H4 Hl) as [x Ex]. rewrite Ep in Ex. simpl in Ex.
             assert (Ea : at_index m s (Z.of_nat (length got)) = Some x) by (unfold at_index; rewrite decide_True by lia; by rewrite Nat2Z.id).
             rewrite Ea in E. injection E as E. exists (got ++ [x]). split; [|left; by rewrite <- E].
             destruct (reads_S _ _ _ _ _ H5) as [_ H7]. split; [rewrite app_length; simpl; lia|]. intros j y Ej. destruct (decide (j < length got)) as [Hj|Hj].
             ++ rewrite lookup_app_l in Ej by done. by apply H7.
             ++ rewrite lookup_app_r in Ej by lia. destruct (j - length got) as [|q] eqn:Eq; [|done]. injection Ej as <-. exists t. split; [lia|].
                replace j with (length got) by lia. by rewrite Ep.
          -- destruct H6 as [->|[-> _]]; [|done]. destruct (decide (length got = s_len s)) as [Hl|]; [|done]. injection E as E. exists got. split; [by apply reads_S|]. right. by rewrite <- E.
  Qed.
  Lemma never_torn : (path T).2 <> Torn.
  Proof using Hr. intros E. destruct (walker_at T (le_n T)) as [[H _]|(b & s & _ & _ & _ & _ & got & _ & [H|[H _]])]; congruence. Qed.
  Lemma finished b got : (path T).2 = Over got -> ev b = Begin -> b < T -> exists s, (path b).1.2 !! i = Some s /\ length got = s_len s /\ length (shown i (path b)) = s_len s /\ reads b T s path got.
  Proof using Hr.
    intros E Eb Hb. destruct (walker_at T (le_n T)) as [[H _]|(b1 & s & H1 & H2 & H3 & H4 & got' & H5 & [H|[H H6]])]; [congruence|congruence|].
    assert (got' = got) as -> by congruence. rewrite (H3 b Hb Eb). exists s. split_and!; try done.
    destruct (good_path grow i T ev path Hr b1 ltac:(lia)) as (ls & Hg). destruct (good_left _ _ _ _ _ Hg H4) as (xs & _ & Hs). unfold shown. rewrite H4. simpl. apply view_length, Hs.
  Qed.
  Lemma walk_seen b got : (path T).2 = Over got -> ev b = Begin -> b < T ->
    length got = length (shown i (path b)) /\ forall x, x ∈ got -> exists t, b <= t <= T /\ x ∈ shown i (path t).
  Proof using Hr.
    intros E Eb Hb. destruct (finished b got E Eb Hb) as (s & Es & H1 & H2 & _ & H3). split; [congruence|]. intros x Hx. apply elem_of_list_lookup in Hx as [j Hj].
    pose proof (lookup_lt_Some _ _ _ Hj) as Hl. destruct (H3 j x Hj) as (t & Ht & Ec).
    destruct (good_path grow i T ev path Hr b ltac:(lia)) as (ls & Hg). destruct (good_left _ _ _ _ _ Hg Es) as (xs & _ & [[Hcap _] _]).
    destruct (state_at grow i T ev path Hr b s ltac:(lia) Es ltac:(lia) t Ht) as (L & EL & Hlen & _ & Hseen & _). unfold cells in Ec. rewrite EL in Ec. simpl in Ec. rewrite lookup_drop in Ec.
    destruct (Hseen (s_off s + j) x ltac:(lia) Ec) as (t' & ? & ?). exists t'. split; [lia|done].
  Qed.
  Lemma walk_place b got j : (path T).2 = Over got -> ev b = Begin -> b < T -> j < length got ->
    (forall t, b <= t <= T -> total (pops i) ev b t <= total (pushes i) ev b t + (length got - 1 - j)) -> got !! j = shown i (path b) !! j.
  Proof using Hr.
    intros E Eb Hb Hj Hk. destruct (finished b got E Eb Hb) as (s & Es & H1 & H2 & _ & H3). destruct (lookup_lt_is_Some_2 got j Hj) as [x Ex]. rewrite Ex.
    destruct (H3 j x Ex) as (t & Ht & Ec). destruct (good_path grow i T ev path Hr b ltac:(lia)) as (ls & Hg). destruct (good_left _ _ _ _ _ Hg Es) as (xs & _ & [[Hcap _] _]).
    destruct (state_at grow i T ev path Hr b s ltac:(lia) Es ltac:(lia) t Ht) as (L & EL & Hlen & _ & _ & Hex). unfold cells in Ec. rewrite EL in Ec. simpl in Ec. rewrite lookup_drop in Ec.
    rewrite <- Ec. apply Hex; [lia|]. intros t' Ht'. rewrite <- H1. apply Hk. lia.
  Qed.
  Lemma walk_exact b got : (path T).2 = Over got -> ev b = Begin -> b < T -> (forall t, b <= t <= T -> total (pops i) ev b t <= total (pushes i) ev b t) -> got = shown i (path b).
  Proof using Hr.
    intros E Eb Hb Hk. destruct (walk_seen b got E Eb Hb) as [Hl _]. apply list_eq. intros j. destruct (decide (j < length got)) as [Hj|Hj].
    - apply (walk_place b); try done. intros t Ht. specialize (Hk t Ht). lia.
    - rewrite !lookup_ge_None_2 by lia. done.
  Qed.
End Walker.

(** The list [a; b], the end of which is taken off and put back in the other order: the walk finds a twice. *)
Definition twist : list event :=
  [Other (MNew 0); Other (MDo 0 (DPush (Some 1%positive))); Other (MDo 0 (DPush (Some 2%positive))); Begin; Read; Other (MDo 0 DPop); Other (MDo 0 DPop);
   Other (MDo 0 (DPush (Some 2%positive))); Other (MDo 0 (DPush (Some 1%positive))); Read; End].
(** The list [a; b] while others Shift, Push, Unshift and Pop what they pushed. *)
Definition calm : list event :=
  [Other (MNew 0); Other (MDo 0 (DPush (Some 1%positive))); Other (MDo 0 (DPush (Some 2%positive))); Begin; Other (MDo 0 (DPush (Some 3%positive))); Read; Other (MDo 0 DPop);
   Other (MDo 0 DShift); Other (MDo 0 (DUnshift None)); Read; End].
Definition doubling (c n : nat) : nat := 2 * c.
Fixpoint at_time (es : list event) (t : nat) (st : moment) : moment :=
  match t, es with S t', e :: es' => match walk doubling 0 e st with Some st' => at_time es' t' st' | None => st end | _, _ => st end.
Definition follow (es : list event) (t : nat) : moment := at_time es t (∅, ∅, Idle).
Definition events (es : list event) (t : nat) : event := default Begin (es !! t).
Lemma twist_runs : runs doubling 0 11 (events twist) (follow twist).
Proof. split; [done|]. intros t Ht. do 11 (destruct t as [|t]; [split; [vm_compute; reflexivity|exact I]|]). lia. Qed.
Lemma calm_runs : runs doubling 0 11 (events calm) (follow calm).
Proof. split; [done|]. intros t Ht. do 11 (destruct t as [|t]; [split; [vm_compute; reflexivity|exact I]|]). lia. Qed.
Lemma twist_case : exists grow ev path, runs grow 0 11 ev path /\ ev 3 = Begin /\ (path 11).2 = Over [Some 1%positive; Some 1%positive] /\ forall t, t <= 11 -> NoDup (shown 0 (path t)).
Proof.
  exists doubling, (events twist), (follow twist). split; [exact twist_runs|]. split; [done|]. split; [vm_compute; reflexivity|].
  intros t Ht. do 12 (destruct t as [|t]; [refine (bool_decide_unpack _ _); vm_compute; exact I|]). lia.
Qed.
Lemma calm_case : runs doubling 0 11 (events calm) (follow calm) /\ (follow calm 11).2 = Over [Some 1%positive; Some 2%positive] /\ shown 0 (follow calm 3) = [Some 1%positive; Some 2%positive] /\
  shown 0 (follow calm 11) = [None; Some 2%positive] /\ map (fun t => total (pops 0) (events calm) 3 t) [4;5;7;9] = [0;0;1;1] /\ map (fun t => total (pushes 0) (events calm) 3 t) [4;5;7;9] = [0;1;1;1].
Proof. split; [exact calm_runs|]. vm_compute. done. Qed.
