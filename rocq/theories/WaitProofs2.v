(** * C124: nobody waits for itself; everything comes to an end; without others the methods are those of DatasetModel.v. *)
From Verif Require Import GoBase GoStrings LangModel DatasetModel DatasetSpec DatasetProofs3 ParModel MeanProofs SnapModel TellModel WaitModel WaitSpec WaitProofs.
Local Open Scope nat_scope.

Section Circle.
  Context {A : Type} (rank : loc -> nat).
  Implicit Types (g : routine A) (gs : list (routine A)).
  Definition sound g : Prop :=
    tidy rank (stay [] (fun _ => True)) (fun _ => True) (held g) (code g) /\ (asked g = true -> exists l k, code g = Take true l k).
  Lemma sound_step i h gs h' gs' : ranked rank h -> Forall sound gs -> moves i (h, gs) (h', gs') -> Forall sound gs'.
  Proof.
    intros Hh Hs Hm. inversion Hm as [? ? hs b l k E Hb|? ? hs l k E|? ? hs l k E Ht|? ? hs b w l k E Hin|? ? hs b w k E]; subst;
      pose proof (proj1 (Forall_lookup _ _) Hs _ _ E) as [Ht0 Ha]; cbn in Ht0, Ha; apply Forall_insert; try exact Hs.
    - split; cbn; [exact (proj2 Ht0)|]. intros ->. destruct (Ha eq_refl) as (? & ? & E'). discriminate E'.
    - split; cbn; [exact Ht0|]. intros _. by exists l, k.
    - split; cbn; [exact (proj2 Ht0)|]. discriminate.
    - destruct Ht0 as (hs' & -> & Hk). split; cbn.
      + destruct (decide ((w, l) = (w, l))) as [_|n]; [exact Hk|by destruct n].
      + intros ->. destruct (Ha eq_refl) as (? & ? & E'). discriminate E'.
    - split; cbn; [exact (Ht0 h Hh)|]. intros ->. destruct (Ha eq_refl) as (? & ? & E'). discriminate E'.
  Qed.
  Lemma sound_history T (path : nat -> heap * list (routine A)) : history T path -> (forall m, m <= T -> ranked rank (path m).1) ->
    Forall sound (path 0).2 -> forall m, m <= T -> Forall sound (path m).2.
  Proof.
    intros Hp Hr H0 m. induction m as [|m IH]; intros Hm; [exact H0|].
    destruct (Hp m ltac:(lia)) as [i Hi]. destruct (path m) as [h gs] eqn:E1, (path (S m)) as [h' gs'] eqn:E2.
    refine (sound_step i h gs h' gs' _ _ Hi).
    - pose proof (Hr m ltac:(lia)) as Hq. rewrite E1 in Hq. exact Hq.
    - exact (IH ltac:(lia)).
  Qed.

  (** The rank of the lock that is wanted, readers above writers. *)
  Definition level g : nat := match code g with Take w l _ => 2 * rank l + (if w then 0 else 1) | _ => 0 end.
  Lemma waits_down gs i j g g' : Forall sound gs -> waits gs i j -> gs !! i = Some g -> gs !! j = Some g' ->
    (exists w l k, code g' = Take w l k) -> level g' < level g.
  Proof.
    intros Hs Hw Ei Ej (w2 & l2 & k2 & E2).
    destruct Hw as [i j g1 g2 w l k w' Ei' Ej' E1 Hin Hor|i j g1 g2 l k k' Ei' Ej' E1 E1' Ha].
    - rewrite Ei in Ei'; injection Ei' as <-. rewrite Ej in Ej'; injection Ej' as <-.
      pose proof (proj1 (Forall_lookup _ _) Hs _ _ Ej) as [Ht _]. rewrite E2 in Ht. destruct Ht as [Hu _].
      specialize (Hu _ Hin). cbn in Hu. unfold level. rewrite E1, E2. destruct w, w2; lia.
    - rewrite Ei in Ei'; injection Ei' as <-. rewrite Ej in Ej'; injection Ej' as <-. unfold level. rewrite E1, E1'. lia.
  Qed.
  Lemma waits_wants gs i j : waits gs i j -> exists g, gs !! i = Some g /\ exists w l k, code g = Take w l k.
  Proof. intros [i' j' g g' w l k w' E1 E2 E3 H1 H2|i' j' g g' l k k' E1 E2 E3 H1 H2]; exists g; eauto. Qed.
  Lemma waits_there gs i j : waits gs i j -> exists g, gs !! j = Some g.
  Proof. intros [i' j' g g' w l k w' E1 E2 E3 H1 H2|i' j' g g' l k k' E1 E2 E3 H1 H2]; exists g'; eauto. Qed.
  Lemma chain_wants gs i j : tc (waits gs) i j -> exists g, gs !! i = Some g /\ exists w l k, code g = Take w l k.
  Proof. intros [? ? Hw|? ? ? Hw _]; exact (waits_wants gs _ _ Hw). Qed.
  Lemma chain_down gs i j : Forall sound gs -> tc (waits gs) i j -> forall g g', gs !! i = Some g -> gs !! j = Some g' ->
    (exists w l k, code g' = Take w l k) -> level g' < level g.
  Proof.
    intros Hs Hc. induction Hc as [i j Hw|i j z Hw Hc IH]; intros g g' Ei Ej Hg'.
    - exact (waits_down gs i j g g' Hs Hw Ei Ej Hg').
    - destruct (chain_wants gs j z Hc) as (g1 & E1 & Hg1). pose proof (IH g1 g' E1 Ej Hg').
      pose proof (waits_down gs i j g g1 Hs Hw Ei E1 Hg1). lia.
  Qed.
  Lemma no_circle gs i : Forall sound gs -> ~ tc (waits gs) i i.
  Proof.
    intros Hs Hc.
    destruct (chain_wants gs i i Hc) as (g & E & Hg). pose proof (chain_down gs i i Hs Hc g g E E Hg). lia.
  Qed.

  Definition asks (l : loc) (g : routine A) : bool :=
    match code g with Take true l' _ => asked g && bool_decide (l = l') | _ => false end.
  Lemma asks_spec l g : asks l g = true <-> asked g = true /\ exists k, code g = Take true l k.
  Proof.
    unfold asks. destruct (code g) as [a| | |[] l' k|w l' k|w k]; split; try discriminate; try (intros [_ [? ?]]; discriminate).
    - intros [Ha ->%bool_decide_eq_true]%andb_true_iff. eauto.
    - intros [Ha [k' E]]. injection E as <- _. rewrite Ha. cbn. by apply bool_decide_eq_true.
  Qed.
  Lemma barred_dec l gs : {barred l gs} + {~ barred l gs}.
  Proof.
    destruct (decide (Exists (fun g => (true, l) ∈ held g \/ asks l g = true) gs)) as [H|H].
    - left. apply Exists_exists in H as (g & Hg & [Hh|Ha]); exists g; split; auto. right. by apply asks_spec.
    - right. intros (g & Hg & Hor). apply H, Exists_exists. exists g. split; [exact Hg|]. destruct Hor as [Hh|Ha]; [by left|right]. by apply asks_spec.
  Qed.
  Lemma taken_dec l gs : {taken l gs} + {~ taken l gs}.
  Proof.
    destruct (decide (Exists (fun g => (true, l) ∈ held g \/ (false, l) ∈ held g) gs)) as [H|H].
    - left. apply Exists_exists in H as (g & Hg & [Hh|Ha]); [by exists g, true|by exists g, false].
    - right. intros (g & w & Hg & Hh). apply H, Exists_exists. exists g. split; [exact Hg|]. destruct w; auto.
  Qed.
  (** Who cannot move waits for somebody. *)
  Lemma stopped h gs i g : Forall sound gs -> gs !! i = Some g -> ~ over g -> can_move (h, gs) i \/ exists j, waits gs i j.
  Proof.
    intros Hs Ei Ho. pose proof (proj1 (Forall_lookup _ _) Hs _ _ Ei) as [Ht Ha]. destruct g as [hs b p]. cbn in Ht, Ha.
    destruct p as [a| | |[] l k|w l k|w k]; try (destruct (Ho I)).
    - destruct b.
      + destruct (taken_dec l gs) as [Hk|Hk].
        * right. destruct Hk as (g' & w & Hg' & Hin). apply elem_of_list_lookup in Hg' as [j Ej]. exists j.
          exact (waits_holder gs i j _ g' true l k w Ei Ej eq_refl Hin (or_introl eq_refl)).
        * left. eexists. exact (moves_write i h gs hs l k Ei Hk).
      + left. eexists. exact (moves_ask i h gs hs l k Ei).
    - destruct (barred_dec l gs) as [Hk|Hk].
      + right. destruct Hk as (g' & Hg' & Hor). apply elem_of_list_lookup in Hg' as [j Ej]. exists j. destruct Hor as [Hin|[Has [k' E']]].
        * exact (waits_holder gs i j _ g' false l k true Ei Ej eq_refl Hin (or_intror eq_refl)).
        * exact (waits_asked gs i j _ g' l k k' Ei Ej eq_refl E' Has).
      + left. eexists. exact (moves_read i h gs hs b l k Ei Hk).
    - left. destruct Ht as (hs' & -> & _). eexists. refine (moves_leave i h gs _ b w l k Ei _). apply elem_of_cons. by left.
    - left. eexists. exact (moves_look i h gs hs b w k Ei).
  Qed.
  Lemma waits_alive gs i j g' : no_dead_holder gs -> waits gs i j -> gs !! j = Some g' -> ~ over g'.
  Proof.
    intros Hd Hw Ej Ho. destruct Hw as [i j g1 g2 w l k w' Ei' Ej' E1 Hin Hor|i j g1 g2 l k k' Ei' Ej' E1 E1' Ha].
    - rewrite Ej in Ej'; injection Ej' as <-. rewrite (Hd g' (elem_of_list_lookup_2 _ _ _ Ej) Ho) in Hin. by apply elem_of_nil in Hin.
    - rewrite Ej in Ej'; injection Ej' as <-. unfold over in Ho. by rewrite E1' in Ho.
  Qed.
  Lemma goes_on h gs : Forall sound gs -> no_dead_holder gs -> forall n i g, level g < n -> gs !! i = Some g -> ~ over g ->
    exists j, rtc (waits gs) i j /\ can_move (h, gs) j.
  Proof.
    intros Hs Hd n. induction n as [|n IH]; intros i g Hn Ei Ho; [lia|].
    destruct (stopped h gs i g Hs Ei Ho) as [Hc|[j Hw]]; [exists i; split; [apply rtc_refl|exact Hc]|].
    destruct (waits_there gs i j Hw) as [g' Ej]. pose proof (waits_alive gs i j g' Hd Hw Ej) as Ho'.
    assert (Hg' : (exists w l k, code g' = Take w l k) \/ can_move (h, gs) j).
    { destruct (stopped h gs j g' Hs Ej Ho') as [Hc|[z Hz]]; [by right|left].
      destruct (waits_wants gs j z Hz) as (g1 & E1 & H1). rewrite Ej in E1; injection E1 as <-. exact H1. }
    destruct Hg' as [Hg'|Hc].
    - pose proof (waits_down gs i j g g' Hs Hw Ei Ej Hg').
      destruct (IH j g' ltac:(lia) Ej Ho') as (z & Hz & Hc). exists z. split; [|exact Hc]. exact (rtc_l _ _ _ _ Hw Hz).
    - exists j. split; [apply rtc_once; exact Hw|exact Hc].
  Qed.
End Circle.

Section Main.
  Context (F : golib) (ord : heap -> gmap bytes value -> list (bytes * value)) (Hord : order_ok ord).
  Context {A : Type} (rank : loc -> nat) (path : nat -> heap * list (routine A)) (T : nat) (h : heap) (ps : list (prog A)).
  Context (H0 : path 0 = (h, map fresh ps)) (Hps : Forall (caller F ord) ps) (Hp : history T path).
  Context (Hr : forall m, m <= T -> ranked rank (path m).1).
  Lemma all_sound : Forall (sound rank) (path T).2.
  Proof using All.
    refine (sound_history rank T path Hp Hr _ T (le_n T)). rewrite H0. cbn. apply Forall_map. eapply Forall_impl; [exact Hps|].
    intros p Hc. split; [|discriminate]. exact (tidy_caller rank F ord Hord p Hc).
  Qed.
  Lemma history_circle i : ~ tc (waits (path T).2) i i.
  Proof using All. exact (no_circle rank _ i all_sound). Qed.
  Lemma history_goes_on i g : no_dead_holder (path T).2 -> (path T).2 !! i = Some g -> ~ over g ->
    exists j, rtc (waits (path T).2) i j /\ can_move (path T) j.
  Proof using All.
    intros Hd Ei Ho. pose proof all_sound as Hs. destruct (path T) as [h' gs]. cbn in *.
    exact (goes_on rank h' gs Hs Hd (S (level rank g)) i g (Nat.lt_succ_diag_r _) Ei Ho).
  Qed.
End Main.

(** ** No endless run *)
Section Ends.
  Context {A : Type}.
  Inductive shrinks : routine A -> routine A -> Prop :=
  | shrinks_take hs hs' b b' w l k : shrinks (Routine hs' b' k) (Routine hs b (Take w l k))
  | shrinks_ask hs l k : shrinks (Routine hs true (Take true l k)) (Routine hs false (Take true l k))
  | shrinks_leave hs hs' b b' w l k : shrinks (Routine hs' b' k) (Routine hs b (Leave w l k))
  | shrinks_look hs hs' b b' w k h : shrinks (Routine hs' b' (k h)) (Routine hs b (Look w k)).
  Lemma shrinks_acc (p : prog A) : forall hs b, Acc shrinks (Routine hs b p).
  Proof.
    induction p as [a| | |w l k IH|w l k IH|w k IH]; intros hs b.
    - apply Acc_intro. intros y Hy. inversion Hy.
    - apply Acc_intro. intros y Hy. inversion Hy.
    - apply Acc_intro. intros y Hy. inversion Hy.
    - assert (Ht : forall hs', Acc shrinks (Routine hs' true (Take w l k))).
      { intros hs'. apply Acc_intro. intros y Hy. inversion Hy; subst. apply IH. }
      destruct b; [exact (Ht hs)|]. apply Acc_intro. intros y Hy. inversion Hy; subst; [apply IH|apply Ht].
    - apply Acc_intro. intros y Hy. inversion Hy; subst. apply IH.
    - apply Acc_intro. intros y Hy. inversion Hy; subst. apply IH.
  Qed.
  Inductive one_shrinks : list (routine A) -> list (routine A) -> Prop :=
  | one_head g' g gs : shrinks g' g -> one_shrinks (g' :: gs) (g :: gs)
  | one_tail g gs' gs : one_shrinks gs' gs -> one_shrinks (g :: gs') (g :: gs).
  Lemma one_acc gs : Acc one_shrinks gs.
  Proof.
    induction gs as [|g gs IH]; [apply Acc_intro; intros y Hy; inversion Hy|].
    destruct g as [hs b p]. pose proof (shrinks_acc p hs b) as Hg. revert gs IH. induction Hg as [g _ IHg].
    intros gs IH. induction IH as [gs Hgs IHgs]. apply Acc_intro. intros y Hy. inversion Hy; subst.
    - apply IHg; [assumption|]. apply Acc_intro. exact Hgs.
    - apply IHgs. assumption.
  Qed.
  Lemma one_insert gs i g g' : gs !! i = Some g -> shrinks g' g -> one_shrinks (<[i := g']> gs) gs.
  Proof.
    revert i. induction gs as [|x gs IH]; intros [|i] E Hs; try discriminate E.
    - cbn in E. injection E as ->. exact (one_head g' g gs Hs).
    - cbn in *. exact (one_tail x _ gs (IH i E Hs)).
  Qed.
  Lemma moves_shrinks i h gs h' gs' : moves i (h, gs) (h', gs') -> one_shrinks gs' gs.
  Proof.
    intros Hm. inversion Hm as [? ? hs b l k E Hb|? ? hs l k E|? ? hs l k E Ht|? ? hs b w l k E Hin|? ? hs b w k E]; subst;
      (refine (one_insert gs i _ _ E _); constructor).
  Qed.
  Lemma no_endless (path : nat -> heap * list (routine A)) : ~ forall m, exists i, moves i (path m) (path (S m)).
  Proof.
    intros Hp. assert (H : forall gs, Acc one_shrinks gs -> forall m, (path m).2 = gs -> False).
    { intros gs Ha. induction Ha as [gs _ IH]. intros m E. destruct (Hp m) as [i Hi].
      destruct (path m) as [h gs1], (path (S m)) as [h' gs'] eqn:E2. cbn in E. subst gs1.
      apply (IH gs' (moves_shrinks i h gs h' gs' Hi) (S m)). by rewrite E2. }
    exact (H _ (one_acc _) 0 eq_refl).
  Qed.
End Ends.
