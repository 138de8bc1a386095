(** * Printing among other goroutines (C123): the text of a copy; examples. *)
From Verif Require Import GoBase GoStrings GoStringsProofs LangModel DatasetModel DatasetSpec DatasetProofs DatasetProofs2 DatasetProofs3 TextSpec TextProofs
  ParModel ParProofs MeanSpec MeanProofs SnapModel SnapSpec SnapProofs SnapProofs2 TellModel TellSpec TellProofs.
Local Open Scope nat_scope.

Section Text.
  Context (F : golib) (h : heap).
  Lemma braced_perm start ws ws' t : ws ≡ₚ ws' -> braced start ws t -> braced start ws' t.
  Proof. intros Hp (so & body & [H1 H2] & H3 & ->). exists so, body. split; [|done]. split; [by rewrite H1|done]. Qed.
  Lemma says_prints : (forall l t, unfolds h l t -> forall go s, says F go t s -> prints F h go l s) /\
    (forall l es, un_entries h l es -> forall go ws, says_entries F go es ws -> Forall2 (fun kv ks => kv.1 = ks.1 /\ prints_value F h go kv.2 ks.2) l ws) /\
    (forall xs ts, un_elements h xs ts -> forall ws, says_elements F ts ws -> elements F h xs ws).
  Proof.
    apply (unfolds_mutind h (fun l t => forall go s, says F go t s -> prints F h go l s)
      (fun l es => forall go ws, says_entries F go es ws -> Forall2 (fun kv ks => kv.1 = ks.1 /\ prints_value F h go kv.2 ks.2) l ws)
      (fun xs ts => forall ws, says_elements F ts ws -> elements F h xs ws)).
    - intros l m ents es El Hp _ IH go s Hs. inversion Hs as [|? ? ws ? Hw Hb| |]; subst. specialize (IH go ws Hw).
      assert (Hk : ents.*1 = ws.*1) by (clear -IH; induction IH as [|[k v] [k' s'] ? ? [E _] _ IH']; cbn in *; congruence).
      assert (Hn : NoDup ents.*1) by (rewrite Hp; apply NoDup_fst_map_to_list). rewrite Hk in Hn.
      set (text := fun k => default [] ((list_to_map ws : gmap bytes bytes) !! k)).
      assert (Ht : forall k s', (k, s') ∈ ws -> text k = s') by (intros k s' Hin; unfold text; by rewrite (elem_of_list_to_map_1 _ k s')).
      apply (pr_ds F h go l m text); [done|..].
      + intros k v Hv. assert (Hin : (k, v) ∈ ents) by (rewrite Hp; by apply elem_of_map_to_list).
        apply elem_of_list_lookup in Hin as [i Hi]. destruct (Forall2_lookup_l _ _ _ _ _ IH Hi) as ([k' s'] & Hi' & E & Hpv). cbn in E, Hpv. subst k'.
        rewrite (Ht k s') by (by eapply elem_of_list_lookup_2). done.
      + eapply braced_perm; [|exact Hb]. rewrite <- Hp. clearbody text. clear -IH Ht. apply Permutation_refl'.
        induction IH as [|[k v] [k' s'] ents ws [E _] _ IH']; [done|]. cbn in E. subst k'. cbn [map fst snd]. rewrite (Ht k s') by (by left). f_equal. apply IH'. intros k0 s0 Hin. apply Ht. by right.
    - intros l d t El _ IH go s Hs. inversion Hs; subst. eapply pr_ts; [exact El|]. by apply IH.
    - intros l b xs ts El _ IH go s Hs. inversion Hs as [| | |? ? ? ws s' Hw Hnu]; subst. unfold list_at in El. destruct b.
      + eapply pr_collts; [exact El|by apply IH|done].
      + eapply pr_coll; [exact El|by apply IH|done].
    - intros go ws Hw. inversion Hw; subst. constructor.
    - intros k v l es Hv _ IH go ws Hw. inversion Hw as [|? ? ? s ? ws' Hs Hw']; subst. constructor; [|by apply IH]. split; [done|]. inversion Hs; subst. by constructor.
    - intros k d t l es _ IHd _ IH go ws Hw. inversion Hw as [|? ? ? s ? ws' Hs Hw']; subst. constructor; [|by apply IH]. split; [done|]. cbn. constructor. by apply IHd.
    - intros ws Hw. inversion Hw; subst. constructor.
    - intros d t xs ts _ IHd _ IH ws Hw. inversion Hw; subst. constructor; [by apply IHd|by apply IH].
  Qed.
End Text.

(** ** Among goroutines that keep the data whole *)
Lemma course_whole {A} T (path : nat -> heap * list (act A)) : course T path -> SnapSpec.whole (path 0).1 -> Forall (mindful (path 0).1) (path 0).2 ->
  forall m, m <= T -> SnapSpec.whole (path m).1 /\ Forall (mindful (path m).1) (path m).2 /\ (m < T -> kept (path m).1 (path (S m)).1).
Proof.
  intros Hc Hw Hps. assert (Hstep : forall m, m < T -> SnapSpec.whole (path m).1 -> Forall (mindful (path m).1) (path m).2 ->
    SnapSpec.whole (path (S m)).1 /\ Forall (mindful (path (S m)).1) (path (S m)).2 /\ kept (path m).1 (path (S m)).1).
  { intros m Hm Hwm Hpm. pose proof (Hc m Hm) as Hst. destruct Hst as [h ps j w k E]. cbn [fst snd] in *. rewrite Forall_forall in Hpm.
    assert (Hj : mindful h (Act w k)) by (apply Hpm; by eapply elem_of_list_lookup_2). destruct (Hj h Hwm (kept_refl h)) as (H1 & H2 & H3). split; [done|]. split; [|done].
    apply Forall_forall. intros p Hp. apply elem_of_list_lookup in Hp as [j' Hj']. destruct (decide (j = j')) as [<-|Hne].
    - rewrite list_lookup_insert in Hj' by (by eapply lookup_lt_Some). by injection Hj' as <-.
    - rewrite list_lookup_insert_ne in Hj' by done. eapply mindful_kept; [exact H2|]. apply Hpm. by eapply elem_of_list_lookup_2. }
  assert (Hall : forall m, m <= T -> SnapSpec.whole (path m).1 /\ Forall (mindful (path m).1) (path m).2).
  { induction m as [|m IH]; intros Hm; [done|]. destruct IH as [H1 H2]; [lia|]. destruct (Hstep m) as (H3 & H4 & _); [lia|done|done|done]. }
  intros m Hm. destruct (Hall m Hm) as [H1 H2]. split; [done|]. split; [done|]. intros Hlt. by apply Hstep.
Qed.
Section Course.
  Context (F : golib) (ord : heap -> gmap bytes value -> list (bytes * value)) (n : nat) (go : bool) (l : loc) (path : nat -> heap * list (act bytes)) (T i : nat) (s : bytes).
  Context (Hord : order_ok ord) (Hc : course T path) (Hw : SnapSpec.whole (path 0).1) (Hl : is_Some ((path 0).1 !! l)) (Hm : Forall (mindful (path 0).1) (path 0).2)
    (H0 : (path 0).2 !! i = Some (p_show F ord n go l)) (HT : (path T).2 !! i = Some (Ret s)).
  Lemma tell_course : exists j t, j <= T /\ snap (fun m => (path m).1) 0 l j t /\ says F go t s.
  Proof using All.
    destruct (course_during path T i s _ 0 Hc HT (Nat.le_0_l _) H0) as (j & Hj & D). pose proof (course_whole T path Hc Hw Hm) as Ha.
    destruct (show_snap F ord Hord (fun m => (path m).1) T (fun m Hm' => proj1 (Ha m Hm')) (fun m Hm' => proj2 (proj2 (Ha m (Nat.lt_le_incl _ _ Hm'))) Hm') n go l 0 j s Hl Hj D)
      as (t & H1 & H2). by exists j, t.
  Qed.
  Lemma tell_still : (forall m x, m <= T -> reach (path 0).1 l x -> (path m).1 !! x = (path 0).1 !! x) -> prints F (path 0).1 go l s.
  Proof using All.
    intros Hs. destruct tell_course as (j & t & Hj & H1 & H2). eapply (proj1 (says_prints F (path 0).1)); [|exact H2].
    eapply (proj1 (snap_still (fun m => (path m).1) (path 0).1 T l Hs)); [exact H1|done|constructor].
  Qed.
  Lemma tell_flat d : (forall m, m <= T -> (path m).1 !! l = Some (OTs (Some d)) /\ exists mp, (path m).1 !! d = Some (ODs mp) /\ forall k r, mp !! k <> Some (VRef r)) ->
    exists m, m <= T /\ prints F (path m).1 go l s.
  Proof using All.
    intros Hs. destruct tell_course as (j & t & Hj & H1 & H2). destruct (flat_snap (fun m => (path m).1) T l d j t H1 Hj Hs) as (m & Hm' & Hu).
    exists m. split; [done|]. by eapply (proj1 (says_prints F (path m).1)).
  Qed.
End Course.
Lemma tell_no_panic F ord n go l h0 (ps0 : list (act bytes)) h ps i : order_ok ord -> SnapSpec.whole h0 -> is_Some (h0 !! l) -> Forall (mindful h0) ps0 ->
  ps0 !! i = Some (p_show F ord n go l) -> rtc par_step (h0, ps0) (h, ps) -> ps !! i <> Some Fail.
Proof.
  intros Hord Hw Hl Hps Hi Hst E. destruct (unharmed_steps i _ _ Hst Hw Hps) as (p & Hp & Hu); [eexists; split; [exact Hi|]; by apply unharmed_show|].
  cbn [snd] in Hp. rewrite E in Hp. by injection Hp as <-.
Qed.
Lemma mindful_show F ord n go h l : order_ok ord -> is_Some (h !! l) -> mindful h (p_show F ord n go l).
Proof. intros. by apply unharmed_mindful, unharmed_show. Qed.

(** ** Two datasets, one after the other *)
Definition sets_b_then_a : act bytes :=
  _ <~ write (fun h => dset 9 h 4%positive (B "x") (VInt KInt 1)); _ <~ write (fun h => dset 9 h 2%positive (B "x") (VInt KInt 1)); Ret [].
Definition start3 (F : golib) : heap * list (act bytes) := (two, [p_show F in_order 9 false 1%positive; sets_b_then_a]).
Definition seen3 : bytes := B "xcore.XDataset{a:xcore.XDataset{x:1} b:xcore.XDataset{x:0}}".
Definition other_text (r : outcome bytes) : bool := match r with Ok s => negb (bool_decide (s = seen3)) | _ => false end.
Lemma other_at F m : m <= 7 -> other_text (show F in_order 9 (by_now sch1 (start3 F) m).1 false 1%positive) = true.
Proof.
  intros Hm. assert (Hall : forallb (fun m => other_text (show F in_order 9 (by_now sch1 (start3 F) m).1 false 1%positive)) (seq 0 8) = true) by (vm_compute; reflexivity).
  rewrite forallb_forall in Hall. apply Hall, in_seq. lia.
Qed.
Lemma tell_not_one_moment : forall F, exists (path : nat -> heap * list (act bytes)) T, course T path /\ path 0 = (two, [p_show F in_order 9 false 1%positive; sets_b_then_a]) /\
  (path T).2 !! 0 = Some (Ret seen3) /\ forall m, m <= T -> exists s, show F in_order 9 (path m).1 false 1%positive = Ok s /\ s <> seen3.
Proof.
  intros F. exists (by_now sch1 (start3 F)), 7. split; [apply (by_now_course sch1); vm_compute; reflexivity|]. split; [reflexivity|]. split; [vm_compute; reflexivity|].
  intros m Hm. apply (other_at F) in Hm. destruct (show _ _ _ _ _ _) as [s| |]; try done. exists s. split; [done|]. by apply negb_true_iff, bool_decide_eq_false in Hm.
Qed.
(** ** A list is printed while it grows *)
Definition sets : act bytes := _ <~ write (fun h => dset 9 h 4%positive (B "n") (VStr (B "z"))); Ret [].
Definition pushes : act bytes := _ <~ write (fun h => cpush h 3%positive (Some 6%positive)); Ret [].
Definition start4 (F : golib) : heap * list (act bytes) := (people, [p_show F in_order 9 false 1%positive; sets; pushes]).
Lemma tell_case : forall F, SnapSpec.whole people /\ Forall (mindful people) (start4 F).2 /\
  (exists h, rtc par_step (start4 F) (h, [Ret (B "xcore.XDataset{list:XDatasetCollectionTS[0:xcore.XDataset{n:z} ]}"); Ret []; Ret []])) /\
  (exists h, rtc par_step (start4 F) (h, [Ret (B "xcore.XDataset{list:XDatasetCollectionTS[0:xcore.XDataset{n:x} 1:xcore.XDataset{n:y} ]}"); Ret []; Ret []])).
Proof.
  intros F. assert (Hw : SnapSpec.whole people) by (apply whole_sane, sane_people). split; [done|]. split; [|split].
  - cbn [snd start4]. constructor; [apply mindful_show; [apply in_order_ok|by eexists]|]. constructor; [apply mindful_bind; [by apply mindful_set|done]|].
    constructor; [|done]. apply mindful_bind; [apply mindful_push; by eexists|done].
  - apply (ran [0; 0; 0; 1; 0; 0; 2] (start4 F)). vm_compute. reflexivity.
  - apply (ran [2; 0; 0; 0; 0; 0; 0; 0; 1] (start4 F)). vm_compute. reflexivity.
Qed.
(** ** One text *)
Lemma numbered_det ws : forall z s s', numbered z ws s -> numbered z ws s' -> s = s'.
Proof. induction ws as [|w ws IH]; intros z s s' H1 H2; inversion H1; inversion H2; subst; [done|]. do 3 f_equal. f_equal. f_equal. by eapply IH. Qed.
Lemma says_det F : (forall go t s, says F go t s -> forall s', says F go t s' -> s = s') /\ (forall go es ws, says_entries F go es ws -> forall ws', says_entries F go es ws' -> ws = ws') /\
  (forall ts ws, says_elements F ts ws -> forall ws', says_elements F ts ws' -> ws = ws').
Proof.
  apply (says_mutind F (fun go t s => forall s', says F go t s' -> s = s') (fun go es ws => forall ws', says_entries F go es ws' -> ws = ws') (fun ts ws => forall ws', says_elements F ts ws' -> ws = ws')).
  - intros go v s' H. by inversion H.
  - intros go es ws s _ IH Hb s' H. inversion H as [|? ? ws' ? Hw Hb'| |]; subst. rewrite <- (IH _ Hw) in Hb'. by eapply braced_unique.
  - intros go t s _ IH s' H. inversion H; subst. by apply IH.
  - intros go b ts ws s _ IH Hn s' H. inversion H as [| | |? ? ? ws' s'' Hw Hn']; subst. rewrite <- (IH _ Hw) in Hn'. by rewrite (numbered_det _ _ _ _ Hn Hn').
  - intros go ws' H. by inversion H.
  - intros go k t s es ws _ IHs _ IH ws' H. inversion H as [|? ? ? s1 ? ws1 H1 H2]; subst. by rewrite (IHs _ H1), (IH _ H2).
  - intros ws' H. by inversion H.
  - intros t s ts ws _ IHs _ IH ws' H. inversion H as [|? s1 ? ws1 H1 H2]; subst. by rewrite (IHs _ H1), (IH _ H2).
Qed.
