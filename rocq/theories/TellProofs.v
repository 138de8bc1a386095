(** * Printing among other goroutines (C123): proofs. *)
From Verif Require Import GoBase GoStrings GoStringsProofs LangModel DatasetModel DatasetSpec DatasetProofs DatasetProofs2 DatasetProofs3 TextSpec TextProofs
  ParModel ParProofs MeanSpec MeanProofs SnapModel SnapSpec SnapProofs SnapProofs2 TellModel TellSpec.
Local Open Scope nat_scope.

(** ** Alone *)
(** A goroutine that only reads. *)
Fixpoint quiet {A} (m : act A) : Prop := match m with Act w k => (forall h, w h = h) /\ forall h, quiet (k h) | _ => True end.
Lemma quiet_bind {A C} (m : act A) (f : A -> act C) : quiet m -> (forall a, quiet (f a)) -> quiet (abind m f).
Proof. intros Hm Hf. induction m as [a| | |w k IH]; cbn in *; try done. destruct Hm as [H1 H2]. split; [done|]. intros h. by apply IH. Qed.
Lemma quiet_catch {A} (m : act A) a : quiet m -> quiet (acatch m a).
Proof. intros Hm. induction m as [b| | |w k IH]; cbn in *; try done. destruct Hm as [H1 H2]. split; [done|]. intros h. by apply IH. Qed.
Lemma alone_catch {A} (m : act A) a h : quiet m -> alone (acatch m a) h = match alone m h with Panic => Ok (h, a) | x => x end.
Proof. induction m as [b| | |w k IH]; cbn; try done. intros [H1 H2]. rewrite H1. by apply IH. Qed.
Section Alone.
  Context (F : golib) (ord : heap -> gmap bytes value -> list (bytes * value)).
  Lemma quiet_value f go v : (forall go l, quiet (f go l)) -> quiet (p_value F f go v).
  Proof. intros Hf. destruct v; try done. by apply quiet_catch. Qed.
  Lemma quiet_words f l : (forall v, quiet (f v)) -> quiet (p_words f l).
  Proof. intros Hf. induction l as [|[k v] l IH]; [done|]. apply quiet_bind; [done|]. intros t. by apply quiet_bind. Qed.
  Lemma quiet_items f xs : (forall v, quiet (f v)) -> forall i, quiet (p_items f i xs).
  Proof. intros Hf. induction xs as [|x xs IH]; intros i; [done|]. apply quiet_bind; [done|]. intros t. by apply quiet_bind. Qed.
  Lemma quiet_show n : forall go l, quiet (p_show F ord n go l).
  Proof.
    induction n as [|n IH]; intros go l; [done|]. cbn [p_show quiet]. split; [done|]. intros h.
    destruct (h !! l) as [[m|[d|]|xs|xs]|]; [| |done| | |done].
    - apply quiet_bind; [|done]. apply quiet_words. intros v. by apply quiet_value.
    - apply IH.
    - apply quiet_bind; [|done]. apply quiet_items. intros v. by apply quiet_value.
    - apply quiet_bind; [|done]. apply quiet_items. intros v. by apply quiet_value.
  Qed.
  Lemma alone_value f g go v h : (forall go l, quiet (f go l)) -> (forall go l, alone (f go l) h = (t <-! g go l; Ok (h, t))) ->
    alone (p_value F f go v) h = (t <-! show_value F g go v; Ok (h, t)).
  Proof. intros Hq Hf. destruct v; try done. cbn [p_value show_value]. rewrite alone_catch by done. rewrite Hf. by destruct (g go l). Qed.
  Lemma alone_words f g l h : (forall v, alone (f v) h = (t <-! g v; Ok (h, t))) -> alone (p_words f l) h = (ts <-! show_entries g l; Ok (h, ts)).
  Proof.
    intros Hf. induction l as [|[k v] l IH]; [done|]. cbn [p_words show_entries]. rewrite alone_bind, Hf. destruct (g v); cbn [obind]; try done.
    rewrite alone_bind, IH. by destruct (show_entries g l).
  Qed.
  Lemma alone_items f g xs h : (forall v, alone (f v) h = (t <-! g v; Ok (h, t))) -> forall i, alone (p_items f i xs) h = (ts <-! show_elements g i xs; Ok (h, ts)).
  Proof.
    intros Hf. induction xs as [|x xs IH]; intros i; [done|]. cbn [p_items show_elements]. rewrite alone_bind, Hf. destruct (g _); cbn [obind]; try done.
    rewrite alone_bind, IH. by destruct (show_elements g (i + 1) xs).
  Qed.
  Lemma alone_show n h : forall go l, alone (p_show F ord n go l) h = (t <-! show F ord n h go l; Ok (h, t)).
  Proof.
    induction n as [|n IH]; intros go l; [done|]. cbn [p_show alone show]. destruct (h !! l) as [[m|[d|]|xs|xs]|]; [| |done| | |done].
    - rewrite alone_bind, (alone_words _ (show_value F (show F ord n h) go)) by (intros; apply alone_value; [apply quiet_show|done]). by destruct (show_entries _ _).
    - apply IH.
    - rewrite alone_bind, (alone_items _ (show_value F (show F ord n h) false)) by (intros; apply alone_value; [apply quiet_show|done]). by destruct (show_elements _ _ _).
    - rewrite alone_bind, (alone_items _ (show_value F (show F ord n h) false)) by (intros; apply alone_value; [apply quiet_show|done]). by destruct (show_elements _ _ _).
  Qed.
End Alone.

(** ** Data that stay whole: nothing to recover from *)
Lemma unharmed_catch {A} (m : act A) a : forall h, mindful h m -> unharmed h (acatch m a).
Proof. induction m as [b| | |w k IH]; intros h; cbn; try done. intros H h1 Hs Hg. destruct (H h1 Hs Hg) as (? & ? & ?). auto. Qed.
Section Print.
  Context (F : golib) (ord : heap -> gmap bytes value -> list (bytes * value)) (Hord : order_ok ord).
  Lemma unharmed_value (f : bool -> loc -> act bytes) : (forall h go l, is_Some (h !! l) -> unharmed h (f go l)) ->
    forall h go v, (forall r, v = VRef r -> is_Some (h !! r)) -> unharmed h (p_value F f go v).
  Proof using. intros Hf h go v Hv. destruct v; try done. apply unharmed_catch, unharmed_mindful, Hf. by apply Hv. Qed.
  Lemma unharmed_words (f : value -> act bytes) : (forall h v, (forall r, v = VRef r -> is_Some (h !! r)) -> unharmed h (f v)) ->
    forall l h, (forall k r, (k, VRef r) ∈ l -> is_Some (h !! r)) -> unharmed h (p_words f l).
  Proof using.
    intros Hf. induction l as [|[k v] l IH]; intros h Hl; cbn [p_words]; [done|]. apply unharmed_bind; [apply Hf; intros r ->; apply (Hl k); by left|].
    intros t h' Hk. apply unharmed_bind; [|done]. apply IH. intros k' r Hin. apply Hk, (Hl k'). by right.
  Qed.
  Lemma unharmed_items (f : value -> act bytes) : (forall h v, (forall r, v = VRef r -> is_Some (h !! r)) -> unharmed h (f v)) ->
    forall xs i h, (forall x, x ∈ xs -> exists r, x = Some r /\ is_Some (h !! r)) -> unharmed h (p_items f i xs).
  Proof using.
    intros Hf. induction xs as [|x xs IH]; intros i h Hl; cbn [p_items]; [done|]. apply unharmed_bind.
    - apply Hf. destruct (Hl x) as (r & -> & Hr); [by left|]. by intros ? [= <-].
    - intros t h' Hk. apply unharmed_bind; [|done]. apply IH. intros x' Hx. destruct (Hl x') as (r & -> & Hr); [by right|]. exists r. auto.
  Qed.
  Lemma unharmed_show n : forall h go l, is_Some (h !! l) -> unharmed h (p_show F ord n go l).
  Proof using Hord.
    induction n as [|n IH]; intros h go l Hl; [done|]. cbn [p_show unharmed]. intros h1 Hw Hk. split; [done|]. split; [apply kept_refl|].
    destruct (Hk l Hl) as [o Ho]. pose proof (proj1 (whole_sane h1) Hw l o Ho) as Hs. rewrite Ho. destruct o as [m|d|xs|xs]; cbn in Hs.
    - apply unharmed_bind; [|done]. apply unharmed_words; [intros; by apply unharmed_value|]. intros k r Hin. rewrite (Hord h1 m) in Hin. apply elem_of_map_to_list in Hin. by apply (Hs k).
    - destruct Hs as (r & -> & Hr). by apply IH.
    - apply unharmed_bind; [|done]. apply unharmed_items; [intros; by apply unharmed_value|done].
    - apply unharmed_bind; [|done]. apply unharmed_items; [intros; by apply unharmed_value|done].
  Qed.
  (** A course in which the data stay whole. *)
  Context (H : nat -> heap) (T : nat) (HW : forall m, m <= T -> SnapSpec.whole (H m)) (HK : forall m, m < T -> kept (H m) (H (S m))).
  Lemma kept_between i j : i <= j -> j <= T -> kept (H i) (H j).
  Proof using HK. intros Hij. induction Hij as [|j Hij IH]; intros Hj; [apply kept_refl|]. eapply kept_trans; [apply IH; lia|]. apply HK. lia. Qed.
  Lemma during_later {A} (m : act A) : forall i j a, during H m i j a -> i <= j.
  Proof using. induction m as [b| | |w k IH]; intros i j a; cbn; try done; [by intros [-> _]|]. intros (t & Ht & _ & D). apply IH in D. lia. Qed.
  Lemma during_catch {A} (m : act A) a : forall i j b, unharmed (H i) m -> j <= T -> during H (acatch m a) i j b -> during H m i j b.
  Proof using HW HK.
    induction m as [c| | |w k IH]; intros i j b Hu Hj; cbn [acatch during]; try done. intros (t & Ht & Hw & D). exists t. split; [done|]. split; [done|].
    pose proof (during_later _ _ _ _ D) as Hl. apply IH; [|done|done]. rewrite Hw. cbn in Hu. apply Hu; [apply HW; lia|]. apply kept_between; lia.
  Qed.
  (** The objects that are printed, as a copy. *)
  Section Body.
    Context (n : nat) (IH : forall go l i j s, is_Some (H i !! l) -> j <= T -> during H (p_show F ord n go l) i j s -> exists t, snap H i l j t /\ says F go t s).
    Lemma value_ref go l i j s : is_Some (H i !! l) -> j <= T -> during H (p_value F (p_show F ord n) go (VRef l)) i j s -> exists t, snap H i l j t /\ says F go t s.
    Proof using HW HK IH Hord. intros Hl Hj D. apply IH; [done|done|]. apply (during_catch _ (panic_text go)); [by apply unharmed_show|done|done]. Qed.
    Lemma words_snap go l : forall i j ws, (forall k r, (k, VRef r) ∈ l -> is_Some (H i !! r)) -> j <= T -> during H (p_words (p_value F (p_show F ord n) go) l) i j ws ->
      exists es ps, snap_entries H i l j es /\ says_entries F go es ps /\ ws = map (fun kv => kv.1 ++ B ":" ++ kv.2) ps.
    Proof using HW HK IH Hord.
      induction l as [|[k v] l IHl]; intros i j ws Hl Hj D; cbn [p_words] in D.
      - destruct D as [-> <-]. exists [], []. split; [constructor|]. split; [constructor|done].
      - apply during_bind in D as (i1 & s & D1 & D). apply during_bind in D as (i2 & ws' & D2 & [-> <-]). pose proof (during_later _ _ _ _ D1) as La. pose proof (during_later _ _ _ _ D2) as Lb.
        destruct (IHl i1 i2 ws') as (es & ps & H1 & H2 & ->); [|done|done|].
        { intros k' r Hin. apply (kept_between i i1); [lia|lia|]. eapply Hl. by right. }
        assert (Hc : (exists r, v = VRef r) \/ forall d, v <> VRef d) by (destruct v; eauto; by right). destruct Hc as [[r ->]|Hv].
        + destruct (value_ref go r i i1 s) as (t & S1 & S2); [eapply Hl; by left|lia|done|]. exists ((k, t) :: es), ((k, s) :: ps).
          split; [by econstructor|]. split; [by constructor|done].
        + assert (D1' : during H (Ret (if go then go_text F v else plain_text F v)) i i1 s) by (destruct v; try done; by destruct (Hv l0)). destruct D1' as [-> <-].
          exists ((k, Leaf v) :: es), ((k, if go then go_text F v else plain_text F v) :: ps). split; [by constructor|]. split; [constructor; [constructor|done]|done].
    Qed.
    Lemma items_snap xs : forall z i j s, (forall x, x ∈ xs -> exists r, x = Some r /\ is_Some (H i !! r)) -> j <= T ->
      during H (p_items (p_value F (p_show F ord n) false) z xs) i j s -> exists ts ws, snap_elements H i xs j ts /\ says_elements F ts ws /\ numbered z ws s.
    Proof using HW HK IH Hord.
      induction xs as [|x xs IHl]; intros z i j s Hl Hj D; cbn [p_items] in D.
      - destruct D as [-> <-]. exists [], []. split; [constructor|]. split; constructor.
      - apply during_bind in D as (i1 & s1 & D1 & D). apply during_bind in D as (i2 & s2 & D2 & [-> <-]). pose proof (during_later _ _ _ _ D1) as La. pose proof (during_later _ _ _ _ D2) as Lb.
        destruct (IHl (z + 1)%Z i1 i2 s2) as (ts & ws & H1 & H2 & H3); [|done|done|].
        { intros x' Hin. destruct (Hl x') as (r & -> & Hr); [by right|]. exists r. split; [done|]. apply (kept_between i i1); [lia|lia|done]. }
        destruct (Hl x) as (r & -> & Hr); [by left|]. destruct (value_ref false r i i1 s1) as (t & S1 & S2); [done|lia|done|]. exists (t :: ts), (s1 :: ws).
        split; [by econstructor|]. split; [by constructor|]. by constructor.
    Qed.
  End Body.
  Lemma show_snap n : forall go l i j s, is_Some (H i !! l) -> j <= T -> during H (p_show F ord n go l) i j s -> exists t, snap H i l j t /\ says F go t s.
  Proof using HW HK Hord.
    induction n as [|n IH]; intros go l i j s Hl Hj D; [done|]. destruct D as (m & Hm & _ & D). pose proof (during_later _ _ _ _ D) as Hlt.
    assert (Hl' : is_Some (H m !! l)) by (apply (kept_between i m); [done|lia|done]). destruct Hl' as [o Ho].
    pose proof (proj1 (whole_sane (H m)) (HW m ltac:(lia)) l o Ho) as Hs. rewrite Ho in D.
    assert (Hx : forall r, is_Some (H m !! r) -> is_Some (H (S m) !! r)) by (apply (HK m); lia).
    destruct o as [mp|d|xs|xs]; cbn in Hs.
    - apply during_bind in D as (i1 & ws & D & [-> <-]). destruct (words_snap n IH go (ord (H m) mp) (S m) i1 ws) as (es & ps & H1 & H2 & ->); [|done|done|].
      { intros k r Hin. apply Hx. rewrite (Hord (H m) mp) in Hin. apply elem_of_map_to_list in Hin. by apply (Hs k). }
      exists (Node es). split; [eapply sn_ds; [exact Hm|exact Ho|apply Hord|exact H1]|]. eapply sy_node; [exact H2|]. by apply braced_spec.
    - destruct Hs as (r & -> & Hr). destruct (IH go r (S m) j s) as (t & H1 & H2); [by apply Hx|done|done|]. exists (Wrap t). split; [by eapply sn_ts|by constructor].
    - apply during_bind in D as (i1 & ws & D & [-> <-]). destruct (items_snap n IH xs 0%Z (S m) i1 ws) as (ts & ps & H1 & H2 & H3); [|done|done|].
      { intros x Hin. destruct (Hs x Hin) as (r & -> & Hr). exists r. auto. }
      exists (Coll false ts). split; [eapply (sn_coll _ _ _ _ false); [exact Hm|exact Ho|exact H1]|]. by apply (sy_coll F go false ts ps ws).
    - apply during_bind in D as (i1 & ws & D & [-> <-]). destruct (items_snap n IH xs 0%Z (S m) i1 ws) as (ts & ps & H1 & H2 & H3); [|done|done|].
      { intros x Hin. destruct (Hs x Hin) as (r & -> & Hr). exists r. auto. }
      exists (Coll true ts). split; [eapply (sn_coll _ _ _ _ true); [exact Hm|exact Ho|exact H1]|]. by apply (sy_coll F go true ts ps ws).
  Qed.
End Print.
